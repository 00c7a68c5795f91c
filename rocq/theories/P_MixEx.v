(* Witnesses and examples for the Gibbs theorems. *)
From Coq Require Import Lqa.
From Verif Require Import Prelude Numpy Rng M_Weights M_Niw M_Utils M_Mix M_Query S_Oracle S_Niw S_Mix S_MixEx.
Open Scope Q_scope.

Definition o_half : oracle := ex_oracle (1 # 2) (fr (1 # 2)) true by_sign.
Definition o_zero : oracle := ex_oracle (1 # 2) (fr (1 # 2)) true (fun _ => 0%nat).
Definition o_top : oracle := ex_oracle (1 # 2) (fun g => if Nat.eqb (length g) 20 then 1 - (1 # 2 ^ 60) else 1 # 4) true by_sign.
Lemma o_half_valid : valid_oracle o_half.
Proof. apply ex_oracle_valid; [split; discriminate|]. intros g. unfold fr. lra. Qed.
Lemma o_zero_valid : valid_oracle o_zero.
Proof. apply ex_oracle_valid; [split; discriminate|]. intros g. unfold fr. lra. Qed.
Lemma o_top_valid : valid_oracle o_top.
Proof. apply ex_oracle_valid; [split; discriminate|]. intros g. destruct (Nat.eqb _ _); split; try discriminate; reflexivity. Qed.
Lemma flat_finite : finite_env flat_env.
Proof.
  intros rows a l [= <-]. split; [apply map_length|]. apply Forall_forall. intros x Hx. apply in_map_iff in Hx as (r & <- & _). eauto.
Qed.
Definition y3 : yarg := YList1 [-1; 2; 3].
Definition y2 : yarg := YList1 [-1; 1].
Definition y4 : yarg := YList1 [-1; 2; 3; 4].
Definition cold (y : yarg) : mop := MGibbs y SNone false IKmeans.

Lemma ex_history E c narg total burn sub o ops y ig meth :
  ex_out (ex_last E c narg total burn sub o ops (MGibbs y ig false meth)) = Ok tt ->
  gibbs_history E c 60 o (ex_st (ex_last E c narg total burn sub o ops (MGibbs y ig false meth))) (snd (ex_last E c narg total burn sub o ops (MGibbs y ig false meth))).
Proof. intros H. apply ex_last_ok in H. eapply gh_cold. exact H. Qed.

(* a failed fit on other data leaves an affinity table of the wrong size *)
Lemma c34_refuted_proof : exists E QE c fuel o ops s0 g0 s g,
  valid_oracle o /\ new_mix c 0 0 None 1 None None 2 1 1 o = Ok (s0, g0) /\ run_mops E c fuel ops o s0 g0 = (s, g) /\
  s_gfit s = true /\ (exists r, get_sim_params s = [r] /\ length (r_d r) = 3%nat) /\
  gibbs_eap_affinity_matrix QE s None = Ok [[None; None]; [None; None]].
Proof.
  exists flat_env, flat_qenv, (CDP 1), 60%nat, o_half, [cold y3; MGibbs y2 SNone false IOther; MGibbs y3 SNone true IKmeans].
  eexists _, _, _, _. split; [apply o_half_valid|]. split; [vm_compute; reflexivity|]. split; [vm_compute; reflexivity|].
  split; [reflexivity|]. split; [eexists; split; reflexivity|reflexivity].
Qed.

(* the first sweep after a refit can be out of range *)
Lemma c37_frequency_refuted_proof : exists E c fuel o s0 g0 s1 g1 s2 g2,
  valid_oracle o /\ finite_env E /\ new_mix c 0 0 None 1 None None 2 1 1 o = Ok (s0, g0) /\
  fit_gibbs E c fuel (YList1 [-1; -2]) SNone false IKmeans o s0 g0 = (Ok tt, s1, g1) /\
  fit_gibbs E c fuel (YList1 [-1; 2; 3; 4]) SNone false IKmeans o s1 g1 = (Err IndexError, s2, g2).
Proof.
  exists flat_env, (CFreq 2), 60%nat, o_half. eexists _, _, _, _, _, _.
  split; [apply o_half_valid|]. split; [apply flat_finite|]. split; [vm_compute; reflexivity|]. split; [vm_compute; reflexivity|vm_compute; reflexivity].
Qed.
Lemma c37_equal_refuted_proof : exists E c fuel o s0 g0 s1 g1 s2 g2 s3 g3,
  valid_oracle o /\ finite_env E /\ new_mix c 0 4 None 1 None None 2 1 1 o = Ok (s0, g0) /\
  fit_gibbs E c fuel (YList1 [-1; 2; 3; 4]) SNone false IKmeans o s0 g0 = (Ok tt, s1, g1) /\
  fit_variational E c (YList1 [-1; 2; 3; 4]) (SInt 2) false 1 IKmeans o s1 g1 = (Ok tt, s2, g2) /\
  fit_gibbs E c fuel (YList1 [-1; 2; 3; 4]) SNone true IKmeans o s2 g2 = (Err IndexError, s3, g3).
Proof.
  exists flat_env, CEqual, 60%nat, o_zero. eexists _, _, _, _, _, _, _, _.
  split; [apply o_zero_valid|]. split; [apply flat_finite|]. split; [vm_compute; reflexivity|]. split; [vm_compute; reflexivity|]. split; [vm_compute; reflexivity|vm_compute; reflexivity].
Qed.

(* an observation ends up in a component of weight 0, above which its slice is *)
Lemma c38_zero_weight_refuted_proof : exists E c fuel o s0 g0 s g i,
  valid_oracle o /\ finite_env E /\ new_mix c 0 0 None 1 None None 2 0 1 o = Ok (s0, g0) /\
  fit_gibbs E c fuel (YList1 [-1; -2; 3]) SNone false IKmeans o s0 g0 = (Ok tt, s, g) /\ (i < length (labels_of s))%nat /\
  nth (nth i (labels_of s) 0%nat) (w (s_wm s)) 0 == 0 /\ 0 < nth i (s_u s) 0.
Proof.
  exists flat_env, (CFreq 3), 60%nat, o_top. eexists _, _, _, _, 0%nat.
  split; [apply o_top_valid|]. split; [apply flat_finite|]. split; [vm_compute; reflexivity|]. split; [vm_compute; reflexivity|].
  split; [vm_compute; lia|]. split; [vm_compute; reflexivity|vm_compute; reflexivity].
Qed.

(* the initial state stays the best one and has no atom for most weights *)
Lemma c39_map_refuted_proof : exists E QE c fuel o s0 g0 s g,
  valid_oracle o /\ finite_env E /\ no_key QE /\ new_mix c 0 4 None 1 None None 2 1 1 o = Ok (s0, g0) /\
  fit_gibbs E c fuel (YList1 [-1; 2; 3; 4]) SNone false IKmeans o s0 g0 = (Ok tt, s, g) /\
  gibbs_map_density QE s None DNone None = Err KeyError /\ gibbs_map_cluster QE s None = Err KeyError.
Proof.
  exists flat_env, flat_qenv, CEqual, 60%nat, o_zero. eexists _, _, _, _.
  split; [apply o_zero_valid|]. split; [apply flat_finite|]. split; [split; intros; discriminate|]. split; [vm_compute; reflexivity|].
  split; [vm_compute; reflexivity|]. split; [vm_compute; reflexivity|vm_compute; reflexivity].
Qed.
