(* Witnesses and examples about the iteration settings. *)
From Verif Require Import Prelude Numpy Rng M_Weights M_Niw M_Utils M_Mix M_Query S_Oracle S_Mix S_Map S_Chain S_MixEx P_MixEx.
Open Scope Q_scope.

(* a variational fit that swaps the groups at each iteration *)
Definition swap_env : env := {| e_logpdf := e_logpdf flat_env; e_log := e_log flat_env; e_argsort := e_argsort flat_env; e_inv := e_inv flat_env;
  e_vd := fun y x => Ok (rev (vresp x)); e_vtheta := e_vtheta flat_env; e_elbo := e_elbo flat_env |}.
Lemma c74_variational_refuted_proof : exists E c fuel o s0 g0 s1 g1 s2 g2 r1 r2,
  valid_oracle o /\ new_mix c 0 2 None 1 None None 1 0 1 o = Ok (s0, g0) /\
  fit_gibbs E c fuel y3 SNone false IVariational o s0 g0 = (Ok tt, s1, g1) /\
  fit_gibbs E c fuel y3 SNone false IVariational o (with_settings 2 0 1 s0) g0 = (Ok tt, s2, g2) /\
  nth_error (s_sims s1) 0 = Some r1 /\ nth_error (s_sims s2) 0 = Some r2 /\ r_theta r1 <> r_theta r2.
Proof.
  exists swap_env, CEqual, 60%nat, o_half. eexists _, _, _, _, _, _, _, _. split; [apply o_half_valid|]. split; [vm_compute; reflexivity|].
  split; [vm_compute; reflexivity|]. split; [vm_compute; reflexivity|]. split; [reflexivity|]. split; [reflexivity|discriminate].
Qed.
(* burn_in counts again in the second fit *)
Definition o_vary : oracle := ex_oracle (1 # 2) (fun g => 1 # (2 + Pos.of_nat (length g))) true by_sign.
Lemma o_vary_valid : valid_oracle o_vary.
Proof.
  apply ex_oracle_valid; [split; discriminate|]. intros g. split; [discriminate|]. unfold Qlt. cbn [Qnum Qden]. lia.
Qed.
Lemma c75_burn_refuted_proof : exists E c fuel o s0 g0 s1 g1 s2 g2 s3 g3,
  valid_oracle o /\ new_mix c 0 0 None 1 None None 2 1 1 o = Ok (s0, g0) /\
  fit_gibbs E c fuel y3 SNone false IKmeans o s0 g0 = (Ok tt, s1, g1) /\ fit_gibbs E c fuel y3 SNone true IKmeans o s1 g1 = (Ok tt, s2, g2) /\
  fit_gibbs E c fuel y3 SNone false IKmeans o (with_settings 4 1 1 s0) g0 = (Ok tt, s3, g3) /\
  length (s_sims s2) = 2%nat /\ length (s_sims s3) = 3%nat.
Proof.
  exists flat_env, (CDP 1), 60%nat, o_vary. eexists _, _, _, _, _, _, _, _. split; [apply o_vary_valid|]. split; [vm_compute; reflexivity|].
  split; [vm_compute; reflexivity|]. split; [vm_compute; reflexivity|]. split; [vm_compute; reflexivity|]. split; reflexivity.
Qed.
Lemma chain_facts : exists s0 g0 s1 g1 s2 g2 s3 g3 r1 r2 r3, new_mix (CDP 1) 0 0 None 1 None None 5 1 2 o_vary = Ok (s0, g0) /\
  fit_gibbs flat_env (CDP 1) 60 y3 SNone false IKmeans o_vary (with_settings 5 0 1 s0) g0 = (Ok tt, s1, g1) /\
  fit_gibbs flat_env (CDP 1) 60 y3 SNone false IKmeans o_vary (with_settings 5 1 2 s0) g0 = (Ok tt, s2, g2) /\
  fit_gibbs flat_env (CDP 1) 60 y3 SNone false IKmeans o_vary (with_settings 3 0 1 s0) g0 = (Ok tt, s3, g3) /\
  s_total s0 = 5%Z /\ s_sims s2 = [r1; r2] /\ nth_error (s_sims s1) 3 = Some r3 /\ r_u r1 <> r_u r2.
Proof.
  eexists _, _, _, _, _, _, _, _, _, _, _. split; [vm_compute; reflexivity|]. split; [vm_compute; reflexivity|]. split; [vm_compute; reflexivity|].
  split; [vm_compute; reflexivity|]. split; [reflexivity|]. split; [reflexivity|]. split; [reflexivity|discriminate].
Qed.
Lemma continue_facts : exists s0 g0 s1 g1 s2 g2 s3 g3 r1 r2 r3, new_mix (CDP 1) 0 0 None 1 None None 5 1 2 o_vary = Ok (s0, g0) /\
  fit_gibbs flat_env (CDP 1) 60 y3 SNone false IKmeans o_vary (with_settings (2 * 2) 0 2 s0) g0 = (Ok tt, s1, g1) /\
  fit_gibbs flat_env (CDP 1) 60 y3 SNone true IKmeans o_vary (with_settings 1 0 2 s1) g1 = (Ok tt, s2, g2) /\
  fit_gibbs flat_env (CDP 1) 60 y3 SNone false IKmeans o_vary (with_settings (2 * 2 + 1) 0 2 s0) g0 = (Ok tt, s3, g3) /\
  s_sims s2 = [r1; r2; r3] /\ r_u r1 <> r_u r3.
Proof.
  eexists _, _, _, _, _, _, _, _, _, _, _. split; [vm_compute; reflexivity|]. split; [vm_compute; reflexivity|]. split; [vm_compute; reflexivity|].
  split; [vm_compute; reflexivity|]. split; [reflexivity|discriminate].
Qed.
