(* Witnesses for the theorems about queries. *)
From Coq Require Import Lqa.
From Verif Require Import Prelude Numpy Rng M_Weights M_Niw M_Utils M_Mix M_Query S_Oracle S_Weights S_Niw S_Mix S_Sort S_Query S_VarFit S_MixEx P_Lists P_Niw P_MixEx P_Dens P_Clu P_VarQ.
Open Scope Q_scope.

Lemma ex_qenv_ok pd : (forall r m, 0 <= pd r m) -> pdf_ok (ex_qenv pd).
Proof.
  intros H. split; intros x m c l [= <-]; (split; [|apply map_length]); apply Forall_forall; intros z Hz; apply in_map_iff in Hz as (r & <- & _); apply H.
Qed.
Definition square_qenv : qenv := ex_qenv (fun r m => vat r 0 * vat r 0).
Lemma square_ok : pdf_ok square_qenv.
Proof. apply ex_qenv_ok. intros r m. apply sq_nonneg. Qed.
(* the marginal of coordinate 1 is not evaluated at coordinate 1 *)
Lemma c65_column_refuted_proof : exists QE x r i v, pdf_ok QE /\ r_w r <> [] /\
  mixture_density QE x false (r_w r) (r_theta r) (DInt (Z.of_nat i)) None = Ok v /\ ~ marginal_at i QE x r i v.
Proof.
  exists square_qenv, [[1; 2]], (RP [1] [(0%nat, ([0; 0], [[1; 0]; [0; 1]]))] [] []), 1%nat. eexists. split; [apply square_ok|]. split; [discriminate|]. split; [vm_compute; reflexivity|].
  intros (ls & L & H & _ & V). simpl in L, H, V. destruct (H 0%nat ltac:(lia)) as (a & Ea & _ & Eq). injection Ea as <-. 
  specialize (V 0%nat ltac:(lia)). destruct ls as [|l [|]]; try discriminate L. simpl in Eq, V. injection Eq as <-. vm_compute in V. discriminate V.
Qed.
(* positive density only for atoms with mean less than one *)
Definition left_qenv : qenv := ex_qenv (fun r m => if qltb (vat m 0) 1 then 1 else 0).
Lemma left_ok : pdf_ok left_qenv.
Proof. apply ex_qenv_ok. intros r m. destruct (qltb (vat m 0) 1); lra. Qed.
(* atoms at the prior mean are unlikely *)
Definition off_env : env := ex_env (fun r a => if Qeq_bool (vat (fst a) 0) (4 # 3) then LQ (-10) else LQ 0).
Definition ex_fit : res unit * ms * rng := ex_last off_env (CDP 1) 0 2 1 1 o_half [] (cold y3).
Definition ex_theta : list (nat * atom) := [(0%nat, ([19 # 9], [[155 # 27]])); (1%nat, ([1 # 6], [[127 # 18]])); (2%nat, ([4 # 3], [[13 # 3]]))].
(* what the examples need to know about this fit *)
Lemma ex_fit_facts : exists s0 g0 s g r, new_mix (CDP 1) 0 0 None 1 None None 2 1 1 o_half = Ok (s0, g0) /\
  fit_gibbs off_env (CDP 1) 60 (YList1 [-1; 2; 3]) SNone false IKmeans o_half s0 g0 = (Ok tt, s, g) /\
  s_map s = Some r /\ get_sim_params s = [r] /\ s_y s = [[-1]; [2]; [3]] /\ s_1d s = false /\ r_w r = [1 # 2; 1 # 4; 1 # 8] /\ r_theta r = ex_theta /\ s_gfit s = true.
Proof.
  eexists _, _, _, _, _. split; [vm_compute; reflexivity|]. split; [vm_compute; reflexivity|]. repeat split; reflexivity.
Qed.
(* every observation belongs to component 1 and has label 0 *)
Lemma c44_index_refuted_proof : exists E QE c fuel o s0 g0 s g lab unc r grp,
  valid_oracle o /\ pdf_ok QE /\ new_mix c 0 0 None 1 None None 2 1 1 o = Ok (s0, g0) /\
  fit_gibbs E c fuel (YList1 [-1; 2; 3]) SNone false IKmeans o s0 g0 = (Ok tt, s, g) /\ gibbs_map_cluster QE s None = Ok (lab, unc) /\
  s_map s = Some r /\ clusters QE (s_y s) r grp lab unc /\ lab = [0; 0; 0]%nat /\ grp = [1; 1; 1]%nat.
Proof.
  destruct ex_fit_facts as (s0 & g0 & s & g & r & H0 & H1 & M & _ & Y & D1 & W & T & F).
  assert (K : cluster left_qenv (s_y s) (r_w r) (r_theta r) = Ok ([0; 0; 0]%nat, [Some (0 # 64); Some (0 # 64); Some (0 # 64)])) by (rewrite Y, W, T; vm_compute; reflexivity).
  assert (C : gibbs_map_cluster left_qenv s None = Ok ([0; 0; 0]%nat, [Some (0 # 64); Some (0 # 64); Some (0 # 64)])) by (unfold gibbs_map_cluster; rewrite F; cbn [negb cast_obs rbind fst]; unfold get_map; rewrite M; exact K).
  apply cluster_ok in K as (_ & _ & grp & K); [|apply left_ok|rewrite W; repeat constructor; lra].
  exists off_env, left_qenv, (CDP 1), 60%nat, o_half, s0, g0, s, g. eexists _, _, r, grp.
  split; [apply o_half_valid|]. split; [apply left_ok|]. split; [exact H0|]. split; [exact H1|]. split; [exact C|]. split; [exact M|]. split; [exact K|]. split; [reflexivity|].
  clear C H0 H1. destruct K as (ls & (L & A) & G & _ & _ & H & _). rewrite Y in *. rewrite W in *. rewrite T in *. simpl in L, A, G, H.
  assert (Els : ls = [[0; 0; 0]; [1; 1; 1]; [0; 0; 0]]).
  {
    destruct ls as [|l0 [|l1 [|l2 [|]]]]; try discriminate L.
    destruct (A 0%nat ltac:(lia)) as (a0 & E0 & Q0). destruct (A 1%nat ltac:(lia)) as (a1 & E1 & Q1). destruct (A 2%nat ltac:(lia)) as (a2 & E2 & Q2).
    injection E0 as <-. injection E1 as <-. injection E2 as <-. vm_compute in Q0, Q1, Q2. injection Q0 as <-. injection Q1 as <-. injection Q2 as <-. reflexivity. }
  assert (B : forall i, (i < 3)%nat -> nth i grp 0%nat = 1%nat).
  { intros i Hi. destruct (H i Hi) as [[[Z _]|[_ X]] _]; rewrite Els in *.
    - exfalso. destruct i as [|[|[|]]]; try lia; vm_compute in Z; discriminate Z.
    - eapply first_max_unique; [exact X|]. destruct i as [|[|[|]]]; try lia; apply argmax_spec; discriminate. }
  destruct grp as [|a [|b [|d [|]]]]; try discriminate G. pose proof (B 0%nat ltac:(lia)). pose proof (B 1%nat ltac:(lia)). pose proof (B 2%nat ltac:(lia)). simpl in *. congruence.
Qed.
(* ---- variational ---- *)
Lemma sum_repeat {A} (f : A -> Q) x n : sum_over f (repeat x n) == nq n * f x.
Proof. induction n; cbn [repeat sum_over]; [unfold nq; simpl; ring|]. rewrite IHn, nq_S. ring. Qed.
Lemma nth_repeat_lt {A} (x d : A) n i : (i < n)%nat -> nth i (repeat x n) d = x.
Proof. revert i. induction n; intros [|i] H; simpl; try lia; [reflexivity|apply IHn; lia]. Qed.
Lemma flat_resp lp : resp_env (ex_env lp).
Proof.
  intros y v k D K Hk H. simpl in H. rewrite K in H. injection H as <-. split; [apply repeat_length|]. split; [apply Forall_forall; intros r Hr; apply repeat_spec in Hr; subst; apply repeat_length|].
  assert (Pk : 0 < zq k) by (unfold zq, Qlt; simpl; lia).
  assert (En : forall i j, (i < length y)%nat -> (j < Z.to_nat k)%nat -> entry (repeat (repeat (1 / zq k) (length y)) (Z.to_nat k)) j i = 1 / zq k).
  { intros i j Hi Hj. unfold entry. rewrite (nth_repeat_lt _ [] _ _ Hj), (nth_repeat_lt _ 0 _ _ Hi). reflexivity. }
  intros i Hi. split; [intros j Hj; rewrite En by assumption; apply Qlt_shift_div_l; [exact Pk|lra]|].
  rewrite (sum_ext _ (fun _ => 1 / zq k)) by (intros j Hj; apply in_seq in Hj; rewrite En by lia; reflexivity).
  rewrite sum_const, seq_length. assert (X : nq (Z.to_nat k) = zq k) by (unfold nq, zq; rewrite Z2Nat.id by lia; reflexivity). rewrite X. field. lra.
Qed.
Definition nan_env : env := {|
  e_logpdf := e_logpdf flat_env; e_log := e_log flat_env; e_argsort := ex_argsort; e_inv := e_inv flat_env; e_vd := e_vd flat_env;
  e_vtheta := e_vtheta flat_env; e_elbo := fun _ _ _ => Ok LNan |}.
Definition two_resp : qenv := {| q_pdf := q_pdf flat_qenv; q_norm := q_norm flat_qenv; q_spectral := q_spectral flat_qenv; q_student := q_student flat_qenv; q_normal := q_normal flat_qenv;
  q_mean_w := q_mean_w flat_qenv; q_mode_w := q_mode_w flat_qenv; q_resp := fun _ _ _ => Ok [[1 # 2; 1 # 3; 1 # 4]; [1 # 2; 2 # 3; 3 # 4]] |}.
