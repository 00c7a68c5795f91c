(* The weights of a mixture object stay sub-probabilities (C64). *)
From Verif Require Import Prelude Numpy Rng M_Weights M_Niw M_Utils M_Mix M_Query S_Oracle S_Weights S_Mix P_Hoare P_Inv P_Mix P_Mix33 P_Map.
Open Scope Q_scope.
Open Scope m_scope.

Definition okm (s : ms) : Prop :=
  okw (s_wm s) /\ Forall (fun r => subprob (r_w r)) (s_sims s) /\ match s_map s with Some r => subprob (r_w r) | None => True end.
Definition wview (s : ms) := (s_wm s, s_sims s, s_map s).
Definition any {A} (_ : A) : Prop := True.
Definition prs {A} (m : M ms A) : Prop := tri okm m any.
Lemma prs_keeps {A} (m : M ms A) : keeps wview m -> prs m.
Proof.
  intros K o _ s g H. specialize (K o s g). destruct (m o s g) as [[r s'] g']. simpl in K. unfold wview in K. injection K as K1 K2 K3.
  split; [|destruct r; exact I]. unfold okm. rewrite K1, K2, K3. exact H.
Qed.
Lemma prs_bind {A B} (m : M ms A) (k : A -> M ms B) : prs m -> (forall a, prs (k a)) -> prs (bind m k).
Proof.
  intros Hm Hk o V s g H. specialize (Hm o V s g H). unfold bind. destruct (m o s g) as [[[a|e|] s'] g']; destruct Hm as [Hm _]; [|auto|auto].
  apply (Hk a o V s' g' Hm).
Qed.
Lemma prs_onw {A} (m : M ws A) R : tri okw m R -> prs (onw m).
Proof.
  intros H o V s g (H1 & H2 & H3). specialize (H o V (s_wm s) g H1). unfold onw. destruct (m o (s_wm s) g) as [[r x] g']. destruct H as [H _].
  split; [|destruct r; exact I]. split; [exact H|split; assumption].
Qed.
Lemma wm_fit_var_ok c k : tri okw (wm_fit_var c k) any.
Proof.
  intros o V s g H. unfold wm_fit_var, ret, raise, upd.
  destruct c; try (split; [exact H|exact I]);
    repeat match goal with |- context [if ?b then _ else _] => destruct b end; try (split; [exact H|exact I]).
Qed.
Lemma wm_fit_ok dd : tri okw (wm_fit dd) any.
Proof. intros o V s g H. unfold wm_fit, upd. split; [exact H|exact I]. Qed.
Ltac prk := solve [apply prs_keeps; keep; try reflexivity; first [apply keeps_update_atoms; reflexivity|apply keeps_prior_vatoms; reflexivity]].
Lemma prs_tail c fuel : prs (tail_to_slice c fuel).
Proof.
  unfold tail_to_slice. apply prs_bind; [prk|intros s]. destruct (is_nil _); [prk|].
  apply prs_bind; [eapply prs_onw, wm_tail_ok|intros ?; prk].
Qed.
Lemma prs_step E c fuel : prs (gibbs_step E c fuel).
Proof.
  unfold gibbs_step. apply prs_bind; [unfold update_all_atoms; prk|intros _].
  apply prs_bind; [|intros _; apply prs_keeps, keeps_update_d; reflexivity].
  unfold update_weights. apply prs_bind; [prk|intros s]. apply prs_bind; [eapply prs_onw, wm_fit_ok|intros _].
  apply prs_bind; [eapply prs_onw, wm_random_ok|intros x]. destruct (s_d s); [|prk]. destruct (gather x l); [|prk].
  apply prs_bind; [prk|intros u]. apply prs_bind; [prk|intros _; apply prs_tail].
Qed.
Lemma prs_map E c : prs (update_map E c).
Proof.
  unfold update_map. apply prs_bind.
  { unfold run_loglik. apply prs_bind; [prk|intros s]. apply prs_bind; [apply prs_keeps, keeps_y_loglik; reflexivity|intros a].
    apply prs_bind; [eapply prs_onw, wm_assign_ok|intros xs; prk]. }
  assert (U : forall l, prs (upd (fun s => upd_map (Some (get_run_params s)) (l s) s))).
  { intros l o V s g (H1 & H2 & H3). split; [|exact I]. split; [exact H1|]. split; [exact H2|apply H1]. }
  intros l. apply prs_bind; [prk|intros s]. destruct (lx_ltb _ _); [apply (U (fun _ => l))|]. destruct (lx_is_neg _); [apply (U (fun s => s_mapll s))|prk].
Qed.
Lemma prs_sweep E c fuel : prs (sweep E c fuel).
Proof. apply prs_bind; [apply prs_step|intros _; apply prs_map]. Qed.
Lemma prs_burn E c fuel n : prs (burn_loop E c fuel n).
Proof. induction n; simpl; [prk|]. apply prs_bind; [apply prs_sweep|intros _; exact IHn]. Qed.
Lemma prs_save : prs save_params.
Proof.
  unfold save_params. apply prs_bind.
  { intros o V s g (H1 & H2 & H3). split; [|exact I]. split; [exact H1|]. split; [|exact H3]. simpl. apply Forall_app. split; [exact H2|]. repeat constructor; apply H1. }
  intros _. apply prs_bind; [prk|intros s]. destruct (_ =? _)%nat; [|prk]. apply prs_bind; [prk|intros _].
  intros o V s0 g H. split; [exact H|exact I].
Qed.
Lemma prs_train E c fuel n : forall i, prs (train_loop E c fuel n i).
Proof.
  induction n; intros i; simpl; [prk|]. apply prs_bind; [apply prs_sweep|intros _]. apply prs_bind; [prk|intros s]. apply prs_bind; [|intros _; apply IHn].
  destruct (_ =? _)%Z; [prk|]. destruct (_ =? _)%Z; [apply prs_save|prk].
Qed.
Lemma prs_fvw c k D : prs (fit_var_weights c k D).
Proof. unfold fit_var_weights. apply prs_bind; [eapply prs_onw, wm_fit_var_ok|intros _; prk]. Qed.
Lemma prs_max E c : prs (maximize_variational E c).
Proof.
  unfold maximize_variational. apply prs_bind; [apply prs_keeps, keeps_update_var_d; reflexivity|intros _]. apply prs_bind; [prk|intros s].
  apply prs_bind; [apply prs_fvw|intros _; apply prs_keeps, keeps_update_var_theta; reflexivity].
Qed.
Lemma prs_loop E c tol n : forall e d i, prs (var_loop E c tol n e d i).
Proof.
  induction n; intros e d i; cbn [var_loop]; destruct (lx_ltb (LQ tol) d); try prk.
  apply prs_bind; [apply prs_max|intros _]. apply prs_bind; [prk|intros s]. apply prs_bind; [prk|intros h]. apply prs_bind; [prk|intros x]. apply IHn.
Qed.
Lemma prs_initv E c k b meth : prs (init_variational E c k b meth).
Proof.
  unfold init_variational. apply prs_bind; [prk|intros _]. apply prs_bind; [|intros _; apply prs_bind; [prk|intros s; apply prs_fvw]].
  destruct meth; try prk.
  - apply prs_bind; [prk|intros s]. apply prs_bind; [prk|intros _]. apply prs_bind; [prk|intros l]. apply prs_bind; [prk|intros _].
    apply prs_bind; [apply prs_fvw|intros _]. apply prs_bind; [apply prs_keeps, keeps_update_var_theta; reflexivity|intros _; apply prs_keeps, keeps_update_var_d; reflexivity].
Qed.
Lemma prs_var E c y k warm tol meth : prs (fit_variational E c y k warm tol meth).
Proof.
  unfold fit_variational. apply prs_bind; [apply prs_keeps, keeps_init_common; reflexivity|intros _].
  apply prs_bind; [destruct warm; [prk|]; apply prs_bind; [prk|intros s]; destruct k; [destruct (s_n s)| | |]; try prk; apply prs_initv|intros _].
  apply prs_bind; [prk|intros s]. apply prs_bind; [apply prs_loop|intros i; prk].
Qed.
Lemma prs_gibbs E c fuel y ig warm meth : prs (fit_gibbs E c fuel y ig warm meth).
Proof.
  unfold fit_gibbs. apply prs_bind; [apply prs_keeps, keeps_init_common; reflexivity|intros _]. apply prs_bind.
  - destruct warm; [prk|]. apply prs_bind; [|intros _; apply prs_map]. unfold init_gibbs.
    apply prs_bind; [intros o V s g (H1 & H2 & H3); split; [split; [exact H1|split; [constructor|exact H3]]|exact I]|intros _].
    do 6 (apply prs_bind; [prk|intros ?]).
    apply prs_bind; [destruct (is_snone ig); [apply prs_tail|]; apply prs_bind; [eapply prs_onw, wm_complete_ok|intros ?; prk]|intros _].
    destruct meth; try prk.
    + apply prs_bind; [eapply prs_onw, wm_rassign_ok|intros l; prk].
    + apply prs_bind; [prk|intros s]. apply prs_bind; [apply prs_var|intros _; prk].
  - intros _. apply prs_bind; [prk|intros s]. apply prs_bind; [apply prs_burn|intros _]. apply prs_bind; [apply prs_train|intros _; prk].
Qed.
Lemma okm_run E c fuel o : valid_oracle o -> forall ops s g s' g', okm s -> run_mops E c fuel ops o s g = (s', g') -> okm s'.
Proof.
  intros V. induction ops as [|op ops IH]; intros s g s' g' H R; simpl in R; [injection R as <- <-; exact H|].
  destruct (exec_mop E c fuel op o s g) as [[r s1] g1] eqn:X. apply (IH s1 g1 s' g'); [|exact R].
  assert (P : prs (exec_mop E c fuel op)) by (destruct op; simpl; [apply prs_gibbs|apply prs_var]).
  specialize (P o V s g H). rewrite X in P. apply P.
Qed.
Lemma okm_new c parg narg mu lam psi nu t b k o s g : valid_oracle o -> (forall x al a b pm, c = CBIB x al a b pm -> in01 parg) ->
  new_mix c parg narg mu lam psi nu t b k o = Ok (s, g) -> okm s.
Proof.
  intros V P H. unfold new_mix in H. destruct (new_ws c parg narg o) as [[s1 g1]|e|] eqn:N; try discriminate H.
  destruct (qltb b t); [|discriminate H]. injection H as <- _. split; [|split; simpl; auto]. simpl. eapply new_ws_ok; eauto.
Qed.
Lemma c64_subprob_proof : forall E c fuel parg narg mu lam psi nu t b k o s0 g0 ops s g, valid_oracle o ->
  (forall x al a b pm, c = CBIB x al a b pm -> in01 parg) ->
  new_mix c parg narg mu lam psi nu t b k o = Ok (s0, g0) -> run_mops E c fuel ops o s0 g0 = (s, g) ->
  subprob (w (s_wm s)) /\ (forall r, In r (get_sim_params s) -> subprob (r_w r)) /\ (forall r, s_map s = Some r -> subprob (r_w r)).
Proof.
  intros E c fuel parg narg mu lam psi nu t b k o s0 g0 ops s g V P N R.
  destruct (okm_run E c fuel o V ops s0 g0 s g (okm_new _ _ _ _ _ _ _ _ _ _ _ _ _ V P N) R) as (H1 & H2 & H3).
  split; [apply H1|]. split; [rewrite Forall_forall in H2; exact H2|]. intros r Hr. rewrite Hr in H3. exact H3.
Qed.
