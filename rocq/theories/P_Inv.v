(* Proof of the sub-probability invariant (C01). *)
From Coq Require Import Lqa.
From Verif Require Import Prelude Numpy Rng M_Weights S_Weights P_Lists S_Oracle P_Hoare.
Open Scope Q_scope.
Open Scope m_scope.

Notation T := anyR.

Lemma dp_complete_ok al z : tri okw (dp_complete al z) T.
Proof. unfold dp_complete; tsteps; exact I. Qed.
Lemma py_complete_ok pd al z : tri okw (py_complete pd al z) T.
Proof. unfold py_complete; tsteps; exact I. Qed.
Lemma geom_complete_ok z : tri okw (geom_complete z) T.
Proof. unfold geom_complete; tsteps; exact I. Qed.
Lemma bib_random_p_ok x a b pm : tri okw (bib_random_p x a b pm) T.
Proof. unfold bib_random_p; tsteps; try exact I. Qed.

Ltac call H := eapply tri_bind; [apply H|intros ? ?].

Lemma bib_complete_ok x al a b pm z : tri okw (bib_complete x al a b pm z) T.
Proof.
  unfold bib_complete. repeat (first [call bib_random_p_ok | tstep]; cbv zeta); exact I.
Qed.
Lemma dp_random_ok al z : tri okw (dp_random al z) T.
Proof. unfold dp_random. repeat (first [call dp_complete_ok | tstep]; cbv zeta); exact I. Qed.
Lemma py_random_ok pd al z : tri okw (py_random pd al z) T.
Proof. unfold py_random. repeat (first [call py_complete_ok | tstep]; cbv zeta); exact I. Qed.
Lemma geom_random_ok a b z : tri okw (geom_random a b z) T.
Proof. unfold geom_random. repeat (first [call geom_complete_ok | tstep]; cbv zeta); exact I. Qed.
Lemma geom_tail_ok x : tri okw (geom_tail x) T.
Proof. unfold geom_tail. repeat (first [call geom_complete_ok | tstep]; cbv zeta); exact I. Qed.
Lemma bib_random_ok x al a b pm z : tri okw (bib_random x al a b pm z) T.
Proof.
  unfold bib_random. repeat (first [call bib_random_p_ok | call bib_complete_ok | tstep]; cbv zeta); exact I.
Qed.

Lemma repeatM_ok (m : M ws unit) n : tri okw m T -> tri okw (repeatM n m) T.
Proof. intros H; induction n; simpl; [apply tri_ret; exact I|]. call H. assumption. Qed.

Lemma bid_step_ok al a : tri okw (bid_complete_step al a) T.
Proof. unfold bid_complete_step. tsteps; exact I. Qed.
Lemma bid_complete_ok al a z : tri okw (bid_complete al a z) T.
Proof.
  unfold bid_complete. repeat (first [call repeatM_ok; [apply bid_step_ok|..] | tstep]; cbv zeta); try exact I.
Qed.
Lemma bid_draw_vbase_ok al ac bc db jjs : tri okw (bid_draw_vbase al ac bc db jjs) (Forall in01).
Proof.
  induction jjs as [|jj t IH]; simpl; [apply tri_ret; constructor|].
  tstep. call IH. apply tri_ret. constructor; assumption.
Qed.
Lemma bid_update_j_ok al a j : tri okw (bid_update_j al a j) T.
Proof. unfold bid_update_j. tsteps; exact I. Qed.
Lemma bid_update_all_ok al a js : tri okw (bid_update_all al a js) T.
Proof. induction js; simpl; [apply tri_ret; exact I|]. call bid_update_j_ok. assumption. Qed.

Lemma bid_random_ok al a z : tri okw (bid_random al a z) T.
Proof.
  unfold bid_random.
  repeat (first [call bid_complete_ok | call bid_draw_vbase_ok | call bid_update_all_ok | tstep]; cbv zeta);
  try exact I; try (eapply okw_set_v; [eapply Forall_gather; [|eassumption]; eauto with okwdb|assumption]).
Qed.

Lemma bernoulli_x_ok x : tri okw (bernoulli_x x) T.
Proof. unfold bernoulli_x. tsteps; exact I. Qed.
Lemma bb_loop_ok q al ac bc js : forall bs, tri okw (bb_loop q al ac bc js bs) T.
Proof.
  induction js; intros bs; simpl; [apply tri_ret; exact I|]. call bernoulli_x_ok. apply IHjs.
Qed.
Lemma bb_random_bern_ok q al n : tri okw (bb_random_bernoullis q al n) T.
Proof.
  unfold bb_random_bernoullis.
  repeat (first [call bb_loop_ok | tstep]; cbv zeta); exact I.
Qed.
Lemma bb_complete_ok q al z : tri okw (bb_complete q al z) T.
Proof.
  unfold bb_complete. tsteps; try exact I;
  (apply okw_set_v; [|assumption]; apply Forall_app; split; [eauto with okwdb|];
    eapply Forall_gather; [|eassumption]; constructor; eauto with okwdb).
Qed.
Lemma bb_random_ok q al z : tri okw (bb_random q al z) T.
Proof.
  unfold bb_random.
  repeat (first [call bb_random_bern_ok | call bb_complete_ok | tstep]; cbv zeta); try exact I;
  (apply okw_set_v; [eapply Forall_gather; eassumption|assumption]).
Qed.

Lemma bbin_step_ok n al : tri okw (bbin_step n al) T.
Proof. unfold bbin_step. tsteps; exact I. Qed.
Lemma bbin_complete_ok n al z : tri okw (bbin_complete n al z) T.
Proof.
  unfold bbin_complete.
  repeat (first [call repeatM_ok; [apply bbin_step_ok|..] | tstep]; cbv zeta); try exact I.
Qed.
Lemma bbin_random_binomials_ok n al : tri okw (bbin_random_binomials n al) T.
Proof. unfold bbin_random_binomials; tsteps; exact I. Qed.
Lemma bbin_random_ok n al z : tri okw (bbin_random n al z) T.
Proof.
  unfold bbin_random.
  repeat (first [call bbin_complete_ok | call bbin_random_binomials_ok | tstep]; cbv zeta); exact I.
Qed.

Lemma dd_random_ok al z : tri okw (dd_random al z) T.
Proof. unfold dd_random; tsteps; exact I. Qed.
Lemma dd_complete_ok al z : tri okw (dd_complete al z) T.
Proof.
  unfold dd_complete. repeat (first [call dd_random_ok | tstep]; cbv zeta); exact I.
Qed.

Lemma repeat_inv_prob n : (0 < n)%Z -> prob (repeat (1 / zq n) (Z.to_nat n)).
Proof.
  intros H. assert (Hn : 0 < zq n) by (unfold zq, inject_Z, Qlt; simpl; lia).
  split.
  - apply Forall_repeat. apply Qle_shift_div_l; [assumption|lra].
  - rewrite <- qsum_total, qsum_repeat. unfold nq. rewrite Z2Nat.id by lia.
    change (inject_Z n) with (zq n). field. lra.
Qed.
Lemma prob_subprob x : prob x -> subprob x.
Proof. intros [H1 H2]; split; [assumption|lra]. Qed.
Lemma repeat_inv_ok n : tri okw (repeat_inv n) subprob.
Proof.
  unfold repeat_inv. tsteps. apply prob_subprob, repeat_inv_prob. lia.
Qed.
Lemma eq_random_ok z : tri okw (eq_random z) T.
Proof. unfold eq_random. repeat (first [call repeat_inv_ok | tstep]; cbv zeta); exact I. Qed.

Lemma freq_prob dd : dd <> [] -> prob (map (fun y => y / qsum (map nq (bincount dd))) (map nq (bincount dd))).
Proof.
  intros H. assert (Hp : 0 < qsum (map nq (bincount dd))).
  { rewrite qsum_map_nq, count_all. apply nq_pos. destruct dd; [congruence|simpl; lia]. }
  split.
  - apply Forall_forall; intros x Hx. apply in_map_iff in Hx as (y & <- & Hy).
    apply in_map_iff in Hy as (k & <- & _). apply Qle_shift_div_l; [assumption|].
    pose proof (nq_nonneg k); lra.
  - rewrite <- qsum_total, qsum_map_div. field. lra.
Qed.
Lemma freq_random_ok n z : tri okw (freq_random n z) T.
Proof.
  unfold freq_random. repeat (first [call repeat_inv_ok | tstep]; cbv zeta); try exact I.
  apply okw_set_w; [|assumption]. apply prob_subprob, freq_prob.
  destruct (d s); [discriminate|congruence].
Qed.

Lemma wm_random_ok c z : tri okw (wm_random c z) T.
Proof.
  destruct c; simpl; [apply dd_random_ok|apply dp_random_ok|apply py_random_ok|apply geom_random_ok|
   apply bib_random_ok|apply bid_random_ok|apply bb_random_ok|apply bbin_random_ok|apply eq_random_ok|apply freq_random_ok].
Qed.
Lemma wm_complete_ok c z : tri okw (wm_complete c z) T.
Proof.
  destruct c; simpl; [call dd_complete_ok|call dp_complete_ok|call py_complete_ok|call geom_complete_ok|
   call bib_complete_ok|call bid_complete_ok|call bb_complete_ok|call bbin_complete_ok|call eq_random_ok|call freq_random_ok];
  apply tri_ret; exact I.
Qed.
Lemma tail_loop_ok c x : forall fuel, tri okw (tail_loop c fuel x) T.
Proof.
  induction fuel; simpl; tstep; tstep; try (apply tri_ret; exact I).
  - intros o Ho s' g Hs; simpl; auto.
  - call wm_complete_ok. assumption.
Qed.
Lemma wm_tail_ok c fuel x : tri okw (wm_tail c fuel x) T.
Proof.
  assert (H : tri okw (base_tail c fuel x) T).
  { unfold base_tail. repeat (first [call wm_random_ok | call tail_loop_ok | tstep]; cbv zeta); exact I. }
  destruct c; simpl; try exact H. apply geom_tail_ok.
Qed.
Lemma wm_assign_ok c dd : tri okw (wm_assign_weights c dd) T.
Proof. unfold wm_assign_weights. repeat (first [call wm_complete_ok | tstep]; cbv zeta); exact I. Qed.
Lemma wm_rassign_ok z : tri okw (wm_random_assignment z) T.
Proof. unfold wm_random_assignment. tsteps; exact I. Qed.

Lemma exec_op_ok c op : tri okw (exec_op c op) T.
Proof.
  destruct op; simpl;
  [call wm_random_ok|call wm_complete_ok|call wm_tail_ok| | |call wm_assign_ok|call wm_rassign_ok];
  try (apply tri_ret; exact I); apply tri_upd; auto with okwdb; exact I.
Qed.
Lemma run_op_ok c op o s g : valid_oracle o -> okw s -> okw (fst (run_op c op o s g)).
Proof.
  intros Ho Hs. unfold run_op. pose proof (exec_op_ok c op o Ho s g Hs) as H.
  destruct (exec_op c op o s g) as [[r s'] g']. apply H.
Qed.
Lemma run_ops_ok c o : valid_oracle o -> forall ops s g, okw s -> okw (fst (run_ops c ops o s g)).
Proof.
  intros Ho; induction ops as [|op t IH]; intros s g Hs; simpl; [assumption|].
  pose proof (run_op_ok c op o s g Ho Hs) as H. destruct (run_op c op o s g) as [s' g']. apply IH; assumption.
Qed.

Lemma okw_init p0 n0 : in01 p0 -> okw (ws_init p0 n0).
Proof. intros H; repeat split; simpl; auto; try constructor; try apply H; unfold qtotal; simpl; lra. Qed.

Lemma new_ws_ok c parg narg o s g : valid_oracle o ->
  (forall x al a b pm, c = CBIB x al a b pm -> in01 parg) ->
  new_ws c parg narg o = Ok (s, g) -> okw s.
Proof.
  intros Ho Hp H. destruct c; simpl in H;
  repeat match type of H with (if ?b then _ else _) = _ => destruct b eqn:? end;
  try discriminate; injection H as <- <-; apply okw_init; eauto using in01_0.
  change (allpos [(a, b)] = true) in Heqb0. apply allpos_cons in Heqb0 as (Ha & Hb & _). apply vo_beta; rewrite ?Qred_correct; assumption.
Qed.

Lemma c01_proof c parg narg o s0 g0 ops : valid_oracle o ->
  (forall x al a b pm, c = CBIB x al a b pm -> in01 parg) ->
  new_ws c parg narg o = Ok (s0, g0) ->
  subprob (w (fst (run_ops c ops o s0 g0))).
Proof.
  intros Ho Hp H. apply run_ops_ok; [assumption|]. eapply new_ws_ok; eauto.
Qed.

Lemma c01_bib_witness :
  exists o s0 g0 ops, valid_oracle o /\
    new_ws (CBIB 1 1 1 1 PStatic) 2 0 o = Ok (s0, g0) /\
    ~ subprob (w (fst (run_ops (CBIB 1 1 1 1 PStatic) ops o s0 g0))).
Proof.
  exists (const_oracle (1 # 2)), (ws_init 2 0), [], [OpRandom (SInt 1)].
  split; [apply const_oracle_valid; split; discriminate|]. split; [reflexivity|].
  intros [_ H]. apply (Qle_not_lt _ _ H). reflexivity.
Qed.
