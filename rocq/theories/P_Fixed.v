(* The fixed-size weight models (DirichletDistribution, EqualWeighting,
   FrequencyWeighting): weights are absent or a probability vector. *)
From Coq Require Import Lqa.
From Verif Require Import Prelude Numpy Rng M_Weights S_Weights S_Hist S_Oracle P_Lists P_Hoare P_Wp P_Inv P_Complete P_Random P_Tail P_Sticks P_Geom P_Grow.
Open Scope Q_scope.
Open Scope m_scope.

Definition fixw (s : ws) : Prop := w s = [] \/ prob (w s).

(* a call that keeps [fixw]; when it returns, w is a probability vector *)
Definition fpost {A} : post ws A := fun r s' _ => fixw s' /\ (is_ok r = true -> prob (w s')).

Lemma dd_random_fix o al z s g : valid_oracle o -> al <> [] -> fixw s -> wp o (dd_random al z) fpost s g.
Proof.
  intros Ho Hal Hs. unfold dd_random.
  assert (D : forall be s1 g1, fixw s1 -> be <> [] -> wp o (x <- dirichlet1 be;; upd (set_w x);; ret x) fpost s1 g1).
  { intros be s1 g1 H1 Hn. unfold wp, bind, dirichlet1. destruct (forallb (qltb 0) be) eqn:E; simpl.
    - pose proof (dirichlet_prob o g1 be Ho E Hn). split; [right; assumption|auto].
    - split; [exact H1|discriminate]. }
  wstep. wstep; [apply D; assumption|]. wstep; [wstep; split; [exact Hs|discriminate]|].
  apply D; [exact Hs|]. intros E. apply map_eq_nil in E.
  apply Nat.leb_gt in Heqb0. apply (f_equal (@length _)) in E.
  rewrite combine_length, pad_length in E. cbn [length] in E. lia.
Qed.
Lemma repeat_inv_fix o n s g : fixw s -> wp o (x <- repeat_inv n;; upd (set_w x);; ret x) fpost s g.
Proof.
  intros Hs. unfold repeat_inv. wstep; [split; [exact Hs|discriminate]|].
  wsteps; (split; [|intros K; try discriminate K]); try exact Hs.
  - right. apply repeat_inv_prob. apply Z.ltb_ge in Heqb0. apply Z.eqb_neq in Heqb. simpl; lia.
  - apply repeat_inv_prob. apply Z.ltb_ge in Heqb0. apply Z.eqb_neq in Heqb. lia.
Qed.
Lemma wm_random_fix c o z s g : valid_oracle o -> fixed_ok c -> fixw s -> wp o (wm_random c z) fpost s g.
Proof.
  intros Ho Hc Hs. destruct c; try contradiction; simpl wm_random.
  - apply dd_random_fix; assumption.
  - unfold eq_random. wstep. apply repeat_inv_fix; assumption.
  - unfold freq_random. wstep. wstep; [apply repeat_inv_fix; assumption|]. wsteps.
    assert (prob (map (fun y => y / qsum (map nq (bincount (d s)))) (map nq (bincount (d s))))) by (apply freq_prob, nonnil; assumption).
    split; [right; assumption|auto].
Qed.
Lemma wm_complete_fix c o z s g : valid_oracle o -> fixed_ok c -> fixw s -> wp o (wm_complete c z) fpost s g.
Proof.
  intros Ho Hc Hs.
  assert (K : forall (m : M ws (list Q)), wp o m fpost s g -> wp o (x <- m ;; ret (Some x)) fpost s g).
  { intros m Hm. eapply wp_call; [exact Hm| | |].
    - intros a s' g' H. wstep. exact H.
    - intros e s' g' [H _]; split; [exact H|discriminate].
    - intros s' g' [H _]; split; [exact H|discriminate]. }
  destruct c; try contradiction; simpl wm_complete; apply K.
  - unfold dd_complete. wstep; [|split; [exact Hs|discriminate]]. wstep. wstep.
    + eapply wp_mono; [apply dd_random_fix; assumption|]. intros [a|e|] s' g' [H1 H2]; try (split; [exact H1|discriminate]).
      wsteps. split; auto.
    + wsteps. split; [exact Hs|]. intros _. destruct Hs as [E|]; [rewrite E in *; discriminate|assumption].
  - apply (wm_random_fix CEqual); assumption.
  - apply (wm_random_fix (CFreq n)); assumption.
Qed.

Lemma fixed_not_geom c : fixed_ok c -> forall pa pb, c <> CGeom pa pb.
Proof. intros H pa pb ->; exact H. Qed.

Lemma tail_loop_fix c o x fuel s g : x < 1 -> prob (w s) -> tail_loop c fuel x o s g = (Ok tt, s, g).
Proof.
  intros Hx [_ H]. assert (E : qltb (qsum (w s)) x = false) by (apply qltb_ge; rewrite qsum_total, H; lra).
  destruct fuel; simpl; unfold bind, get; rewrite E; reflexivity.
Qed.

Lemma base_tail_fix c o fuel x s g : valid_oracle o -> fixed_ok c -> fixw s ->
  wp o (base_tail c fuel x) (fun r s' g' => fixw s' /\ r <> Diverge /\ (is_ok r = true -> prob (w s'))) s g.
Proof.
  intros Ho Hc Hs. unfold base_tail. wstep; [wstep; split; [exact Hs|split; discriminate]|].
  apply range_ok in Heqb as [_ Hx].
  assert (L : forall s1 g1, prob (w s1) -> wp o (tail_loop c fuel x;; s' <- get;; ret (w s'))
     (fun r s' g' => fixw s' /\ r <> Diverge /\ (is_ok r = true -> prob (w s'))) s1 g1).
  { intros s1 g1 H1. unfold wp, bind. rewrite tail_loop_fix by assumption. simpl.
    split; [right; exact H1|]. split; [discriminate|]. intros _; exact H1. }
  wstep. wstep.
  - pose proof (wm_random_fix c o (SInt 1) s g Ho Hc Hs) as W. unfold wp in *.
    assert (ND : fst (fst (wm_random c (SInt 1) o s g)) <> Diverge).
    { destruct c; try contradiction; simpl wm_random; unfold dd_random, eq_random, freq_random, repeat_inv, dirichlet1, bind, get, upd, ret, raise;
      repeat match goal with |- context [if ?b then _ else _] => destruct b end; discriminate. }
    destruct (wm_random c (SInt 1) o s g) as [[[a|e|] s1] g1]; destruct W as [W1 W2].
    + apply (L s1 g1). apply W2; reflexivity.
    + split; [exact W1|split; discriminate].
    + destruct (ND eq_refl).
  - wstep. apply L. destruct Hs as [E|]; [rewrite E in *; discriminate|assumption].
Qed.

Lemma exec_op_fix c o op s g : valid_oracle o -> fixed_ok c -> fixw s -> wp o (exec_op c op) (fun r s' g' => fixw s') s g.
Proof.
  intros Ho Hc Hs. destruct op; simpl exec_op.
  - eapply wp_call; [apply wm_random_fix; eassumption| | |]; simpl; intros; try (wstep); apply H.
  - eapply wp_call; [apply wm_complete_fix; eassumption| | |]; simpl; intros; try (wstep); apply H.
  - rewrite tail_is_base by (apply fixed_not_geom; assumption).
    eapply wp_call; [apply base_tail_fix; eassumption| | |]; simpl; intros; try (wstep); apply H.
  - unfold wm_fit. wstep. exact Hs.
  - unfold wm_reset. wstep. exact Hs.
  - unfold wm_assign_weights. wsteps; try exact Hs.
    apply wp_bind. eapply wp_mono; [apply wm_complete_fix; eassumption|].
    intros [a|e|] s' g' [H _]; [|exact H|exact H]. wsteps; exact H.
  - unfold wm_random_assignment. wsteps; exact Hs.
Qed.
Lemma exec_ops_fix c o : valid_oracle o -> fixed_ok c -> forall ops s g, fixw s -> wp o (exec_ops c ops) (fun r s' g' => fixw s') s g.
Proof.
  intros Ho Hc; induction ops; intros s g Hs; simpl; [wstep; exact Hs|].
  eapply wp_call; [apply exec_op_fix; eassumption| | |]; auto.
Qed.
Lemma reached_fix c o s g : valid_oracle o -> fixed_ok c -> reached c o s g -> fixw s.
Proof.
  intros Ho Hc (parg & narg & ops & s0 & g0 & _ & Hn & _ & E).
  assert (H0 : fixw s0) by (destruct c; try contradiction; injection Hn as <- <-; left; reflexivity).
  pose proof (exec_ops_fix c o Ho Hc ops s0 g0 H0) as W. unfold wp in W. rewrite E in W. exact W.
Qed.

Lemma c06_fixed_proof c o s g x fuel : valid_oracle o -> fixed_ok c -> reached c o s g ->
  fst (fst (wm_tail c fuel x o s g)) <> Diverge /\
  (is_ok (fst (fst (wm_tail c fuel x o s g))) = true -> prob (w (snd (fst (wm_tail c fuel x o s g))))).
Proof.
  intros Ho Hc Hr. rewrite tail_is_base by (apply fixed_not_geom; assumption).
  pose proof (base_tail_fix c o fuel x s g Ho Hc (reached_fix _ _ _ _ Ho Hc Hr)) as W. unfold wp in W.
  destruct (base_tail c fuel x o s g) as [[r s'] g']. destruct W as (_ & W1 & W2). split; assumption.
Qed.

(* an empty alpha makes tail loop for ever *)
Lemma c06_dd_empty_proof k o x fuel : valid_oracle o -> 0 < x -> x < 1 ->
  fst (fst (wm_tail (CDirDist k []) fuel x o (ws_init 0 0) [])) = Diverge.
Proof.
  intros Ho H0 H1.
  assert (E0 : forall g, o_dirichlet o g [] = []).
  { intros g. pose proof (vo_dir_len o Ho g []) as E. destruct (o_dirichlet o g []); [reflexivity|discriminate]. }
  assert (L : forall fuel s g, d s = [] -> w s = [] -> fst (fst (tail_loop (CDirDist k []) fuel x o s g)) = Diverge).
  { assert (Q0 : qltb 0 x = true) by (apply qltb_lt; exact H0).
    induction fuel0; intros s g Hd Hw; simpl; unfold bind, get; rewrite Hw; cbn [qsum]; rewrite Q0; [reflexivity|].
    unfold dd_complete, dd_random, bind, base_complete_check, get, ret, upd, dirichlet1. simpl. rewrite Hw. cbn [is_nil]. rewrite Hd. simpl. rewrite E0. simpl.
    apply IHfuel0; reflexivity || assumption. }
  simpl wm_tail. rewrite base_tail_first by (reflexivity || lra). simpl. unfold dd_random, bind, get, dirichlet1; simpl. rewrite E0.
  match goal with |- context [tail_loop ?c ?f ?x ?o ?s ?g] => pose proof (L f s g eq_refl eq_refl) as K; destruct (tail_loop c f x o s g) as [[r s'] g'] end.
  simpl in K. subst r. reflexivity.
Qed.
