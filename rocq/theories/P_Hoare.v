(* Invariant triples for the state/exception/generator monad. *)
From Coq Require Import Lqa.
From Verif Require Import Prelude Numpy Rng M_Weights S_Weights P_Lists.
Open Scope Q_scope.
Open Scope m_scope.

(* I is preserved by m (also on exceptions); a returned value satisfies R *)
Definition tri {S A} (I : S -> Prop) (m : M S A) (R : A -> Prop) : Prop :=
  forall o, valid_oracle o -> forall s g, I s ->
    match m o s g with
    | (r, s', _) => I s' /\ match r with Ok a => R a | _ => True end
    end.

Lemma tri_ret {S A} (I : S -> Prop) (a : A) (R : A -> Prop) : R a -> tri I (ret a) R.
Proof. intros H o _ s g Hs; simpl; auto. Qed.
Lemma tri_raise {S A} (I : S -> Prop) e (R : A -> Prop) : tri I (raise e) R.
Proof. intros o _ s g Hs; simpl; auto. Qed.
Lemma tri_upd {S} (I : S -> Prop) f (R : unit -> Prop) : (forall s, I s -> I (f s)) -> R tt -> tri I (upd f) R.
Proof. intros H Hr o _ s g Hs; simpl; auto. Qed.
Lemma tri_get {S} (I : S -> Prop) : tri I get I.
Proof. intros o _ s g Hs; simpl; auto. Qed.
Lemma tri_bind {S A B} (I : S -> Prop) (m : M S A) (k : A -> M S B) (R1 : A -> Prop) (R2 : B -> Prop) :
  tri I m R1 -> (forall a, R1 a -> tri I (k a) R2) -> tri I (bind m k) R2.
Proof.
  intros Hm Hk o Ho s g Hs. unfold bind. specialize (Hm o Ho s g Hs).
  destruct (m o s g) as [[r s'] g']. destruct Hm as [H1 H2]. destruct r; simpl; auto.
  apply Hk; assumption.
Qed.
Lemma tri_weak {S A} (I : S -> Prop) (m : M S A) (R R' : A -> Prop) :
  tri I m R -> (forall a, R a -> R' a) -> tri I m R'.
Proof.
  intros H HR o Ho s g Hs. specialize (H o Ho s g Hs). destruct (m o s g) as [[r s'] g'].
  destruct H; split; auto. destruct r; auto.
Qed.
(* get, then continue with knowledge of the invariant *)
Lemma tri_get_bind {S B} (I : S -> Prop) (k : S -> M S B) (R : B -> Prop) :
  (forall s, I s -> tri I (k s) R) -> tri I (bind get k) R.
Proof. intros H. eapply tri_bind; [apply tri_get|exact H]. Qed.

Lemma tri_ret_bind {S A B} (I : S -> Prop) (a : A) (k : A -> M S B) R :
  tri I (k a) R -> tri I (bind (ret a) k) R.
Proof. intros H o Ho s g Hs. exact (H o Ho s g Hs). Qed.
Lemma tri_raise_bind {S A B} (I : S -> Prop) e (k : A -> M S B) R : tri I (bind (raise e) k) R.
Proof. intros o Ho s g Hs. simpl; auto. Qed.
Lemma tri_assoc {S A B C} (I : S -> Prop) (m : M S A) (k : A -> M S B) (k' : B -> M S C) R :
  tri I (bind m (fun a => bind (k a) k')) R -> tri I (bind (bind m k) k') R.
Proof.
  intros H o Ho s g Hs. specialize (H o Ho s g Hs). unfold bind in *.
  destruct (m o s g) as [[[a|e|] s'] g']; auto.
Qed.

Lemma allpos_cons a b t : allpos ((a, b) :: t) = true -> 0 < a /\ 0 < b /\ allpos t = true.
Proof.
  unfold allpos; simpl. intros H. apply andb_prop in H as [H1 H2]. apply andb_prop in H1 as [H0 H1].
  apply qltb_lt in H0, H1. auto.
Qed.
Lemma beta_draws_in01 o : valid_oracle o -> forall ab g, allpos ab = true -> Forall in01 (fst (beta_draws o ab g)).
Proof.
  intros Ho; induction ab as [|[a b] t IH]; intros g H; [constructor|].
  apply allpos_cons in H as (Ha & Hb & Ht). simpl. constructor; [|auto].
  apply vo_beta; rewrite ?Qred_correct; assumption.
Qed.
Lemma beta_draws_length o ab : forall g, length (fst (beta_draws o ab g)) = length ab.
Proof. induction ab as [|[a b] t IH]; intros g; simpl; auto. Qed.
Lemma beta_draws_log o ab : forall g, snd (beta_draws o ab g) = g ++ map (fun x => rbeta (fst x) (snd x)) ab.
Proof.
  induction ab as [|[a b] t IH]; intros g; simpl; [rewrite app_nil_r; reflexivity|].
  rewrite IH, <- app_assoc; reflexivity.
Qed.
Lemma allpos_repeat a b n : allpos [(a, b)] = true -> allpos (repeat (a, b) n) = true.
Proof.
  intros H. unfold allpos in *; simpl in H. rewrite andb_true_r in H.
  induction n; simpl; [reflexivity|]. rewrite H, IHn; reflexivity.
Qed.

Lemma tri_beta_many {S} (I : S -> Prop) ab : tri I (beta_many ab) (Forall in01).
Proof.
  intros o Ho s g Hs. unfold beta_many. destruct (allpos ab) eqn:E; simpl; auto.
  split; auto. apply beta_draws_in01; assumption.
Qed.
Lemma tri_beta_rep {S} (I : S -> Prop) a b n : tri I (beta_rep a b n) (Forall in01).
Proof.
  intros o Ho s g Hs. unfold beta_rep. destruct (allpos [(a, b)]) eqn:E; simpl; auto.
  split; auto. apply beta_draws_in01; [assumption|]. apply allpos_repeat; assumption.
Qed.
Lemma tri_beta1 {S} (I : S -> Prop) a b : tri I (beta1 a b) in01.
Proof.
  intros o Ho s g Hs. unfold beta1. destruct (allpos [(a, b)]) eqn:E; simpl; auto.
  split; auto. apply allpos_cons in E as (Ha & Hb & _). apply vo_beta; rewrite ?Qred_correct; assumption.
Qed.
Lemma tri_any {S A} (I : S -> Prop) (m : M S A) :
  (forall o s g, snd (fst (m o s g)) = s) -> tri I m (fun _ => True).
Proof.
  intros H o _ s g Hs. specialize (H o s g). destruct (m o s g) as [[r s'] g']. simpl in H; subst.
  split; auto. destruct r; auto.
Qed.
Lemma tri_binom_rep {S} (I : S -> Prop) n p k : tri I (binom_rep n p k) (fun _ => True).
Proof. apply tri_any; intros; unfold binom_rep. destruct (_ && _); reflexivity. Qed.
Lemma tri_binom_many {S} (I : S -> Prop) n ps : tri I (binom_many n ps) (fun _ => True).
Proof. apply tri_any; intros; unfold binom_many. destruct (_ && _); reflexivity. Qed.
Lemma tri_binom1 {S} (I : S -> Prop) n p : tri I (binom1 n p) (fun _ => True).
Proof. apply tri_any; intros; unfold binom1. destruct (_ && _); reflexivity. Qed.
Lemma tri_unif1 {S} (I : S -> Prop) a b : tri I (unif1 a b) (fun _ => True).
Proof. apply tri_any; reflexivity. Qed.
Lemma tri_unif_many {S} (I : S -> Prop) ab : tri I (unif_many ab) (fun _ => True).
Proof. apply tri_any; reflexivity. Qed.
Lemma tri_choice1 {S} (I : S -> Prop) q : tri I (choice1 q) (fun _ => True).
Proof. apply tri_any; intros; unfold choice1. destruct (_ && _); reflexivity. Qed.
Lemma tri_gumbel1 {S} (I : S -> Prop) q : tri I (gumbel1 q) (fun _ => True).
Proof. apply tri_any; reflexivity. Qed.
Lemma tri_optim1 {S} (I : S -> Prop) : tri I optim1 (fun r => forall x, r = Some x -> in01 x).
Proof. intros o Ho s g Hs; simpl; split; auto. intros x; apply vo_optim; assumption. Qed.
Lemma tri_root1 {S} (I : S -> Prop) : tri I root1 (fun r => forall x, r = Some x -> in01 x).
Proof. intros o Ho s g Hs; simpl; split; auto. intros x; apply vo_root; assumption. Qed.
Lemma tri_need_int {S} (I : S -> Prop) z : tri I (need_int z) (fun k => size_val z = Some k).
Proof. unfold need_int. destruct (size_val z) eqn:E; [apply tri_ret; reflexivity|apply tri_raise]. Qed.
Lemma tri_check {S} (I : S -> Prop) z : tri I (base_complete_check z) (fun _ => True).
Proof. unfold base_complete_check. destruct z; try (apply tri_ret; exact Logic.I); apply tri_raise. Qed.

Lemma forallb_qltb al : forallb (qltb 0) al = true -> Forall (fun x => 0 < x) al.
Proof. intros H. rewrite forallb_forall in H. apply Forall_forall; intros x Hx. apply qltb_lt; auto. Qed.

Lemma Forall_pos_Qred al : Forall (fun x => 0 < x) al -> Forall (fun x => 0 < x) (map Qred al).
Proof. induction 1; simpl; constructor; auto. rewrite Qred_correct; assumption. Qed.
Lemma dirichlet_prob o g al : valid_oracle o -> forallb (qltb 0) al = true -> al <> [] ->
  prob (o_dirichlet o g (map Qred al)).
Proof.
  intros Ho H Hn. apply forallb_qltb in H. apply Forall_pos_Qred in H.
  split; [apply vo_dir_pos; assumption|].
  rewrite <- qsum_total. apply vo_dir_sum; auto. destruct al; [congruence|discriminate].
Qed.
Lemma dirichlet_subprob o g al : valid_oracle o -> forallb (qltb 0) al = true ->
  subprob (o_dirichlet o g (map Qred al)).
Proof.
  intros Ho H. destruct al as [|x t].
  - pose proof (vo_dir_len o Ho g []) as E. simpl. destruct (o_dirichlet o g []); [|discriminate].
    split; [constructor|]. unfold qtotal; simpl; lra.
  - destruct (dirichlet_prob o g (x :: t) Ho H) as [H1 H2]; [discriminate|]. split; [assumption|]. lra.
Qed.
Lemma tri_dirichlet1 {S} (I : S -> Prop) al : tri I (dirichlet1 al) subprob.
Proof.
  intros o Ho s g Hs. unfold dirichlet1. destruct (forallb (qltb 0) al) eqn:E; simpl; auto.
  split; auto. apply dirichlet_subprob; assumption.
Qed.

(* ------------------------------------------------------------------ *)
(* The invariant behind C01 *)
Definition okw (s : ws) : Prop :=
  subprob (w s) /\ Forall in01 (v s) /\ in01 (p s) /\ Forall in01 (vbase s).

Lemma okw_refresh s : okw s -> okw (refresh_w s).
Proof. intros (H1 & H2 & H3 & H4). repeat split; simpl; auto; try apply H3; apply stick_subprob; assumption. Qed.
Lemma okw_set_v x s : Forall in01 x -> okw s -> okw (set_v x s).
Proof. intros Hx (H1 & H2 & H3 & H4). repeat split; simpl; auto; apply H1 || apply H3. Qed.
Lemma okw_set_vbase x s : Forall in01 x -> okw s -> okw (set_vbase x s).
Proof. intros Hx (H1 & H2 & H3 & H4). repeat split; simpl; auto; apply H1 || apply H3. Qed.
Lemma okw_set_p x s : in01 x -> okw s -> okw (set_p x s).
Proof. intros Hx (H1 & H2 & H3 & H4). repeat split; simpl; auto; apply H1 || apply Hx. Qed.
Lemma okw_set_w x s : subprob x -> okw s -> okw (set_w x s).
Proof. intros Hx (H1 & H2 & H3 & H4). repeat split; simpl; auto; apply Hx || apply H3. Qed.
Lemma okw_set_d x s : okw s -> okw (set_d x s). Proof. intros H; exact H. Qed.
Lemma okw_set_bern x s : okw s -> okw (set_bern x s). Proof. intros H; exact H. Qed.
Lemma okw_set_binoms x s : okw s -> okw (set_binoms x s). Proof. intros H; exact H. Qed.
Lemma okw_set_dbase x s : okw s -> okw (set_dbase x s). Proof. intros H; exact H. Qed.
Lemma okw_set_cbase x s : okw s -> okw (set_cbase x s). Proof. intros H; exact H. Qed.

Lemma in01_last l d0 : Forall in01 l -> in01 d0 -> in01 (last l d0).
Proof.
  intros H H0. induction H as [|x t Hx Ht IH]; simpl; auto. destruct t; auto.
Qed.
Lemma in01_nth l j d0 : Forall in01 l -> in01 d0 -> in01 (nth j l d0).
Proof. intros H Hd; revert j; induction H; intros [|j]; simpl; auto. Qed.
Lemma in01_0 : in01 0. Proof. unfold in01; lra. Qed.

Definition anyR {A} (_ : A) : Prop := True.

Create HintDb okwdb.
Global Hint Resolve okw_refresh okw_set_v okw_set_vbase okw_set_p okw_set_w okw_set_d okw_set_bern
  okw_set_binoms okw_set_dbase okw_set_cbase in01_0 Forall_repeat in01_nth in01_last : okwdb.
Global Hint Extern 4 (Forall in01 (_ ++ _)) => (apply Forall_app; split) : okwdb.
Global Hint Extern 3 (Forall in01 (v _)) => (match goal with H : okw _ |- _ => apply H end) : okwdb.
Global Hint Extern 3 (Forall in01 (vbase _)) => (match goal with H : okw _ |- _ => apply H end) : okwdb.
Global Hint Extern 3 (in01 (p _)) => (match goal with H : okw _ |- _ => apply H end) : okwdb.
Global Hint Extern 3 (Forall in01 [_]) => (constructor; [|constructor]) : okwdb.
Global Hint Extern 3 (Forall in01 []) => constructor : okwdb.

(* generic stepping tactic: walks through a method body *)
Ltac tstep :=
  match goal with
  | |- tri _ (bind get _) _ => apply tri_get_bind; intros ? ?
  | |- tri _ (bind (if ?b then _ else _) _) _ => destruct b eqn:?
  | |- tri _ (bind (match ?x with _ => _ end) _) _ => destruct x eqn:?
  | |- tri _ (bind (bind _ _) _) _ => apply tri_assoc
  | |- tri _ (bind (ret _) _) _ => apply tri_ret_bind
  | |- tri _ (bind (raise _) _) _ => apply tri_raise_bind
  | |- tri _ (bind (upd _) _) _ => eapply tri_bind; [apply tri_upd with (R := anyR); [intros; eauto 6 with okwdb|exact I]|intros ? ?]
  | |- tri _ (bind (beta_many _) _) _ => eapply tri_bind; [apply tri_beta_many|intros ? ?]
  | |- tri _ (bind (beta_rep _ _ _) _) _ => eapply tri_bind; [apply tri_beta_rep|intros ? ?]
  | |- tri _ (bind (beta1 _ _) _) _ => eapply tri_bind; [apply tri_beta1|intros ? ?]
  | |- tri _ (bind (binom_rep _ _ _) _) _ => eapply tri_bind; [apply tri_binom_rep|intros ? ?]
  | |- tri _ (bind (binom_many _ _) _) _ => eapply tri_bind; [apply tri_binom_many|intros ? ?]
  | |- tri _ (bind (binom1 _ _) _) _ => eapply tri_bind; [apply tri_binom1|intros ? ?]
  | |- tri _ (bind (unif1 _ _) _) _ => eapply tri_bind; [apply tri_unif1|intros ? ?]
  | |- tri _ (bind (unif_many _) _) _ => eapply tri_bind; [apply tri_unif_many|intros ? ?]
  | |- tri _ (bind (choice1 _) _) _ => eapply tri_bind; [apply tri_choice1|intros ? ?]
  | |- tri _ (bind (gumbel1 _) _) _ => eapply tri_bind; [apply tri_gumbel1|intros ? ?]
  | |- tri _ (bind optim1 _) _ => eapply tri_bind; [apply tri_optim1|intros ? ?]
  | |- tri _ (bind root1 _) _ => eapply tri_bind; [apply tri_root1|intros ? ?]
  | |- tri _ (bind (dirichlet1 _) _) _ => eapply tri_bind; [apply tri_dirichlet1|intros ? ?]
  | |- tri _ (bind (need_int _) _) _ => eapply tri_bind; [apply tri_need_int|intros ? ?]
  | |- tri _ (bind (base_complete_check _) _) _ => eapply tri_bind; [apply tri_check|intros ? ?]
  | |- tri _ (if ?b then _ else _) _ => destruct b eqn:?
  | |- tri _ (match ?x with _ => _ end) _ => destruct x eqn:?
  | |- tri _ (ret _) _ => apply tri_ret
  | |- tri _ (raise _) _ => apply tri_raise
  | |- tri _ (upd _) _ => apply tri_upd; [intros; eauto 6 with okwdb|]
  end.
Ltac tsteps := repeat (tstep; cbv zeta).
