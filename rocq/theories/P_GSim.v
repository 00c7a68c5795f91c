(* Two runs of the weight models on related generators. *)
From Verif Require Import Prelude Numpy Rng M_Weights M_Niw M_Utils M_Mix S_GAffine P_Lists P_Wp P_Hoare.
Open Scope Q_scope.
Open Scope m_scope.

Section W.
Variables (C : coords) (o o' : oracle).
Hypothesis HO : draws_moved C o o'.

(* same result and state, related logs *)
Definition wsim {S A} (m : M S A) : Prop := forall s g g', log_moved C g g' ->
  exists h', m o' s g' = (fst (fst (m o s g)), snd (fst (m o s g)), h') /\ log_moved C (snd (m o s g)) h'.

Lemma wsim_pure {S A} (m : M S A) : (forall a b s g g', fst (m a s g) = fst (m b s g') /\ snd (m a s g) = g) -> wsim m.
Proof.
  intros H s g g' L. exists g'. destruct (H o o' s g g') as [H1 H2]. destruct (H o' o s g' g) as [_ H3]. rewrite H2. split; [|exact L].
  destruct (m o s g) as [[r t] h], (m o' s g') as [[r' t'] h']. simpl in *. congruence.
Qed.
Lemma wsim_ret {S A} (a : A) : wsim (@ret S A a). Proof. apply wsim_pure. auto. Qed.
Lemma wsim_raise {S A} e : wsim (@raise S A e). Proof. apply wsim_pure. auto. Qed.
Lemma wsim_get {S} : wsim (@get S). Proof. apply wsim_pure. auto. Qed.
Lemma wsim_upd {S} f : wsim (@upd S f). Proof. apply wsim_pure. auto. Qed.
Lemma wsim_diverge {S A} : wsim (fun _ (s : S) g => (@Diverge A, s, g)). Proof. apply wsim_pure. auto. Qed.
Lemma wsim_bind {S A B} (m : M S A) (k : A -> M S B) : wsim m -> (forall a, wsim (k a)) -> wsim (bind m k).
Proof.
  intros Hm Hk s g g' L. unfold bind. destruct (Hm s g g' L) as (h' & E & L'). rewrite E. destruct (m o s g) as [[[a|e|] s1] g1]; simpl in *; [|exists h'; auto..].
  apply Hk. exact L'.
Qed.
Lemma log_snoc g g' q : log_moved C g g' -> (match q with RInvWish _ _ | RMvn _ _ | RKMeans _ _ => False | _ => True end) -> log_moved C (g ++ [q]) (g' ++ [q]).
Proof. intros L Q. apply Forall2_app; [exact L|]. constructor; [apply rm_same; exact Q|constructor]. Qed.

Lemma beta_draws_sim ab : forall g g', log_moved C g g' -> fst (beta_draws o' ab g') = fst (beta_draws o ab g) /\ log_moved C (snd (beta_draws o ab g)) (snd (beta_draws o' ab g')).
Proof.
  induction ab as [|[a b] t IH]; intros g g' L; simpl; [auto|]. destruct (IH (g ++ [rbeta a b]) (g' ++ [rbeta a b]) (log_snoc _ _ (rbeta a b) L I)) as [I1 I2].
  rewrite I1, (dm_beta C o o' HO g g' _ _ L). auto.
Qed.
Lemma binom_draws_sim n ps : forall g g', log_moved C g g' -> fst (binom_draws o' n ps g') = fst (binom_draws o n ps g) /\ log_moved C (snd (binom_draws o n ps g)) (snd (binom_draws o' n ps g')).
Proof.
  induction ps as [|p t IH]; intros g g' L; simpl; [auto|]. destruct (IH (g ++ [rbinom n p]) (g' ++ [rbinom n p]) (log_snoc _ _ (rbinom n p) L I)) as [I1 I2].
  rewrite I1, (dm_binom C o o' HO g g' _ _ L). auto.
Qed.
Lemma unif_draws_sim ab : forall g g', log_moved C g g' -> fst (unif_draws o' ab g') = fst (unif_draws o ab g) /\ log_moved C (snd (unif_draws o ab g)) (snd (unif_draws o' ab g')).
Proof.
  induction ab as [|[a b] t IH]; intros g g' L; simpl; [auto|]. destruct (IH (g ++ [runif a b]) (g' ++ [runif a b]) (log_snoc _ _ (runif a b) L I)) as [I1 I2].
  rewrite I1, (dm_unif C o o' HO g g' _ _ L). auto.
Qed.
Lemma wsim_beta_many {S} ab : wsim (@beta_many S ab).
Proof. intros s g g' L. unfold beta_many. destruct (allpos ab); [|exists g'; auto]. destruct (beta_draws_sim ab g g' L) as [H1 H2]. cbv zeta. cbn [fst snd]. eexists. rewrite H1. split; [reflexivity|exact H2]. Qed.
Lemma wsim_beta_rep {S} a b n : wsim (@beta_rep S a b n).
Proof. intros s g g' L. unfold beta_rep. destruct (allpos _); [|exists g'; auto]. destruct (beta_draws_sim (repeat (a, b) n) g g' L) as [H1 H2]. cbv zeta. cbn [fst snd]. eexists. rewrite H1. split; [reflexivity|exact H2]. Qed.
Lemma wsim_beta1 {S} a b : wsim (@beta1 S a b).
Proof. intros s g g' L. unfold beta1. destruct (allpos _); [|exists g'; auto]. cbn [fst snd]. rewrite (dm_beta C o o' HO g g' _ _ L). eexists. split; [reflexivity|]. apply log_snoc; simpl; auto. Qed.
Lemma wsim_binom_many {S} n ps : wsim (@binom_many S n ps).
Proof. intros s g g' L. unfold binom_many. destruct (_ && _); [|exists g'; auto]. destruct (binom_draws_sim n ps g g' L) as [H1 H2]. cbv zeta. cbn [fst snd]. eexists. rewrite H1. split; [reflexivity|exact H2]. Qed.
Lemma wsim_binom_rep {S} n p k : wsim (@binom_rep S n p k).
Proof. intros s g g' L. unfold binom_rep. destruct (_ && _); [|exists g'; auto]. destruct (binom_draws_sim n (repeat p k) g g' L) as [H1 H2]. cbv zeta. cbn [fst snd]. eexists. rewrite H1. split; [reflexivity|exact H2]. Qed.
Lemma wsim_binom1 {S} n p : wsim (@binom1 S n p).
Proof. intros s g g' L. unfold binom1. destruct (_ && _); [|exists g'; auto]. cbn [fst snd]. rewrite (dm_binom C o o' HO g g' _ _ L). eexists. split; [reflexivity|]. apply log_snoc; simpl; auto. Qed.
Lemma wsim_unif_many {S} l : wsim (@unif_many S l).
Proof. intros s g g' L. unfold unif_many. destruct (unif_draws_sim l g g' L) as [H1 H2]. cbv zeta. cbn [fst snd]. eexists. rewrite H1. split; [reflexivity|exact H2]. Qed.
Lemma wsim_unif1 {S} a b : wsim (@unif1 S a b).
Proof. intros s g g' L. unfold unif1. cbn [fst snd]. rewrite (dm_unif C o o' HO g g' _ _ L). eexists. split; [reflexivity|]. apply log_snoc; simpl; auto. Qed.
Lemma wsim_dirichlet1 {S} al : wsim (@dirichlet1 S al).
Proof. intros s g g' L. unfold dirichlet1. destruct (forallb _ _); [|exists g'; auto]. cbn [fst snd]. rewrite (dm_dir C o o' HO g g' _ L). eexists. split; [reflexivity|]. apply log_snoc; simpl; auto. Qed.
Lemma wsim_choice1 {S} p : wsim (@choice1 S p).
Proof. intros s g g' L. unfold choice1. destruct (_ && _); [|exists g'; auto]. cbn [fst snd]. rewrite (dm_choice C o o' HO g g' _ L). eexists. split; [reflexivity|]. apply log_snoc; simpl; auto. Qed.
Lemma wsim_gumbel1 {S} l : wsim (@gumbel1 S l).
Proof. intros s g g' L. unfold gumbel1. cbn [fst snd]. rewrite (dm_gumbel C o o' HO g g' _ L). eexists. split; [reflexivity|]. apply log_snoc; simpl; auto. Qed.
Lemma wsim_optim1 {S} : wsim (@optim1 S).
Proof. intros s g g' L. unfold optim1. cbn [fst snd]. rewrite (dm_optim C o o' HO g g' L). eexists. split; [reflexivity|]. apply log_snoc; simpl; auto. Qed.
Lemma wsim_root1 {S} : wsim (@root1 S).
Proof. intros s g g' L. unfold root1. cbn [fst snd]. rewrite (dm_root C o o' HO g g' L). eexists. split; [reflexivity|]. apply log_snoc; simpl; auto. Qed.

Ltac wsd :=
  lazymatch goal with
  | |- wsim (bind _ _) => apply wsim_bind; [wsd|intros ?; wsd]
  | |- wsim (ret _) => apply wsim_ret
  | |- wsim (raise _) => apply wsim_raise
  | |- wsim get => apply wsim_get
  | |- wsim (upd _) => apply wsim_upd
  | |- wsim (beta_many _) => apply wsim_beta_many
  | |- wsim (beta_rep _ _ _) => apply wsim_beta_rep
  | |- wsim (beta1 _ _) => apply wsim_beta1
  | |- wsim (binom_many _ _) => apply wsim_binom_many
  | |- wsim (binom_rep _ _ _) => apply wsim_binom_rep
  | |- wsim (binom1 _ _) => apply wsim_binom1
  | |- wsim (unif_many _) => apply wsim_unif_many
  | |- wsim (unif1 _ _) => apply wsim_unif1
  | |- wsim (dirichlet1 _) => apply wsim_dirichlet1
  | |- wsim (choice1 _) => apply wsim_choice1
  | |- wsim (gumbel1 _) => apply wsim_gumbel1
  | |- wsim optim1 => apply wsim_optim1
  | |- wsim root1 => apply wsim_root1
  | |- wsim (base_complete_check _) => unfold base_complete_check; wsd
  | |- wsim (need_int _) => unfold need_int; wsd
  | |- wsim (repeat_inv _) => unfold repeat_inv; wsd
  | |- wsim (bernoulli_x _) => unfold bernoulli_x; wsd
  | |- wsim (if ?b then _ else _) => destruct b; wsd
  | |- wsim (match ?b with _ => _ end) => destruct b; wsd
  | |- wsim (let _ := _ in _) => cbv zeta; wsd
  | |- _ => auto
  end.

Lemma wsim_repeatM {S} n (m : M S unit) : wsim m -> wsim (repeatM n m).
Proof. intros H. induction n; simpl; wsd. Qed.
Lemma wsim_dp_complete al z : wsim (dp_complete al z). Proof. unfold dp_complete. wsd. Qed.
Lemma wsim_py_complete pd al z : wsim (py_complete pd al z). Proof. unfold py_complete. wsd. Qed.
Lemma wsim_geom_complete z : wsim (geom_complete z). Proof. unfold geom_complete. wsd. Qed.
Lemma wsim_bib_p x a b pm : wsim (bib_random_p x a b pm). Proof. unfold bib_random_p. wsd. Qed.
Lemma wsim_bib_complete x al a b pm z : wsim (bib_complete x al a b pm z). Proof. unfold bib_complete. wsd. apply wsim_bib_p. Qed.
Lemma wsim_bid_complete al a z : wsim (bid_complete al a z).
Proof. unfold bid_complete. wsd. apply wsim_repeatM. unfold bid_complete_step. wsd. Qed.
Lemma wsim_bid_vbase al x y z l : wsim (bid_draw_vbase al x y z l). Proof. induction l; simpl; wsd. Qed.
Lemma wsim_bid_all al a l : wsim (bid_update_all al a l). Proof. induction l; simpl; wsd. unfold bid_update_j. wsd. Qed.
Lemma wsim_bb_loop pp al x y js : forall bs, wsim (bb_loop pp al x y js bs). Proof. induction js; intros bs; simpl; wsd. Qed.
Lemma wsim_bb_bern pp al z : wsim (bb_random_bernoullis pp al z). Proof. unfold bb_random_bernoullis. wsd. apply wsim_bb_loop. Qed.
Lemma wsim_bb_complete pp al z : wsim (bb_complete pp al z). Proof. unfold bb_complete. wsd. Qed.
Lemma wsim_bbin_complete n al z : wsim (bbin_complete n al z). Proof. unfold bbin_complete. wsd. apply wsim_repeatM. unfold bbin_step. wsd. Qed.
Lemma wsim_dd_random al z : wsim (dd_random al z). Proof. unfold dd_random. wsd. Qed.
Hint Resolve wsim_dp_complete wsim_py_complete wsim_geom_complete wsim_bib_p wsim_bib_complete wsim_bid_complete wsim_bid_vbase wsim_bid_all
  wsim_bb_bern wsim_bb_complete wsim_bbin_complete wsim_dd_random : core.

Lemma wsim_wm_random c z : wsim (wm_random c z).
Proof.
  destruct c; simpl; auto.
  - unfold dp_random. wsd.
  - unfold py_random. wsd.
  - unfold geom_random. wsd.
  - unfold bib_random. wsd.
  - unfold bid_random. wsd.
  - unfold bb_random. wsd.
  - unfold bbin_random, bbin_random_binomials. wsd.
  - unfold eq_random. wsd.
  - unfold freq_random. wsd.
Qed.
Lemma wsim_wm_complete c z : wsim (wm_complete c z).
Proof.
  destruct c; simpl; wsd; auto; try (unfold dd_complete; wsd; fail).
  - unfold eq_random. wsd.
  - unfold freq_random. wsd.
Qed.
Hint Resolve wsim_wm_random wsim_wm_complete : core.
Lemma wsim_tail_loop c x f : wsim (tail_loop c f x).
Proof. induction f; simpl; wsd. apply wsim_diverge. Qed.
Lemma wsim_wm_tail c f x : wsim (wm_tail c f x).
Proof. assert (B : wsim (base_tail c f x)) by (unfold base_tail; wsd; apply wsim_tail_loop). destruct c; simpl; auto. unfold geom_tail. wsd. Qed.
Lemma wsim_wm_assign c dd : wsim (wm_assign_weights c dd). Proof. unfold wm_assign_weights. wsd. Qed.
Lemma wsim_wm_random_assignment z : wsim (wm_random_assignment z). Proof. unfold wm_random_assignment. wsd. Qed.

End W.
