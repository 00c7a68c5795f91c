(* Frame lemmas for the generator: which kinds of requests each method makes. *)
From Verif Require Import Prelude Numpy Rng M_Weights M_Niw M_Utils M_Mix P_Lists P_Wp P_Hoare.
Open Scope Q_scope.
Open Scope m_scope.

(* every request made is of the kind P, whatever the outcome *)
Definition logs {S A} (P : req -> Prop) (m : M S A) : Prop :=
  forall o s g, exists t, snd (m o s g) = g ++ t /\ Forall P t.

Lemma logs_none {S A} P (m : M S A) : (forall o s g, snd (m o s g) = g) -> logs P m.
Proof. intros H o s g. exists []. rewrite H, app_nil_r. auto. Qed.
Lemma logs_ret {S A} P (a : A) : logs P (@ret S A a). Proof. apply logs_none. reflexivity. Qed.
Lemma logs_raise {S A} P e : logs P (@raise S A e). Proof. apply logs_none. reflexivity. Qed.
Lemma logs_get {S} P : logs P (@get S). Proof. apply logs_none. reflexivity. Qed.
Lemma logs_upd {S} P f : logs P (@upd S f). Proof. apply logs_none. reflexivity. Qed.
Lemma logs_of_res {A} P (r : res A) : logs P (@of_res ms A r). Proof. apply logs_none. reflexivity. Qed.
Lemma logs_diverge {S A} P : logs P (fun _ (s : S) g => (@Diverge A, s, g)). Proof. apply logs_none. reflexivity. Qed.
Lemma logs_bind {S A B} P (m : M S A) (k : A -> M S B) : logs P m -> (forall a, logs P (k a)) -> logs P (bind m k).
Proof.
  intros Hm Hk o s g. unfold bind. destruct (Hm o s g) as (t & E & F). destruct (m o s g) as [[[a|e|] s1] g1]; simpl in *; subst; try (exists t; auto; fail).
  destruct (Hk a o s1 (g ++ t)) as (u & E2 & F2). exists (t ++ u). rewrite E2, app_assoc. split; [reflexivity|]. apply Forall_app. auto.
Qed.
Lemma logs_one {S A} (P : req -> Prop) (m : M S A) : (forall o s g, snd (m o s g) = g \/ exists q, snd (m o s g) = g ++ [q] /\ P q) -> logs P m.
Proof. intros H o s g. destruct (H o s g) as [E|(q & E & F)]; [exists []; rewrite E, app_nil_r; auto|exists [q]; auto]. Qed.
Lemma logs_weaken {S A} (P Q : req -> Prop) (m : M S A) : (forall q, P q -> Q q) -> logs P m -> logs Q m.
Proof. intros H L o s g. destruct (L o s g) as (t & E & F). exists t. split; [exact E|]. eapply Forall_impl; eauto. Qed.
Lemma logs_onw {A} P (m : M ws A) : logs P m -> logs P (onw m).
Proof. intros H o s g. unfold onw. destruct (H o (s_wm s) g) as (t & E & F). destruct (m o (s_wm s) g) as [[r x] g']. exists t. auto. Qed.

Lemma unif_draws_log o lh : forall g, snd (unif_draws o lh g) = g ++ map (fun q => runif (fst q) (snd q)) lh.
Proof.
  induction lh as [|[lo hi] l IH]; intros g; simpl; [rewrite app_nil_r; reflexivity|]. rewrite IH, <- app_assoc. reflexivity.
Qed.
Lemma binom_draws_log o n ps : forall g, snd (binom_draws o n ps g) = g ++ map (rbinom n) ps.
Proof. induction ps as [|p l IH]; intros g; simpl; [rewrite app_nil_r; reflexivity|]. rewrite IH, <- app_assoc. reflexivity. Qed.
Lemma Forall_all {A} (P : A -> Prop) l : (forall a, P a) -> Forall P l.
Proof. intros H. apply Forall_forall. auto. Qed.

Section Draws.
Variable P : req -> Prop.
Hypothesis Hbeta : forall a b, P (RBeta a b).
Hypothesis Hbin : forall n p, P (RBinom n p).
Hypothesis Hdir : forall al, P (RDirichlet al).
Hypothesis Hch : forall p, P (RChoice p).
Hypothesis Hgum : forall l, P (RGumbel l).
Hypothesis Hopt : P ROptim.
Hypothesis Hroot : P RRoot.
Hypothesis Hunif : forall a b, P (RUnif a b).

Lemma logs_beta_many {S} ab : logs P (@beta_many S ab).
Proof.
  intros o s g. unfold beta_many. destruct (allpos ab); simpl; [|exists []; rewrite app_nil_r; auto]. rewrite beta_draws_log. eexists. split; [reflexivity|].
  apply Forall_forall. intros q Hq. apply in_map_iff in Hq as (x & <- & _). apply Hbeta.
Qed.
Lemma logs_beta_rep {S} a b n : logs P (@beta_rep S a b n).
Proof.
  intros o s g. unfold beta_rep. destruct (allpos _); [|exists []; rewrite app_nil_r; auto]. cbv zeta. cbn [snd]. rewrite beta_draws_log. eexists. split; [reflexivity|].
  apply Forall_forall. intros q Hq. apply in_map_iff in Hq as (x & <- & _). apply Hbeta.
Qed.
Lemma logs_beta1 {S} a b : logs P (@beta1 S a b).
Proof. apply logs_one. intros o s g. unfold beta1. destruct (allpos _); [right|left]; simpl; eauto. Qed.
Lemma logs_binom_many {S} n ps : logs P (@binom_many S n ps).
Proof.
  intros o s g. unfold binom_many. destruct (_ && _); simpl; [|exists []; rewrite app_nil_r; auto]. rewrite binom_draws_log. eexists. split; [reflexivity|].
  apply Forall_forall. intros q Hq. apply in_map_iff in Hq as (x & <- & _). apply Hbin.
Qed.
Lemma logs_binom_rep {S} n p k : logs P (@binom_rep S n p k).
Proof.
  intros o s g. unfold binom_rep. destruct (_ && _); [|exists []; rewrite app_nil_r; auto]. cbv zeta. cbn [snd]. rewrite binom_draws_log. eexists. split; [reflexivity|].
  apply Forall_forall. intros q Hq. apply in_map_iff in Hq as (x & <- & _). apply Hbin.
Qed.
Lemma logs_binom1 {S} n p : logs P (@binom1 S n p).
Proof. apply logs_one. intros o s g. unfold binom1. destruct (_ && _); [right|left]; simpl; eauto. Qed.
Lemma logs_unif_many {S} l : logs P (@unif_many S l).
Proof.
  intros o s g. unfold unif_many. simpl. rewrite unif_draws_log. eexists. split; [reflexivity|]. apply Forall_forall. intros q Hq. apply in_map_iff in Hq as (x & <- & _). apply Hunif.
Qed.
Lemma logs_unif1 {S} a b : logs P (@unif1 S a b).
Proof. apply logs_one. intros o s g. right. eexists. split; [reflexivity|apply Hunif]. Qed.
Lemma logs_dirichlet1 {S} al : logs P (@dirichlet1 S al).
Proof. apply logs_one. intros o s g. unfold dirichlet1. destruct (forallb _ _); [right|left]; simpl; eauto. Qed.
Lemma logs_choice1 {S} p : logs P (@choice1 S p).
Proof. apply logs_one. intros o s g. unfold choice1. destruct (_ && _); [right|left]; simpl; eauto. Qed.
Lemma logs_gumbel1 {S} l : logs P (@gumbel1 S l).
Proof. apply logs_one. intros o s g. right. eexists. split; [reflexivity|apply Hgum]. Qed.
Lemma logs_optim1 {S} : logs P (@optim1 S). Proof. apply logs_one. intros o s g. right. eexists. split; [reflexivity|exact Hopt]. Qed.
Lemma logs_root1 {S} : logs P (@root1 S). Proof. apply logs_one. intros o s g. right. eexists. split; [reflexivity|exact Hroot]. Qed.

Ltac logd :=
  lazymatch goal with
  | |- logs _ (bind _ _) => apply logs_bind; [logd|intros ?; logd]
  | |- logs _ (ret _) => apply logs_ret
  | |- logs _ (raise _) => apply logs_raise
  | |- logs _ get => apply logs_get
  | |- logs _ (upd _) => apply logs_upd
  | |- logs _ (of_res _) => apply logs_of_res
  | |- logs _ (beta_many _) => apply logs_beta_many
  | |- logs _ (beta_rep _ _ _) => apply logs_beta_rep
  | |- logs _ (beta1 _ _) => apply logs_beta1
  | |- logs _ (binom_many _ _) => apply logs_binom_many
  | |- logs _ (binom_rep _ _ _) => apply logs_binom_rep
  | |- logs _ (binom1 _ _) => apply logs_binom1
  | |- logs _ (unif_many _) => apply logs_unif_many
  | |- logs _ (unif1 _ _) => apply logs_unif1
  | |- logs _ (dirichlet1 _) => apply logs_dirichlet1
  | |- logs _ (choice1 _) => apply logs_choice1
  | |- logs _ (gumbel1 _) => apply logs_gumbel1
  | |- logs _ optim1 => apply logs_optim1
  | |- logs _ root1 => apply logs_root1
  | |- logs _ (base_complete_check _) => unfold base_complete_check; logd
  | |- logs _ (need_int _) => unfold need_int; logd
  | |- logs _ (repeat_inv _) => unfold repeat_inv; logd
  | |- logs _ (bernoulli_x _) => unfold bernoulli_x; logd
  | |- logs _ (if ?b then _ else _) => destruct b; logd
  | |- logs _ (match ?b with _ => _ end) => destruct b; logd
  | |- logs _ (let _ := _ in _) => cbv zeta; logd
  | |- _ => auto
  end.

Lemma logs_repeatM {S} n (m : M S unit) : logs P m -> logs P (repeatM n m).
Proof. intros H. induction n; simpl; logd. Qed.
Lemma logs_dp_complete al z : logs P (dp_complete al z). Proof. unfold dp_complete. logd. Qed.
Lemma logs_py_complete pd al z : logs P (py_complete pd al z). Proof. unfold py_complete. logd. Qed.
Lemma logs_geom_complete z : logs P (geom_complete z). Proof. unfold geom_complete. logd. Qed.
Lemma logs_bib_p x a b pm : logs P (bib_random_p x a b pm). Proof. unfold bib_random_p. logd. Qed.
Lemma logs_bib_complete x al a b pm z : logs P (bib_complete x al a b pm z). Proof. unfold bib_complete. logd. apply logs_bib_p. Qed.
Lemma logs_bid_complete al a z : logs P (bid_complete al a z).
Proof. unfold bid_complete. logd. apply logs_repeatM. unfold bid_complete_step. logd. Qed.
Lemma logs_bid_vbase al x y z l : logs P (bid_draw_vbase al x y z l). Proof. induction l; simpl; logd. Qed.
Lemma logs_bid_all al a l : logs P (bid_update_all al a l). Proof. induction l; simpl; logd. unfold bid_update_j. logd. Qed.
Lemma logs_bb_loop pp al x y js : forall bs, logs P (bb_loop pp al x y js bs). Proof. induction js; intros bs; simpl; logd. Qed.
Lemma logs_bb_bern pp al z : logs P (bb_random_bernoullis pp al z). Proof. unfold bb_random_bernoullis. logd. apply logs_bb_loop. Qed.
Lemma logs_bb_complete pp al z : logs P (bb_complete pp al z). Proof. unfold bb_complete. logd. Qed.
Lemma logs_bbin_complete n al z : logs P (bbin_complete n al z). Proof. unfold bbin_complete. logd. apply logs_repeatM. unfold bbin_step. logd. Qed.
Lemma logs_dd_random al z : logs P (dd_random al z). Proof. unfold dd_random. logd. Qed.
Hint Resolve logs_dp_complete logs_py_complete logs_geom_complete logs_bib_p logs_bib_complete logs_bid_complete logs_bid_vbase logs_bid_all
  logs_bb_bern logs_bb_complete logs_bbin_complete logs_dd_random : core.

Lemma logs_wm_random c z : logs P (wm_random c z).
Proof.
  destruct c; simpl; auto.
  - unfold dp_random. logd.
  - unfold py_random. logd.
  - unfold geom_random. logd.
  - unfold bib_random. logd.
  - unfold bid_random. logd.
  - unfold bb_random. logd.
  - unfold bbin_random, bbin_random_binomials. logd.
  - unfold eq_random. logd.
  - unfold freq_random. logd.
Qed.
Lemma logs_wm_complete c z : logs P (wm_complete c z).
Proof.
  destruct c; simpl; logd; auto; try (unfold dd_complete; logd; fail).
  - unfold eq_random. logd.
  - unfold freq_random. logd.
Qed.
Hint Resolve logs_wm_random logs_wm_complete : core.
Lemma logs_tail_loop c x f : logs P (tail_loop c f x).
Proof. induction f; simpl; logd. apply logs_diverge. Qed.
Lemma logs_wm_tail c f x : logs P (wm_tail c f x).
Proof. assert (B : logs P (base_tail c f x)) by (unfold base_tail; logd; apply logs_tail_loop). destruct c; simpl; auto. unfold geom_tail. logd. Qed.
Lemma logs_wm_assign c dd : logs P (wm_assign_weights c dd). Proof. unfold wm_assign_weights. logd. Qed.
Lemma logs_wm_random_assignment z : logs P (wm_random_assignment z). Proof. unfold wm_random_assignment. logd. Qed.

(* mixtures *)
Hypothesis Hiw : forall nu psi, P (RInvWish nu psi).
Hypothesis Hmv : forall mu sg, P (RMvn mu sg).
Lemma logs_invw1 {S} nu psi : logs P (@invw1 S nu psi). Proof. apply logs_one. intros o s g. right. eexists. split; [reflexivity|apply Hiw]. Qed.
Lemma logs_mvn1 {S} mu sg : logs P (@mvn1 S mu sg). Proof. apply logs_one. intros o s g. right. eexists. split; [reflexivity|apply Hmv]. Qed.
Ltac logm :=
  lazymatch goal with
  | |- logs _ (bind _ _) => apply logs_bind; [logm|intros ?; logm]
  | |- logs _ (ret _) => apply logs_ret
  | |- logs _ (raise _) => apply logs_raise
  | |- logs _ get => apply logs_get
  | |- logs _ (upd _) => apply logs_upd
  | |- logs _ (of_res _) => apply logs_of_res
  | |- logs _ (onw _) => apply logs_onw; logm
  | |- logs _ (unif_many _) => apply logs_unif_many
  | |- logs _ (gumbel1 _) => apply logs_gumbel1
  | |- logs _ (invw1 _ _) => apply logs_invw1
  | |- logs _ (mvn1 _ _) => apply logs_mvn1
  | |- logs _ (wm_fit _) => apply logs_upd
  | |- logs _ (if ?b then _ else _) => destruct b; logm
  | |- logs _ (match ?b with _ => _ end) => destruct b; logm
  | |- logs _ (let _ := _ in _) => cbv zeta; logm
  | |- _ => auto
  end.
Hint Resolve logs_wm_tail logs_wm_assign logs_wm_random_assignment : core.
Lemma logs_draw_niw {S} h : logs P (@draw_niw S h). Proof. unfold draw_niw. logm. Qed.
Lemma logs_prior_atom : logs P prior_atom. Proof. unfold prior_atom. logm. apply logs_draw_niw. Qed.
Hint Resolve logs_draw_niw logs_prior_atom : core.
Lemma logs_masked j : logs P (masked j). Proof. unfold masked. logm. Qed.
Hint Resolve logs_masked : core.
Lemma logs_get_atom j : logs P (get_atom j). Proof. unfold get_atom. logm. Qed.
Hint Resolve logs_get_atom : core.
Lemma logs_update_atoms js : logs P (update_atoms js). Proof. induction js; simpl; logm. Qed.
Hint Resolve logs_update_atoms : core.
Lemma logs_tail_to_slice c f : logs P (tail_to_slice c f). Proof. unfold tail_to_slice. logm. Qed.
Hint Resolve logs_tail_to_slice : core.
Lemma logs_update_weights c f : logs P (update_weights c f). Proof. unfold update_weights. logm. Qed.
Lemma logs_logpdf E js : logs P (logpdf_rows E js). Proof. induction js; simpl; logm. Qed.
Lemma logs_draw_labels l : logs P (draw_labels l). Proof. induction l; simpl; logm. Qed.
Hint Resolve logs_update_weights logs_logpdf logs_draw_labels : core.
Lemma logs_update_d E : logs P (update_d E). Proof. unfold update_d. logm. Qed.
Hint Resolve logs_update_d : core.
Lemma logs_gibbs_step E c f : logs P (gibbs_step E c f). Proof. unfold gibbs_step, update_all_atoms. logm. Qed.
Lemma logs_y_loglik E js : forall acc, logs P (y_loglik E js acc). Proof. induction js; intros acc; simpl; logm. Qed.
Hint Resolve logs_gibbs_step logs_y_loglik : core.
Lemma logs_update_map E c : logs P (update_map E c). Proof. unfold update_map, run_loglik. logm. Qed.
Lemma logs_sweep E c f : logs P (sweep E c f). Proof. unfold sweep. logm. apply logs_update_map. Qed.
Hint Resolve logs_sweep logs_update_map : core.
Lemma logs_burn E c f n : logs P (burn_loop E c f n). Proof. induction n; simpl; logm. Qed.
Lemma logs_train E c f n : forall i, logs P (train_loop E c f n i). Proof. induction n; intros i; simpl; logm. unfold save_params. logm. Qed.
Hint Resolve logs_burn logs_train : core.
Lemma logs_init_common y : logs P (init_common y).
Proof. unfold init_common. logm; destruct y; unfold set_obs; logm. Qed.
Hypothesis Hkm : forall y k, P (RKMeans y k).
Lemma logs_kmeans1 {S} y k : logs P (@kmeans1 S y k).
Proof. apply logs_one. intros o s g. unfold kmeans1. destruct (_ || _); [left|right]; simpl; eauto. Qed.
Lemma logs_km {S} a y k : logs P (@kmeans_cluster_size_biased S a y k).
Proof. unfold kmeans_cluster_size_biased. logm. apply logs_kmeans1. Qed.
Hint Resolve logs_km : core.
Lemma logs_fit_var_weights c k D : logs P (fit_var_weights c k D).
Proof. unfold fit_var_weights. logm. unfold wm_fit_var. logm. Qed.
Lemma logs_update_var_d E c : logs P (update_var_d E c). Proof. unfold update_var_d. logm. Qed.
Lemma logs_update_var_theta E : logs P (update_var_theta E). Proof. unfold update_var_theta. logm. Qed.
Hint Resolve logs_fit_var_weights logs_update_var_d logs_update_var_theta : core.
Lemma logs_prior_vatoms E n : logs P (prior_vatoms E n). Proof. induction n; simpl; logm. Qed.
Hint Resolve logs_prior_vatoms : core.
Lemma logs_init_variational E c k b m : logs P (init_variational E c k b m). Proof. unfold init_variational. logm. Qed.
Lemma logs_var_loop E c tol n : forall e d i, logs P (var_loop E c tol n e d i).
Proof. induction n; intros e d i; simpl; logm. unfold maximize_variational. logm. Qed.
Hint Resolve logs_init_variational logs_var_loop logs_init_common : core.
Lemma logs_fit_variational E c y k warm tol m : logs P (fit_variational E c y k warm tol m). Proof. unfold fit_variational. logm. Qed.
Hint Resolve logs_fit_variational : core.
Lemma logs_init_gibbs E c f ig m : logs P (init_gibbs E c f ig m). Proof. unfold init_gibbs. logm. Qed.
Hint Resolve logs_init_gibbs : core.
Lemma logs_fit_gibbs E c f y ig warm m : logs P (fit_gibbs E c f y ig warm m). Proof. unfold fit_gibbs. logm. Qed.
End Draws.
