(* Frame lemmas for the mixture model: which attributes each method can change. *)
From Coq Require Import Lqa.
From Verif Require Import Prelude Numpy Rng M_Weights M_Niw M_Utils M_Mix P_Lists P_Wp.
Open Scope Q_scope.
Open Scope m_scope.

Definition keeps {S A B} (f : S -> B) (m : M S A) : Prop :=
  forall o s g, f (snd (fst (m o s g))) = f s.

Lemma keeps_ret {S A B} (f : S -> B) (a : A) : keeps f (ret a). Proof. intros o s g; reflexivity. Qed.
Lemma keeps_raise {S A B} (f : S -> B) e : keeps f (raise (A := A) e). Proof. intros o s g; reflexivity. Qed.
Lemma keeps_get {S B} (f : S -> B) : keeps f get. Proof. intros o s g; reflexivity. Qed.
Lemma keeps_upd {S B} (f : S -> B) h : (forall s, f (h s) = f s) -> keeps f (upd h).
Proof. intros H o s g; apply H. Qed.
Lemma keeps_bind {S A B C} (f : S -> B) (m : M S A) (k : A -> M S C) :
  keeps f m -> (forall a, keeps f (k a)) -> keeps f (bind m k).
Proof.
  intros Hm Hk o s g. unfold bind. specialize (Hm o s g). destruct (m o s g) as [[[a|e|] s'] g']; simpl in *; auto.
  rewrite (Hk a o s' g'). exact Hm.
Qed.
Lemma keeps_of_res {S A B} (f : S -> B) (r : res A) : keeps f (of_res r). Proof. intros o s g; reflexivity. Qed.
Lemma keeps_unif {S B} (f : S -> B) l : keeps f (unif_many l). Proof. intros o s g; reflexivity. Qed.
Lemma keeps_gumbel {S B} (f : S -> B) l : keeps f (gumbel1 l). Proof. intros o s g; reflexivity. Qed.
Lemma keeps_invw {S B} (f : S -> B) a b : keeps f (invw1 a b). Proof. intros o s g; reflexivity. Qed.
Lemma keeps_mvn {S B} (f : S -> B) a b : keeps f (mvn1 a b). Proof. intros o s g; reflexivity. Qed.
Lemma keeps_kmeans {S B} (f : S -> B) a b : keeps f (kmeans1 a b).
Proof. intros o s g; unfold kmeans1. destruct (_ || _); reflexivity. Qed.
Lemma keeps_onw {A B} (f : ms -> B) (m : M ws A) : (forall x s, f (upd_wm x s) = f s) -> keeps f (onw m).
Proof. intros H o s g. unfold onw. destruct (m o (s_wm s) g) as [[r x] g']. apply H. Qed.

Ltac keep :=
  lazymatch goal with
  | |- keeps _ (bind _ _) => apply keeps_bind; [keep|intros ?; keep]
  | |- keeps _ (ret _) => apply keeps_ret
  | |- keeps _ (raise _) => apply keeps_raise
  | |- keeps _ get => apply keeps_get
  | |- keeps _ (upd _) => apply keeps_upd; intros ?; auto
  | |- keeps _ (of_res _) => apply keeps_of_res
  | |- keeps _ (unif_many _) => apply keeps_unif
  | |- keeps _ (gumbel1 _) => apply keeps_gumbel
  | |- keeps _ (invw1 _ _) => apply keeps_invw
  | |- keeps _ (mvn1 _ _) => apply keeps_mvn
  | |- keeps _ (kmeans1 _ _) => apply keeps_kmeans
  | |- keeps _ (onw _) => apply keeps_onw; auto
  | |- keeps _ (if ?b then _ else _) => destruct b; keep
  | |- keeps _ (match ?b with _ => _ end) => destruct b; keep
  | |- _ => auto
  end.

Lemma keeps_draw_niw {S B} (f : S -> B) h : keeps f (draw_niw h).
Proof. unfold draw_niw. keep. Qed.
Lemma keeps_km {S B} (f : S -> B) a y k : keeps f (kmeans_cluster_size_biased a y k).
Proof. unfold kmeans_cluster_size_biased. keep. Qed.
Lemma keeps_prior_atom {B} (f : ms -> B) : keeps f prior_atom.
Proof. unfold prior_atom. keep. apply keeps_draw_niw. Qed.
Lemma keeps_masked {B} (f : ms -> B) j : keeps f (masked j).
Proof. unfold masked. keep. Qed.
#[export] Hint Resolve keeps_draw_niw keeps_km keeps_prior_atom keeps_masked : core.

Section Keep.
Context {B : Type} (f : ms -> B) (E : env) (c : cls) (fuel : nat).

Lemma keeps_get_atom j : (forall x s, f (upd_theta x s) = f s) -> keeps f (get_atom j).
Proof. intros H. unfold get_atom. keep. Qed.
Lemma keeps_update_atoms js : (forall x s, f (upd_theta x s) = f s) -> keeps f (update_atoms js).
Proof. intros H. induction js; simpl; keep. Qed.
Lemma keeps_tail_to_slice : (forall x s, f (upd_wm x s) = f s) -> keeps f (tail_to_slice c fuel).
Proof. intros H. unfold tail_to_slice. keep. Qed.
Lemma keeps_update_weights : (forall x s, f (upd_wm x s) = f s) -> (forall x s, f (upd_u x s) = f s) ->
  keeps f (update_weights c fuel).
Proof. intros H1 H2. unfold update_weights. keep. apply keeps_tail_to_slice, H1. Qed.
Lemma keeps_logpdf_rows js : (forall x s, f (upd_theta x s) = f s) -> keeps f (logpdf_rows E js).
Proof. intros H. induction js; simpl; keep. apply keeps_get_atom, H. Qed.
Lemma keeps_draw_labels l : keeps f (draw_labels l).
Proof. induction l; simpl; keep. Qed.
Lemma keeps_update_d : (forall x s, f (upd_theta x s) = f s) -> (forall x s, f (upd_d x s) = f s) -> keeps f (update_d E).
Proof.
  intros H1 H2. unfold update_d. keep.
  - apply keeps_logpdf_rows, H1.
  - apply keeps_draw_labels.
Qed.
Lemma keeps_y_loglik js acc : (forall x s, f (upd_theta x s) = f s) -> keeps f (y_loglik E js acc).
Proof. intros H. revert acc. induction js; intros acc; simpl; keep. apply keeps_get_atom, H. Qed.
Lemma keeps_run_loglik : (forall x s, f (upd_wm x s) = f s) -> (forall x s, f (upd_theta x s) = f s) -> keeps f (run_loglik E c).
Proof. intros H1 H2. unfold run_loglik. keep. apply keeps_y_loglik, H2. Qed.
Lemma keeps_gibbs_step : (forall x s, f (upd_wm x s) = f s) -> (forall x s, f (upd_theta x s) = f s) ->
  (forall x s, f (upd_u x s) = f s) -> (forall x s, f (upd_d x s) = f s) -> keeps f (gibbs_step E c fuel).
Proof.
  intros H1 H2 H3 H4. unfold gibbs_step, update_all_atoms. keep.
  - apply keeps_update_atoms, H2.
  - apply keeps_update_weights; assumption.
  - apply keeps_update_d; assumption.
Qed.
Lemma keeps_update_map : (forall x s, f (upd_wm x s) = f s) -> (forall x s, f (upd_theta x s) = f s) ->
  (forall x l s, f (upd_map x l s) = f s) -> keeps f (update_map E c).
Proof. intros H1 H2 H3. unfold update_map. keep. apply keeps_run_loglik; assumption. Qed.
Lemma keeps_sweep : (forall x s, f (upd_wm x s) = f s) -> (forall x s, f (upd_theta x s) = f s) ->
  (forall x s, f (upd_u x s) = f s) -> (forall x s, f (upd_d x s) = f s) -> (forall x l s, f (upd_map x l s) = f s) ->
  keeps f (sweep E c fuel).
Proof.
  intros H1 H2 H3 H4 H5. unfold sweep. keep; [apply keeps_gibbs_step|apply keeps_update_map]; assumption.
Qed.
Lemma keeps_burn n : keeps f (sweep E c fuel) -> keeps f (burn_loop E c fuel n).
Proof. intros H. induction n; simpl; keep. Qed.
Lemma keeps_save : (forall a b d e s, f (upd_sims a b d e s) = f s) -> (forall x s, f (upd_aff x s) = f s) -> keeps f save_params.
Proof. intros H1 H2. unfold save_params. keep. Qed.
Lemma keeps_train n i : keeps f (sweep E c fuel) -> keeps f save_params -> keeps f (train_loop E c fuel n i).
Proof. intros H1 H2. revert i; induction n; intros i; simpl; keep. Qed.

Lemma keeps_set_obs y : (forall a b d s, f (upd_y a b d s) = f s) -> keeps f (set_obs y).
Proof. intros H. unfold set_obs. keep. Qed.
Lemma keeps_init_common y : (forall a b d s, f (upd_y a b d s) = f s) -> (forall a b d s, f (upd_prior a b d s) = f s) ->
  keeps f (init_common y).
Proof. intros H1 H2. unfold init_common. keep. apply keeps_set_obs, H1. Qed.
Lemma keeps_fit_var_weights k D : (forall x s, f (upd_wm x s) = f s) -> (forall x s, f (upd_var x s) = f s) ->
  keeps f (fit_var_weights c k D).
Proof. intros H1 H2. unfold fit_var_weights. keep. Qed.
Lemma keeps_update_var_d : (forall x s, f (upd_var x s) = f s) -> keeps f (update_var_d E c).
Proof. intros H. unfold update_var_d. keep. Qed.
Lemma keeps_update_var_theta : (forall x s, f (upd_var x s) = f s) -> keeps f (update_var_theta E).
Proof. intros H. unfold update_var_theta. keep. Qed.
Lemma keeps_maximize : (forall x s, f (upd_wm x s) = f s) -> (forall x s, f (upd_var x s) = f s) -> keeps f (maximize_variational E c).
Proof.
  intros H1 H2. unfold maximize_variational. keep.
  - apply keeps_update_var_d, H2.
  - apply keeps_fit_var_weights; assumption.
  - apply keeps_update_var_theta, H2.
Qed.
Lemma keeps_prior_vatoms n : (forall x s, f (upd_var x s) = f s) -> keeps f (prior_vatoms E n).
Proof. intros H. induction n; simpl; keep. Qed.
Lemma keeps_init_variational k b meth : (forall x s, f (upd_wm x s) = f s) -> (forall x s, f (upd_var x s) = f s) ->
  keeps f (init_variational E c k b meth).
Proof.
  intros H1 H2. unfold init_variational. keep;
  try (apply keeps_fit_var_weights; assumption).
  - apply keeps_update_var_theta, H2.
  - apply keeps_update_var_d, H2.
  - apply keeps_prior_vatoms, H2.
Qed.
Lemma keeps_var_loop tol n e d i : (forall x s, f (upd_wm x s) = f s) -> (forall x s, f (upd_var x s) = f s) ->
  keeps f (var_loop E c tol n e d i).
Proof.
  intros H1 H2. revert e d i. induction n; intros e d i; simpl; keep. apply keeps_maximize; assumption.
Qed.
Lemma keeps_fit_variational y k warm tol meth : (forall a b d s, f (upd_y a b d s) = f s) -> (forall a b d s, f (upd_prior a b d s) = f s) ->
  (forall x s, f (upd_wm x s) = f s) -> (forall x s, f (upd_var x s) = f s) ->
  (forall b d s, f (upd_flags (s_gfit s) b d s) = f s) -> keeps f (fit_variational E c y k warm tol meth).
Proof.
  intros H1 H2 H3 H4 H5. unfold fit_variational. keep; try (apply keeps_init_variational; assumption).
  - apply keeps_init_common; assumption.
  - apply keeps_var_loop; assumption.
Qed.
End Keep.

(* running a call on the weight model *)
Lemma wp_onw {A} o (m : M ws A) (P : post ms A) s g :
  wp o m (fun r x g' => P r (upd_wm x s) g') (s_wm s) g -> wp o (onw m) P s g.
Proof. unfold wp, onw. destruct (m o (s_wm s) g) as [[r x] g']; auto. Qed.
Lemma wp_of_res {S A} o (r : res A) (P : post S A) s g : P r s g -> wp o (of_res r) P s g.
Proof. auto. Qed.
Lemma wp_keeps {S A B} o (f : S -> B) (m : M S A) (P : post S A) s g :
  keeps f m -> wp o m P s g -> wp o m (fun r s' g' => P r s' g' /\ f s' = f s) s g.
Proof.
  intros H W. unfold wp in *. specialize (H o s g). destruct (m o s g) as [[r s'] g']. auto.
Qed.
Lemma keeps_wp {S A B} o (f : S -> B) (m : M S A) s g : keeps f m -> wp o m (fun r s' g' => f s' = f s) s g.
Proof. intros H. unfold wp. specialize (H o s g). destruct (m o s g) as [[r s'] g']. auto. Qed.
