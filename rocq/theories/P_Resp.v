(* Methods that do not look at part of the object. *)
From Verif Require Import Prelude Numpy Rng M_Weights M_Niw M_Utils M_Mix P_Lists P_Wp P_Mix.
Open Scope Q_scope.
Open Scope m_scope.

(* same result and requests from states with the same view, and equal views after *)
Definition resp {A} (v : ms -> ms) (m : M ms A) : Prop :=
  forall o s1 s2 g, v s1 = v s2 ->
    match m o s1 g, m o s2 g with (r1, t1, g1), (r2, t2, g2) => r1 = r2 /\ g1 = g2 /\ v t1 = v t2 end.

(* without saved states, affinity and MAP; without labels and the Gibbs flag *)
Definition wipe (a : bool) (s : ms) : ms :=
  if a then upd_sims 0 [] [] [] (upd_aff [] (upd_map None LNeg s)) else upd_flags false (s_vfit s) (s_vconv s) (upd_d None s).

Section V.
Variable v : ms -> ms.
Lemma resp_bind {A B} (m : M ms A) (k : A -> M ms B) : resp v m -> (forall a, resp v (k a)) -> resp v (bind m k).
Proof.
  intros H1 H2 o s1 s2 g Hi. specialize (H1 o s1 s2 g Hi). unfold bind.
  destruct (m o s1 g) as [[r1 t1] g1], (m o s2 g) as [[r2 t2] g2]. destruct H1 as (<- & <- & H).
  destruct r1; [apply (H2 a); exact H|repeat split; exact H|repeat split; exact H].
Qed.
Lemma resp_get {B} (k : ms -> M ms B) : (forall s, k s = k (v s)) -> (forall s, resp v (k s)) -> resp v (bind get k).
Proof. intros H Hk o s1 s2 g Hi. unfold bind, get. rewrite (H s2), <- Hi, <- (H s1). apply Hk, Hi. Qed.
Lemma resp_upd h : (forall s, v (h s) = v (h (v s))) -> resp v (upd h).
Proof. intros H o s1 s2 g Hi. simpl. repeat split. rewrite (H s1), (H s2), Hi. reflexivity. Qed.
Lemma resp_ret {A} (a : A) : resp v (ret a). Proof. intros o s1 s2 g Hi; simpl; auto. Qed.
Lemma resp_raise {A} e : resp v (raise (A := A) e). Proof. intros o s1 s2 g Hi; simpl; auto. Qed.
Lemma resp_of_res {A} (r : res A) : resp v (of_res r). Proof. intros o s1 s2 g Hi; simpl; auto. Qed.
Lemma resp_unif l : resp v (unif_many l). Proof. intros o s1 s2 g Hi; simpl; auto. Qed.
Lemma resp_gumbel l : resp v (gumbel1 l). Proof. intros o s1 s2 g Hi; simpl; auto. Qed.
Lemma resp_invw a b : resp v (invw1 a b). Proof. intros o s1 s2 g Hi; simpl; auto. Qed.
Lemma resp_mvn a b : resp v (mvn1 a b). Proof. intros o s1 s2 g Hi; simpl; auto. Qed.
Lemma resp_kmeans a b : resp v (kmeans1 a b). Proof. intros o s1 s2 g Hi; unfold kmeans1; destruct (_ || _); simpl; auto. Qed.
Lemma resp_onw {A} (m : M ws A) : (forall s, s_wm (v s) = s_wm s) -> (forall x s, v (upd_wm x s) = v (upd_wm x (v s))) -> resp v (onw m).
Proof.
  intros H1 H2 o s1 s2 g Hi. unfold onw. replace (s_wm s2) with (s_wm s1) by (rewrite <- (H1 s1), Hi; apply H1).
  destruct (m o (s_wm s1) g) as [[r x] g']. repeat split. rewrite (H2 x s1), (H2 x s2), Hi. reflexivity.
Qed.
End V.

Ltac side := intros; match goal with a : bool |- _ => destruct a; reflexivity | |- _ => reflexivity end.
Ltac rsp :=
  lazymatch goal with
  | |- resp _ (bind get _) => apply resp_get; [solve [side]|intros ?; rsp]
  | |- resp _ (bind _ _) => apply resp_bind; [rsp|intros ?; rsp]
  | |- resp _ (ret _) => apply resp_ret
  | |- resp _ (raise _) => apply resp_raise
  | |- resp _ (upd _) => apply resp_upd; solve [side]
  | |- resp _ (of_res _) => apply resp_of_res
  | |- resp _ (unif_many _) => apply resp_unif
  | |- resp _ (gumbel1 _) => apply resp_gumbel
  | |- resp _ (invw1 _ _) => apply resp_invw
  | |- resp _ (mvn1 _ _) => apply resp_mvn
  | |- resp _ (kmeans1 _ _) => apply resp_kmeans
  | |- resp _ (onw _) => apply resp_onw; solve [side]
  | |- resp _ (if ?b then _ else _) => destruct b; rsp
  | |- resp _ (match ?b with _ => _ end) => destruct b; rsp
  | |- _ => auto
  end.

Lemma resp_draw_niw v h : resp v (draw_niw h). Proof. unfold draw_niw. rsp. Qed.
Lemma resp_km v a y k : resp v (kmeans_cluster_size_biased a y k). Proof. unfold kmeans_cluster_size_biased. rsp. Qed.
#[export] Hint Resolve resp_draw_niw resp_km : core.

Section W.
Variables (E : env) (c : cls) (fuel : nat) (a : bool).
Lemma resp_prior_atom : resp (wipe a) prior_atom. Proof. unfold prior_atom. rsp. Qed.
Lemma resp_tail : resp (wipe a) (tail_to_slice c fuel). Proof. unfold tail_to_slice. rsp. Qed.
Lemma resp_set_obs y : resp (wipe a) (set_obs y). Proof. unfold set_obs. rsp. Qed.
Hint Resolve resp_prior_atom resp_tail resp_set_obs : core.
Lemma resp_init_common y : resp (wipe a) (init_common y). Proof. unfold init_common. rsp. Qed.
Lemma resp_fit_var_weights k D : resp (wipe a) (fit_var_weights c k D). Proof. unfold fit_var_weights. rsp. Qed.
Lemma resp_update_var_d : resp (wipe a) (update_var_d E c). Proof. unfold update_var_d. rsp. Qed.
Lemma resp_update_var_theta : resp (wipe a) (update_var_theta E). Proof. unfold update_var_theta. rsp. Qed.
Hint Resolve resp_init_common resp_fit_var_weights resp_update_var_d resp_update_var_theta : core.
Lemma resp_maximize : resp (wipe a) (maximize_variational E c). Proof. unfold maximize_variational. rsp. Qed.
Lemma resp_prior_vatoms n : resp (wipe a) (prior_vatoms E n). Proof. induction n; simpl; rsp. Qed.
Hint Resolve resp_maximize resp_prior_vatoms : core.
Lemma resp_init_variational k b meth : resp (wipe a) (init_variational E c k b meth). Proof. unfold init_variational. rsp. Qed.
Lemma resp_var_loop tol n : forall e d i, resp (wipe a) (var_loop E c tol n e d i). Proof. induction n; intros; simpl; rsp. Qed.
Hint Resolve resp_init_variational resp_var_loop : core.
Lemma resp_fit_variational y k warm tol meth : resp (wipe a) (fit_variational E c y k warm tol meth). Proof. unfold fit_variational. rsp. Qed.
End W.

Section W35.
Variables (E : env) (c : cls) (fuel : nat).
Hint Resolve resp_prior_atom resp_tail resp_fit_variational resp_init_common : core.
Notation v := (wipe true).
Lemma resp_get_atom j : resp v (get_atom j). Proof. unfold get_atom. rsp. Qed.
Lemma resp_masked j : resp v (masked j). Proof. unfold masked. rsp. Qed.
Hint Resolve resp_get_atom resp_masked : core.
Lemma resp_update_atoms js : resp v (update_atoms js). Proof. induction js; simpl; rsp. Qed.
Lemma resp_update_weights : resp v (update_weights c fuel). Proof. unfold update_weights. rsp. Qed.
Lemma resp_logpdf_rows js : resp v (logpdf_rows E js). Proof. induction js; simpl; rsp. Qed.
Lemma resp_draw_labels l : resp v (draw_labels l). Proof. induction l; simpl; rsp. Qed.
Hint Resolve resp_update_atoms resp_update_weights resp_logpdf_rows resp_draw_labels : core.
Lemma resp_update_d : resp v (update_d E). Proof. unfold update_d. rsp. Qed.
Lemma resp_update_all_atoms : resp v update_all_atoms. Proof. unfold update_all_atoms. rsp. Qed.
Hint Resolve resp_update_d resp_update_all_atoms : core.
Lemma resp_gibbs_step : resp v (gibbs_step E c fuel). Proof. unfold gibbs_step. rsp. Qed.
Lemma resp_y_loglik js : forall acc, resp v (y_loglik E js acc). Proof. induction js; intros; simpl; rsp. Qed.
Hint Resolve resp_y_loglik : core.
Lemma resp_run_loglik : resp v (run_loglik E c). Proof. unfold run_loglik. rsp. Qed.
Lemma resp_init_gibbs ig meth : resp v (init_gibbs E c fuel ig meth). Proof. unfold init_gibbs. rsp. Qed.
End W35.

(* the object without the Gibbs flag *)
Definition nog (s : ms) : ms := upd_flags false (s_vfit s) (s_vconv s) s.
Section Wg.
Variables (E : env) (c : cls) (fuel : nat).
Notation v := nog.
Lemma nog_prior_atom : resp v prior_atom. Proof. unfold prior_atom. rsp. Qed.
Lemma nog_tail : resp v (tail_to_slice c fuel). Proof. unfold tail_to_slice. rsp. Qed.
Hint Resolve nog_prior_atom nog_tail : core.
Lemma nog_get_atom j : resp v (get_atom j). Proof. unfold get_atom. rsp. Qed.
Lemma nog_masked j : resp v (masked j). Proof. unfold masked. rsp. Qed.
Hint Resolve nog_get_atom nog_masked : core.
Lemma nog_update_atoms js : resp v (update_atoms js). Proof. induction js; simpl; rsp. Qed.
Lemma nog_update_weights : resp v (update_weights c fuel). Proof. unfold update_weights. rsp. Qed.
Lemma nog_logpdf_rows js : resp v (logpdf_rows E js). Proof. induction js; simpl; rsp. Qed.
Lemma nog_draw_labels l : resp v (draw_labels l). Proof. induction l; simpl; rsp. Qed.
Hint Resolve nog_update_atoms nog_update_weights nog_logpdf_rows nog_draw_labels : core.
Lemma nog_update_d : resp v (update_d E). Proof. unfold update_d. rsp. Qed.
Lemma nog_update_all_atoms : resp v update_all_atoms. Proof. unfold update_all_atoms. rsp. Qed.
Hint Resolve nog_update_d nog_update_all_atoms : core.
Lemma nog_gibbs_step : resp v (gibbs_step E c fuel). Proof. unfold gibbs_step. rsp. Qed.
Lemma nog_y_loglik js : forall acc, resp v (y_loglik E js acc). Proof. induction js; intros; simpl; rsp. Qed.
Hint Resolve nog_y_loglik : core.
Lemma nog_run_loglik : resp v (run_loglik E c). Proof. unfold run_loglik. rsp. Qed.
Hint Resolve nog_gibbs_step nog_run_loglik : core.
Lemma nog_update_map : resp v (update_map E c). Proof. unfold update_map. rsp. Qed.
Hint Resolve nog_update_map : core.
Lemma nog_sweep : resp v (sweep E c fuel). Proof. unfold sweep. rsp. Qed.
Hint Resolve nog_sweep : core.
Lemma nog_burn n : resp v (burn_loop E c fuel n). Proof. induction n; simpl; rsp. Qed.
Lemma nog_save : resp v save_params. Proof. unfold save_params. rsp. Qed.
Hint Resolve nog_save : core.
Lemma nog_train n : forall i, resp v (train_loop E c fuel n i). Proof. induction n; intros; cbn [train_loop]; rsp. Qed.
End Wg.
