(* Mixtures over weight models that behave alike. *)
From Coq Require Import Lqa.
From Verif Require Import Prelude Numpy Rng M_Weights M_Niw M_Utils M_Mix S_Weights S_Hist S_Twin P_Lists P_Hoare P_Wp P_Random P_Rel.
Open Scope Q_scope.
Open Scope m_scope.

Section I.
Variable I : srel.
Definition mrel {A} (m1 m2 : M ms A) : Prop :=
  forall o x s g, I x (s_wm s) ->
    match m1 o (upd_wm x s) g, m2 o s g with
    | (r1, t1, g1), (r2, t2, g2) => r1 = r2 /\ g1 = g2 /\ t1 = upd_wm (s_wm t1) t2 /\ I (s_wm t1) (s_wm t2)
    end.
Lemma mrel_bind {A B} (m1 m2 : M ms A) (k1 k2 : A -> M ms B) : mrel m1 m2 -> (forall a, mrel (k1 a) (k2 a)) -> mrel (bind m1 k1) (bind m2 k2).
Proof.
  intros H1 H2 o x s g Hi. specialize (H1 o x s g Hi). unfold bind.
  destruct (m1 o (upd_wm x s) g) as [[r1 t1] g1], (m2 o s g) as [[r2 t2] g2]. destruct H1 as (<- & <- & H & K).
  destruct r1; [rewrite H; apply (H2 a); exact K|repeat split; assumption|repeat split; assumption].
Qed.
Lemma mrel_get {B} (k1 k2 : ms -> M ms B) : (forall x s, I x (s_wm s) -> mrel (k1 (upd_wm x s)) (k2 s)) -> mrel (bind get k1) (bind get k2).
Proof. intros H o x s g Hi. unfold bind, get. apply H; exact Hi. Qed.
Lemma mrel_ret {A} (a : A) : mrel (ret a) (ret a). Proof. intros o x s g Hi; simpl; auto. Qed.
Lemma mrel_raise {A} e : mrel (raise (A := A) e) (raise e). Proof. intros o x s g Hi; simpl; auto. Qed.
Lemma mrel_upd f : (forall x s, f (upd_wm x s) = upd_wm x (f s)) -> (forall s, s_wm (f s) = s_wm s) -> mrel (upd f) (upd f).
Proof. intros H K o x s g Hi. simpl. rewrite H. repeat split. simpl. rewrite K. exact Hi. Qed.
Lemma mrel_of_res {A} (r : res A) : mrel (of_res r) (of_res r). Proof. intros o x s g Hi; simpl; auto. Qed.
Lemma mrel_unif l : mrel (unif_many l) (unif_many l). Proof. intros o x s g Hi; simpl; auto. Qed.
Lemma mrel_gumbel l : mrel (gumbel1 l) (gumbel1 l). Proof. intros o x s g Hi; simpl; auto. Qed.
Lemma mrel_invw a b : mrel (invw1 a b) (invw1 a b). Proof. intros o x s g Hi; simpl; auto. Qed.
Lemma mrel_mvn a b : mrel (mvn1 a b) (mvn1 a b). Proof. intros o x s g Hi; simpl; auto. Qed.
Lemma mrel_kmeans a b : mrel (kmeans1 a b) (kmeans1 a b). Proof. intros o x s g Hi; unfold kmeans1; destruct (_ || _); simpl; auto. Qed.
Lemma mrel_onw {A} (m1 m2 : M ws A) : rel I I I m1 m2 -> mrel (onw m1) (onw m2).
Proof.
  intros H o x s g Hi. unfold onw. specialize (H o x (s_wm s) g Hi). change (s_wm (upd_wm x s)) with x.
  destruct (m1 o x g) as [[r1 t1] g1], (m2 o (s_wm s) g) as [[r2 t2] g2]. destruct H as (<- & <- & H). repeat split. simpl. destruct r1; exact H.
Qed.
End I.
Arguments mrel I {A} m1 m2.

Ltac proj := cbn [upd_wm s_total s_burn s_sub s_n s_mu s_lam s_psi s_nu s_wm s_y s_dim s_1d s_d s_theta s_gen s_u s_aff s_map s_mapll s_saved s_sims s_groups s_atoms s_var s_gfit s_vfit s_vconv labels_of prior_niw].
Ltac mr :=
  lazymatch goal with
  | |- mrel _ (bind get _) (bind get _) => apply mrel_get; let x := fresh "x" in let s := fresh "s" in let Hi := fresh "Hi" in intros x s Hi; unfold labels_of, prior_niw; proj; mr
  | |- mrel _ (bind _ _) (bind _ _) => apply mrel_bind; [mr|intros ?; mr]
  | |- mrel _ (ret _) (ret _) => apply mrel_ret
  | |- mrel _ (raise _) (raise _) => apply mrel_raise
  | |- mrel _ (upd _) (upd _) => try (apply mrel_upd; intros; reflexivity)
  | |- mrel _ (of_res _) (of_res _) => apply mrel_of_res
  | |- mrel _ (unif_many _) (unif_many _) => apply mrel_unif
  | |- mrel _ (gumbel1 _) (gumbel1 _) => apply mrel_gumbel
  | |- mrel _ (invw1 _ _) (invw1 _ _) => apply mrel_invw
  | |- mrel _ (mvn1 _ _) (mvn1 _ _) => apply mrel_mvn
  | |- mrel _ (kmeans1 _ _) (kmeans1 _ _) => apply mrel_kmeans
  | |- mrel _ (if ?b then _ else _) (if ?b then _ else _) => destruct b; mr
  | |- mrel _ (match ?b with _ => _ end) (match ?b with _ => _ end) => destruct b; mr
  | |- _ => auto
  end.

Section T.
Variables (I : srel) (E : env) (c1 c2 : cls) (fuel : nat).
Hypothesis Iw : forall x y, I x y -> w x = w y.
Hypothesis Id : forall x y dd, I x y -> I (set_d dd x) (set_d dd y).
Hypothesis Hr : rel I I I (wm_random c1 SNone) (wm_random c2 SNone).
Hypothesis Ht : forall x, rel I I I (wm_tail c1 fuel x) (wm_tail c2 fuel x).
Hypothesis Hc : forall z, rel I I I (wm_complete c1 z) (wm_complete c2 z).

Lemma t_fit dd : rel I I I (wm_fit dd) (wm_fit dd).
Proof. apply rel_upd'. intros. apply Id. assumption. Qed.
Lemma t_assign l : rel I I I (wm_assign_weights c1 (Some l)) (wm_assign_weights c2 (Some l)).
Proof.
  unfold wm_assign_weights. apply rel_get. intros s1 s2 Hs. apply (rel_at I _ _ _ _ _ _ Hs). cbv zeta. destruct (is_nil l); [apply rel_raise; auto|].
  eapply rel_bind; [apply Hc|]. intros _. apply rel_get. intros t1 t2 Hu. apply (rel_at I _ _ _ _ _ _ Hu). rewrite (Iw _ _ Hu).
  destruct (gather (w t2) l); [apply rel_ret; reflexivity|apply rel_raise; auto].
Qed.
Lemma t_rassign z : rel I I I (wm_random_assignment (SInt z)) (wm_random_assignment (SInt z)).
Proof.
  unfold wm_random_assignment. destruct (z <? 0)%Z; [apply rel_raise; auto|].
  eapply (rel_bind I I); [apply rel_blind; [apply blind_unif_many|auto|auto]|]. intros us.
  apply rel_get. intros t1 t2 Hu. apply (rel_at I _ _ _ _ _ _ Hu). apply rel_ret. rewrite (Iw _ _ Hu). reflexivity.
Qed.
Hint Resolve t_fit t_assign t_rassign Hr Ht Hc mrel_onw : core.

Lemma m_draw_niw h : mrel I (draw_niw h) (draw_niw h). Proof. unfold draw_niw. mr. Qed.
Lemma m_km a y k : mrel I (kmeans_cluster_size_biased a y k) (kmeans_cluster_size_biased a y k). Proof. unfold kmeans_cluster_size_biased. mr. Qed.
Hint Resolve m_draw_niw m_km : core.
Lemma m_prior_atom : mrel I prior_atom prior_atom. Proof. unfold prior_atom. mr. Qed.
Hint Resolve m_prior_atom : core.
Lemma m_get_atom j : mrel I (get_atom j) (get_atom j). Proof. unfold get_atom. mr. Qed.
Lemma m_masked j : mrel I (masked j) (masked j). Proof. unfold masked. mr. Qed.
Hint Resolve m_get_atom m_masked : core.
Lemma m_update_atoms js : mrel I (update_atoms js) (update_atoms js). Proof. induction js; cbn [update_atoms]; mr. Qed.
Hint Resolve m_update_atoms : core.
Lemma m_update_all : mrel I update_all_atoms update_all_atoms. Proof. unfold update_all_atoms. mr. Qed.
Lemma m_tail : mrel I (tail_to_slice c1 fuel) (tail_to_slice c2 fuel). Proof. unfold tail_to_slice. mr. Qed.
Hint Resolve m_update_all m_tail : core.
Lemma m_update_weights : mrel I (update_weights c1 fuel) (update_weights c2 fuel). Proof. unfold update_weights. mr. Qed.
Lemma m_logpdf_rows js : mrel I (logpdf_rows E js) (logpdf_rows E js). Proof. induction js; cbn [logpdf_rows]; mr. Qed.
Lemma m_draw_labels l : mrel I (draw_labels l) (draw_labels l). Proof. induction l; cbn [draw_labels]; mr. Qed.
Hint Resolve m_update_weights m_logpdf_rows m_draw_labels : core.
Lemma m_update_d : mrel I (update_d E) (update_d E).
Proof. unfold update_d. apply mrel_get. intros x s Hi. proj. rewrite (Iw _ _ Hi). cbv zeta. mr. Qed.
Hint Resolve m_update_d : core.
Lemma m_gibbs_step : mrel I (gibbs_step E c1 fuel) (gibbs_step E c2 fuel). Proof. unfold gibbs_step. mr. Qed.
Lemma m_y_loglik js : forall acc, mrel I (y_loglik E js acc) (y_loglik E js acc). Proof. induction js; intros; cbn [y_loglik]; mr. Qed.
Hint Resolve m_gibbs_step m_y_loglik : core.
Lemma m_run_loglik : mrel I (run_loglik E c1) (run_loglik E c2). Proof. unfold run_loglik. mr. Qed.
Hint Resolve m_run_loglik : core.
Lemma mrel_upd_same f : (forall x s, I x (s_wm s) -> f (upd_wm x s) = upd_wm x (f s)) -> (forall s, s_wm (f s) = s_wm s) -> mrel I (upd f) (upd f).
Proof. intros H K o x s g Hi. simpl. rewrite (H x s Hi). repeat split. simpl. rewrite K. exact Hi. Qed.
Lemma grp x s : I x (s_wm s) -> get_run_params (upd_wm x s) = get_run_params s.
Proof. intros Hi. unfold get_run_params. proj. rewrite (Iw _ _ Hi). reflexivity. Qed.
Lemma m_update_map : mrel I (update_map E c1) (update_map E c2).
Proof.
  unfold update_map. apply mrel_bind; [auto|]. intros l. mr.
  - apply mrel_upd_same; [|reflexivity]. intros y t Hj. rewrite (grp _ _ Hj). reflexivity.
  - apply mrel_upd_same; [|reflexivity]. intros y t Hj. rewrite (grp _ _ Hj). reflexivity.
Qed.
Lemma m_save : mrel I save_params save_params.
Proof. unfold save_params. apply mrel_bind; [|intros _; mr]. apply mrel_upd_same; [|reflexivity]. intros y t Hj. rewrite (grp _ _ Hj). reflexivity. Qed.
Hint Resolve m_update_map m_save : core.
Lemma m_sweep : mrel I (sweep E c1 fuel) (sweep E c2 fuel). Proof. unfold sweep. mr. Qed.
Hint Resolve m_sweep : core.
Lemma m_burn n : mrel I (burn_loop E c1 fuel n) (burn_loop E c2 fuel n). Proof. induction n; cbn [burn_loop]; mr. Qed.
Lemma m_train n : forall i, mrel I (train_loop E c1 fuel n i) (train_loop E c2 fuel n i). Proof. induction n; intros; cbn [train_loop]; mr. Qed.
Hint Resolve m_burn m_train : core.
Lemma m_set_obs y : mrel I (set_obs y) (set_obs y). Proof. unfold set_obs. mr. Qed.
Hint Resolve m_set_obs : core.
Lemma m_init_common y : mrel I (init_common y) (init_common y). Proof. unfold init_common. mr. Qed.
Hint Resolve m_init_common : core.
Lemma m_init_gibbs ig meth : meth <> IVariational -> mrel I (init_gibbs E c1 fuel ig meth) (init_gibbs E c2 fuel ig meth).
Proof. intros N. unfold init_gibbs. cbv zeta. destruct meth; try congruence; mr. Qed.
Lemma m_fit_gibbs y ig warm meth : meth <> IVariational -> mrel I (fit_gibbs E c1 fuel y ig warm meth) (fit_gibbs E c2 fuel y ig warm meth).
Proof. intros N. pose proof (m_init_gibbs ig meth N). unfold fit_gibbs. mr. Qed.
Lemma m_run ops : Forall plain_gibbs ops -> forall o x s g, I x (s_wm s) ->
  let q1 := run_mops E c1 fuel ops o (upd_wm x s) g in let q2 := run_mops E c2 fuel ops o s g in
  snd q1 = snd q2 /\ fst q1 = upd_wm (s_wm (fst q1)) (fst q2) /\ I (s_wm (fst q1)) (s_wm (fst q2)).
Proof.
  induction 1 as [|op t Hop _ IH]; intros o x s g Hi; cbn [run_mops]; [simpl; auto|].
  destruct op as [y ig wm meth|]; [|contradiction]. cbn [exec_mop].
  pose proof (m_fit_gibbs y ig wm meth Hop o x s g Hi) as H.
  destruct (fit_gibbs E c1 fuel y ig wm meth o (upd_wm x s) g) as [[r1 t1] g1], (fit_gibbs E c2 fuel y ig wm meth o s g) as [[r2 t2] g2].
  destruct H as (_ & <- & H & K). rewrite H. apply IH. exact K.
Qed.
End T.
