(* Fits that finish (C94): the fit around the weight model. *)
From Coq Require Import Lqa.
From Verif Require Import Prelude Numpy Rng M_Weights M_Niw M_Utils M_Mix S_Weights S_Hist S_Oracle S_Finish P_Lists P_Hoare P_Wp P_Inv P_Complete P_Random P_Tail P_Sticks P_Geom P_Grow P_Fixed P_Mix P_MixOk P_Finish.
Open Scope Q_scope.
Open Scope m_scope.

(* a call that returns or raises and does not touch the weight model *)
Definition calm {A} (m : M ms A) : Prop :=
  forall o s g, fst (fst (m o s g)) <> Diverge /\ s_wm (snd (fst (m o s g))) = s_wm s.
Lemma calm_ret {A} (a : A) : calm (ret a). Proof. intros o s g; split; [discriminate|reflexivity]. Qed.
Lemma calm_raise {A} e : calm (raise (A := A) e). Proof. intros o s g; split; [discriminate|reflexivity]. Qed.
Lemma calm_get : calm get. Proof. intros o s g; split; [discriminate|reflexivity]. Qed.
Lemma calm_upd f : (forall s, s_wm (f s) = s_wm s) -> calm (upd f).
Proof. intros H o s g; split; [discriminate|apply H]. Qed.
Lemma calm_bind {A B} (m : M ms A) (k : A -> M ms B) : calm m -> (forall a, calm (k a)) -> calm (bind m k).
Proof.
  intros Hm Hk o s g. unfold bind. specialize (Hm o s g). destruct (m o s g) as [[[a|e|] s1] g1]; simpl in *.
  - destruct (Hk a o s1 g1) as [H1 H2]. split; [exact H1|]. rewrite H2. apply Hm.
  - split; [discriminate|apply Hm].
  - destruct Hm as [[] _]; reflexivity.
Qed.
Lemma calm_of_res {A} (r : res A) : r <> Diverge -> calm (of_res r).
Proof. intros H o s g; split; [exact H|reflexivity]. Qed.
Lemma calm_unif l : calm (unif_many l). Proof. intros o s g; unfold unif_many; destruct (unif_draws o l g); split; [discriminate|reflexivity]. Qed.
Lemma calm_gumbel l : calm (gumbel1 l). Proof. intros o s g; split; [discriminate|reflexivity]. Qed.
Lemma calm_invw a b : calm (invw1 a b).
Proof. intros o s g; unfold invw1; simpl. destruct (o_invw _ _ _ _); split; try discriminate; reflexivity. Qed.
Lemma calm_mvn a b : calm (mvn1 a b).
Proof. intros o s g; unfold mvn1; simpl. destruct (o_mvn _ _ _ _); split; try discriminate; reflexivity. Qed.
Lemma calm_kmeans a b : calm (kmeans1 a b).
Proof. intros o s g; unfold kmeans1. destruct (_ || _); split; try discriminate; reflexivity. Qed.

Ltac calmly :=
  lazymatch goal with
  | |- calm (bind _ _) => apply calm_bind; [calmly|intros ?; calmly]
  | |- calm (ret _) => apply calm_ret
  | |- calm (raise _) => apply calm_raise
  | |- calm get => apply calm_get
  | |- calm (upd _) => apply calm_upd; intros ?; try reflexivity
  | |- calm (of_res _) => apply calm_of_res; auto
  | |- calm (unif_many _) => apply calm_unif
  | |- calm (gumbel1 _) => apply calm_gumbel
  | |- calm (invw1 _ _) => apply calm_invw
  | |- calm (mvn1 _ _) => apply calm_mvn
  | |- calm (kmeans1 _ _) => apply calm_kmeans
  | |- calm (if ?b then _ else _) => destruct b; calmly
  | |- calm (match ?b with _ => _ end) => destruct b; calmly
  | |- _ => auto
  end.

Lemma calm_prior_niw s : prior_niw s <> Diverge.
Proof. unfold prior_niw. destruct (s_mu s), (s_psi s), (s_nu s); discriminate. Qed.
Lemma calm_post_call y h : niw_post_call y h <> Diverge.
Proof. unfold niw_post_call. destruct (negb _); [discriminate|]. destruct (Qeq_bool _ _); discriminate. Qed.
Lemma calm_draw h : calm (draw_niw h). Proof. unfold draw_niw. calmly. Qed.
Lemma calm_km a y k : calm (kmeans_cluster_size_biased a y k). Proof. unfold kmeans_cluster_size_biased. calmly. Qed.
#[export] Hint Resolve calm_prior_niw calm_post_call calm_draw calm_km : core.
Lemma calm_prior_atom : calm prior_atom. Proof. unfold prior_atom. calmly. Qed.
#[export] Hint Resolve calm_prior_atom : core.
Lemma calm_masked j : calm (masked j). Proof. unfold masked. calmly. Qed.
Lemma calm_get_atom j : calm (get_atom j). Proof. unfold get_atom. calmly. Qed.
#[export] Hint Resolve calm_masked calm_get_atom : core.
Lemma calm_update_atoms js : calm (update_atoms js). Proof. induction js; simpl; calmly. Qed.
Lemma calm_set_obs y : calm (set_obs y). Proof. unfold set_obs. calmly. Qed.
#[export] Hint Resolve calm_update_atoms calm_set_obs : core.
Lemma calm_init_common y : calm (init_common y). Proof. unfold init_common. calmly. Qed.
Lemma calm_save : calm save_params. Proof. unfold save_params. calmly. Qed.
Lemma calm_draw_labels l : calm (draw_labels l). Proof. induction l; simpl; calmly. Qed.
#[export] Hint Resolve calm_init_common calm_save calm_draw_labels : core.

Lemma qmin_ge e l : l <> [] -> Forall (fun x => e <= x) l -> e <= qmin l.
Proof.
  intros Hn H. destruct l as [|x t]; [congruence|]. inversion H; subst. simpl. clear Hn H. revert x H2. 
  induction H3 as [|y t Hy Ht IH]; intros x Hx; simpl; [exact Hx|]. apply IH. destruct (qltb y x); assumption.
Qed.
Lemma draws_ge_eps o ab : valid_oracle o -> Forall (fun x => 0 <= snd x - fst x /\ eps <= fst x) ab ->
  forall g, Forall (fun x => eps <= x) (fst (unif_draws o ab g)).
Proof.
  intros V H. induction H as [|[a b] t [H1 H2] Ht IH]; intros g; cbn [unif_draws fst].
  - constructor.
  - cbn [fst snd] in *. destruct (unif_draws o t (g ++ [runif a b])) as [r g1] eqn:U. cbn [fst].
    constructor; [|specialize (IH (g ++ [runif a b])); rewrite U in IH; exact IH].
    pose proof (Qred_correct a) as Ra. pose proof (Qred_correct b) as Rb.
    destruct (Qlt_le_dec a b) as [L|L].
    + assert (L' : Qred a < Qred b) by (rewrite !Qred_correct; exact L). pose proof (vo_unif o V g _ _ L') as [K _]. lra.
    + assert (L' : Qred a == Qred b) by (rewrite !Qred_correct; lra). rewrite (vo_unif_eq o V g _ _ L'). lra.
Qed.

Lemma random_returns c : forall o s g, wp o (wm_random c SNone) (fun r s' _ => forall a, r = Ok a -> a = w s') s g.
Proof.
  intros o s g. destruct (growing c) eqn:G.
  - eapply wp_mono; [apply wm_random_wp; [exact G|exact I]|]. intros [a|e|] s' g' K x; try discriminate. intros [= <-]. apply K.
  - destruct c; try discriminate G; simpl wm_random; unfold dd_random, eq_random, freq_random, repeat_inv; wsteps; intros y X; try discriminate X; injection X as <-; reflexivity.
Qed.

Section Fit.
Variables (E : env) (c : cls) (fuel : nat) (o : oracle).
Hypothesis Ht : env_returns E.
Hypothesis V : valid_oracle o.
(* IW holds of the weight model between calls; IE after an exception *)
Variables IW IE : ws -> Prop.
Hypothesis Iweak : forall s, IW s -> IE s.
Definition fine {A} : post ws A := fun r s' _ => match r with Ok _ => IW s' | Err _ => IE s' | Diverge => False end.
Hypothesis Hrand : forall s g, IW s -> wp o (wm_random c SNone) fine s g.
Hypothesis Hpos : forall s, IW s -> Forall (fun x => 0 <= x) (w s).
Hypothesis Hcomp : forall z s g, IW s -> wp o (wm_complete c z) fine s g.
Hypothesis Htail : forall x s g, IW s -> x <= 1 - eps -> wp o (wm_tail c fuel x) fine s g.
Hypothesis Hd : forall dd s, IW s -> IW (set_d dd s).
Hypothesis Hn : forall n s, IW s -> IW (set_wn n s).

Definition ends {A} (m : M ms A) : Prop := forall s g, IW (s_wm s) ->
  wp o m (fun r s' _ => match r with Ok _ => IW (s_wm s') | Err _ => IE (s_wm s') | Diverge => False end) s g.
Lemma ends_calm {A} (m : M ms A) : calm m -> ends m.
Proof.
  intros C s g H. unfold wp. specialize (C o s g). destruct (m o s g) as [[r s1] g1]; simpl in C. destruct C as [C1 C2]. rewrite C2.
  destruct r; auto.
Qed.
Lemma ends_bind {A B} (m : M ms A) (k : A -> M ms B) : ends m -> (forall a, ends (k a)) -> ends (bind m k).
Proof. intros Hm Hk s g H. eapply wp_call; [apply Hm; exact H| | |]; [intros; apply Hk; assumption|auto|auto]. Qed.
Lemma ends_onw {A} (m : M ws A) : (forall s g, IW s -> wp o m fine s g) -> ends (onw m).
Proof. intros H s g Hs. apply wp_onw. eapply wp_mono; [apply H; exact Hs|]. intros [a|e|] s' g'; simpl; auto. Qed.

Lemma fine_keep {A} (m : M ws A) : (forall s g, fst (fst (m o s g)) <> Diverge /\ snd (fst (m o s g)) = s) ->
  forall s g, IW s -> wp o m fine s g.
Proof.
  intros K s g H. unfold wp. specialize (K s g). destruct (m o s g) as [[r s1] g1]; simpl in K. destruct K as [K ->].
  destruct r; simpl; auto.
Qed.
Lemma ends_assign dd : ends (onw (wm_assign_weights c dd)).
Proof.
  apply ends_onw. intros s g H. unfold wm_assign_weights. wstep. wstep; [wstep; apply Iweak; exact H|].
  eapply wp_call; [apply Hcomp; exact H| | |]; [|auto|auto]. intros a s' g' K. cbv beta in K. wsteps; simpl in *; auto.
Qed.
Lemma ends_rassign z : ends (onw (wm_random_assignment z)).
Proof.
  apply ends_onw. apply fine_keep. intros s g. unfold wm_random_assignment, unif1, unif_many, bind, raise, get, ret.
  destruct z; simpl; try (destruct (_ <? _)%Z; simpl); try (split; [discriminate|reflexivity]);
  destruct (unif_draws _ _ _); simpl; split; try discriminate; reflexivity.
Qed.
Lemma ends_fit_var k : ends (onw (wm_fit_var c k)).
Proof.
  apply ends_onw. intros s g H. unfold wm_fit_var. destruct c; wsteps; simpl; auto.
Qed.
Lemma slice_tail l s g : IW (s_wm s) -> Forall (fun x => 0 <= snd x - fst x /\ eps <= fst x) l ->
  wp o (u <- unif_many l ;; upd (upd_u u) ;; tail_to_slice c fuel)
    (fun r s' _ => match r with Ok _ => IW (s_wm s') | Err _ => IE (s_wm s') | Diverge => False end) s g.
Proof.
  intros H Hl. wstep. wstep. unfold tail_to_slice. wstep.
  destruct (is_nil (s_u _)) eqn:N; [wstep; simpl; auto|].
  apply wp_bind. apply wp_onw. eapply wp_mono; [apply Htail; [exact H|]|].
  - simpl in *. apply nonnil in N. pose proof (qmin_ge eps _ N (draws_ge_eps o _ V Hl g)). lra.
  - intros [a|e|] s' g' K; simpl in *; auto.
Qed.
Lemma ends_update_weights : ends (update_weights c fuel).
Proof.
  intros s g H. unfold update_weights. wstep. apply wp_bind. apply wp_onw. unfold wm_fit. wstep.
  apply wp_bind. apply wp_onw. cbn [s_wm upd_wm].
  pose proof (Hrand _ g (Hd (labels_of s) _ H)) as R1. pose proof (random_returns c o (set_d (labels_of s) (s_wm s)) g) as R2.
  unfold wp in R1, R2 |- *. destruct (wm_random c SNone o (set_d (labels_of s) (s_wm s)) g) as [[[a|e|] s1] g1]; simpl in R1; auto.
  specialize (R2 a eq_refl). subst a. pose proof (Hpos s1 R1) as Hp.
  destruct (s_d s) as [dl|]; [|apply Iweak; exact R1].
  destruct (gather (w s1) dl) as [wd|] eqn:G; [|apply Iweak; exact R1].
  apply slice_tail; [exact R1|]. assert (G2 : Forall (fun x => 0 <= x) wd) by (eapply Forall_gather; eassumption). clear G. rewrite Forall_map. eapply Forall_impl; [|exact G2].
  intros q Hq. cbn [fst snd]. split; [|apply Qle_refl]. setoid_replace (q + eps - eps) with q by ring. exact Hq.
Qed.
Lemma ends_logpdf js : ends (logpdf_rows E js).
Proof. apply ends_calm. induction js; simpl; calmly. apply Ht. Qed.
Lemma ends_update_d : ends (update_d E).
Proof. apply ends_bind; [apply ends_calm; calmly|intros s]. cbv zeta. apply ends_bind; [apply ends_logpdf|intros ll]. apply ends_calm. calmly. Qed.
Lemma ends_step : ends (gibbs_step E c fuel).
Proof.
  apply ends_bind; [apply ends_calm; unfold update_all_atoms; calmly|intros _]. apply ends_bind; [apply ends_update_weights|intros _; apply ends_update_d].
Qed.
Lemma calm_yll js : forall acc, calm (y_loglik E js acc).
Proof. induction js; intros acc; simpl; calmly. apply Ht. Qed.
Lemma ends_map : ends (update_map E c).
Proof.
  unfold update_map. apply ends_bind.
  - unfold run_loglik. apply ends_bind; [apply ends_calm; calmly|intros s]. apply ends_bind; [apply ends_calm, calm_yll|intros a].
    apply ends_bind; [apply ends_assign|intros xs; apply ends_calm; calmly].
  - intros l. apply ends_calm. calmly.
Qed.
Lemma ends_sweep : ends (sweep E c fuel).
Proof. apply ends_bind; [apply ends_step|intros _; apply ends_map]. Qed.
Lemma ends_burn n : ends (burn_loop E c fuel n).
Proof. induction n; simpl; [apply ends_calm; calmly|]. apply ends_bind; [apply ends_sweep|intros _; exact IHn]. Qed.
Lemma ends_train n : forall i, ends (train_loop E c fuel n i).
Proof.
  induction n; intros i; simpl; [apply ends_calm; calmly|]. apply ends_bind; [apply ends_sweep|intros _].
  apply ends_bind; [apply ends_calm; calmly|intros s]. apply ends_bind; [apply ends_calm; calmly|intros _; apply IHn].
Qed.
Lemma ends_fvw k D : ends (fit_var_weights c k D).
Proof. apply ends_bind; [apply ends_fit_var|intros _; apply ends_calm; calmly]. Qed.
Lemma calm_uvd : calm (update_var_d E c). Proof. unfold update_var_d. calmly. apply Ht. Qed.
Lemma calm_uvt : calm (update_var_theta E). Proof. unfold update_var_theta. calmly. apply Ht. Qed.
Lemma ends_max : ends (maximize_variational E c).
Proof.
  unfold maximize_variational. apply ends_bind; [apply ends_calm, calm_uvd|intros _]. apply ends_bind; [apply ends_calm; calmly|intros s].
  apply ends_bind; [apply ends_fvw|intros _; apply ends_calm, calm_uvt].
Qed.
Lemma ends_loop tol n : forall e d i, ends (var_loop E c tol n e d i).
Proof.
  induction n; intros e d i; cbn [var_loop]; destruct (lx_ltb (LQ tol) d); try (apply ends_calm; calmly; fail).
  apply ends_bind; [apply ends_max|intros _]. apply ends_bind; [apply ends_calm; calmly|intros s]. apply ends_bind; [apply ends_calm; calmly|intros h].
  apply ends_bind; [apply ends_calm; calmly; apply Ht|intros x]. apply IHn.
Qed.
Lemma calm_pva n : calm (prior_vatoms E n).
Proof. induction n; simpl; calmly. apply Ht. Qed.
Lemma ends_initv k b meth : ends (init_variational E c k b meth).
Proof.
  unfold init_variational. apply ends_bind; [apply ends_calm; calmly|intros _]. apply ends_bind; [|intros _; apply ends_bind; [apply ends_calm; calmly|intros s; apply ends_fvw]].
  destruct meth; try (apply ends_calm; calmly; apply calm_pva).
  apply ends_bind; [apply ends_calm; calmly|intros s]. apply ends_bind; [apply ends_calm; calmly|intros _]. apply ends_bind; [apply ends_calm; calmly|intros l].
  apply ends_bind; [apply ends_calm; calmly|intros _]. apply ends_bind; [apply ends_fvw|intros _]. apply ends_bind; [apply ends_calm, calm_uvt|intros _; apply ends_calm, calm_uvd].
Qed.
Lemma ends_variational y k warm tol meth : ends (fit_variational E c y k warm tol meth).
Proof.
  unfold fit_variational. apply ends_bind; [apply ends_calm; calmly|intros _]. apply ends_bind.
  - destruct warm; [apply ends_calm; calmly|]. apply ends_bind; [apply ends_calm; calmly|intros s].
    destruct k; [destruct (s_n s)| | |]; try (apply ends_initv); apply ends_calm; calmly.
  - intros _. apply ends_bind; [apply ends_calm; calmly|intros s]. apply ends_bind; [apply ends_loop|intros i]. apply ends_calm; calmly.
Qed.
Lemma ends_init ig meth : ends (init_gibbs E c fuel ig meth).
Proof.
  unfold init_gibbs. do 4 (apply ends_bind; [apply ends_calm; calmly|intros ?]). cbv zeta.
  apply ends_bind; [apply ends_calm; calmly|intros _].
  assert (K : forall l (m : M ms unit), ends m -> Forall (fun x => 0 <= snd x - fst x /\ eps <= fst x) l ->
     ends (u <- unif_many l ;; upd (upd_u u) ;; (if is_snone ig then tail_to_slice c fuel else onw (wm_complete c ig) ;; ret tt) ;; m)).
  { intros l m Hm Hl. destruct (is_snone ig).
    - intros s g Hs. pose proof (slice_tail l s g Hs Hl) as T. unfold wp, bind in T |- *.
      destruct (unif_many l o s g) as [[[u|e|] s1] g1]; auto. destruct (upd (upd_u u) o s1 g1) as [[[[]|e|] s2] g2]; auto.
      destruct (tail_to_slice c fuel o s2 g2) as [[[[]|e|] s3] g3]; auto. exact (Hm s3 g3 T).
    - do 2 (apply ends_bind; [apply ends_calm; calmly|intros ?]). apply ends_bind; [|intros _; exact Hm].
      apply ends_bind; [apply ends_onw, Hcomp|intros _; apply ends_calm; calmly]. }
  apply K.
  - destruct meth.
    + apply ends_calm; calmly.
    + apply ends_bind; [apply ends_rassign|intros l; apply ends_calm; calmly].
    + apply ends_bind; [apply ends_calm; calmly|intros s]. apply ends_bind; [apply ends_variational|intros _; apply ends_calm; calmly].
    + apply ends_calm; calmly.
  - apply Forall_forall. intros x Hx. apply repeat_spec in Hx. subst x. cbn [fst snd]. split; [|apply Qle_refl]. discriminate.
Qed.
Lemma ends_gibbs y ig warm meth : ends (fit_gibbs E c fuel y ig warm meth).
Proof.
  unfold fit_gibbs. apply ends_bind; [apply ends_calm; calmly|intros _]. apply ends_bind.
  - destruct warm; [apply ends_calm; calmly|]. apply ends_bind; [apply ends_init|intros _; apply ends_map].
  - intros _. apply ends_bind; [apply ends_calm; calmly|intros s]. apply ends_bind; [apply ends_burn|intros _]. apply ends_bind; [apply ends_train|intros _; apply ends_calm; calmly].
Qed.
Lemma ends_mop op : ends (exec_mop E c fuel op).
Proof. destruct op; simpl; [apply ends_gibbs|apply ends_variational]. Qed.
End Fit.
