(* Proofs about the reported lower bound (C66). *)
From Coq Require Import Reals Lra.
From Verif Require Import Prelude M_Ext M_Sample M_VarNum S_Var S_Sample S_VarNum P_Var P_Eppf P_Sample P_VarNum P_Density.
Open Scope R_scope.

Lemma rsum_swap {A B} (f : A -> B -> R) l m : rsum (map (fun a => rsum (map (fun b => f a b) m)) l) = rsum (map (fun b => rsum (map (fun a => f a b) l)) m).
Proof.
  induction l as [|a l IH]; simpl map.
  - symmetry. assert (G : forall z, rsum (map (fun _ : B => 0) z) = 0) by (induction z as [|b z IHz]; [reflexivity|]; cbn [map]; rewrite rsum_cons, IHz; lra). apply G.
  - rewrite rsum_cons, IH, <- rsum_map_plus. reflexivity.
Qed.
Lemma det_norm_pos k p : det_is_norm k p -> 0 < norm2 p.
Proof. intros (_ & D & E). destruct (norm2_nonneg p) as [H|H]; [exact H|]. rewrite <- H, sqrt_0 in E. lra. Qed.
Lemma elnw_value dg k a : det_is_norm k (ra_prec a) -> e_log_norm_wishart dg (ra_prec a) (ra_scale a) = EF (e_log_det dg k (factor_of a)).
Proof.
  intros H. rewrite elnw_finite by (eapply det_norm_pos; exact H). destruct H as ((L & _) & D & E). f_equal. unfold e_log_det. simpl. rewrite L, shift_seq. change (frob (ra_prec a)) with (sqrt (norm2 (ra_prec a))). rewrite E. lra.
Qed.
Lemma lwn_value lg k p nu : det_is_norm k p -> log_wishart_norm lg p nu = EF (log_B lg k p nu).
Proof.
  intros H. pose proof (det_norm_pos _ _ H) as N. apply frob_pos in N. destruct H as ((L & _) & D & E). unfold log_wishart_norm, ext_log. apply rltb_spec in N. rewrite N. simpl. f_equal. unfold log_B. rewrite L, shift_seq.
  change (frob p) with (sqrt (norm2 p)). rewrite E. lra.
Qed.
Lemma entropy_value dg lg k a : det_is_norm k (ra_prec a) -> entropy_wishart dg lg (ra_prec a) (ra_scale a) = EF (wishart_entropy dg lg k (factor_of a)).
Proof.
  intros H. unfold entropy_wishart. rewrite (lwn_value lg k _ _ H), (elnw_value dg k a H). simpl. f_equal. unfold wishart_entropy. destruct H as ((L & _) & _). simpl. rewrite L. lra.
Qed.
(* ---- weighted sums ---- *)
Definition wt (vd : list R) (y : list (list R)) (f : list R -> R) : R := rsum (map (fun p => fst p * f (snd p)) (combine vd y)).
Lemma wt_ext vd y f g : (forall x, f x = g x) -> wt vd y f = wt vd y g.
Proof. intros H. apply rsum_ext. intros p _. rewrite H. reflexivity. Qed.
Lemma wt_plus vd y f g : wt vd y (fun x => f x + g x) = wt vd y f + wt vd y g.
Proof. unfold wt. rewrite <- rsum_map_plus. apply rsum_ext. intros p _. lra. Qed.
Lemma wt_scale vd y c f : wt vd y (fun x => c * f x) = c * wt vd y f.
Proof. unfold wt. rewrite <- rsum_map_scale. apply rsum_ext. intros p _. lra. Qed.
Lemma wt_const vd y c : length vd = length y -> wt vd y (fun _ => c) = c * rsum vd.
Proof.
  unfold wt. revert y. induction vd as [|r vd IH]; intros [|x y] H; try discriminate H; [simpl; lra|]. cbn [combine map fst]. rewrite !rsum_cons, IH by (simpl in H; lia). lra.
Qed.
Lemma wt_sum {A} vd y (f : A -> list R -> R) l : wt vd y (fun x => rsum (map (fun i => f i x) l)) = rsum (map (fun i => wt vd y (f i)) l).
Proof.
  unfold wt. rewrite <- rsum_swap. apply rsum_ext. intros p _. rewrite <- rsum_map_scale. reflexivity.
Qed.
Lemma wsum_div vd y f : wsum (map (fun r => r / rsum vd) vd) f y = / rsum vd * wt vd y f.
Proof.
  unfold wsum, wt. generalize (rsum vd). intros n. rewrite <- rsum_map_scale. revert y. induction vd as [|r vd IH]; intros [|x y]; try reflexivity. cbn [map combine fst snd]. rewrite !rsum_cons, IH. unfold Rdiv. lra.
Qed.
Lemma s_mat_value vd y mu i j : length vd = length y -> rsum vd <> 0 ->
  s_mat vd y i j + (xbar vd y i - nth i mu 0) * (xbar vd y j - nth j mu 0) = / rsum vd * wt vd y (fun x => (nth i x 0 - nth i mu 0) * (nth j x 0 - nth j mu 0)).
Proof.
  intros L N. unfold s_mat. rewrite wsum_div. 
  assert (X : forall i, wt vd y (fun x => nth i x 0) = rsum vd * xbar vd y i) by (intros i0; unfold xbar; rewrite wsum_div; field; exact N).
  assert (G : forall a b, wt vd y (fun x => (nth i x 0 - a) * (nth j x 0 - b)) = wt vd y (fun x => nth i x 0 * nth j x 0) - b * (rsum vd * xbar vd y i) - a * (rsum vd * xbar vd y j) + a * b * rsum vd).
  { intros a b. rewrite (wt_ext vd y _ (fun x => nth i x 0 * nth j x 0 + ((- b) * nth i x 0 + ((- a) * nth j x 0 + a * b)))) by (intros; lra). rewrite !wt_plus, !wt_scale, wt_const by exact L. rewrite !X. lra. }
  rewrite !G. field. exact N.
Qed.
Lemma trace_quad vd y mu p k : length vd = length y -> rsum vd <> 0 -> length p = k ->
  trace_prod k (s_mat vd y) p + qform p (fun i => xbar vd y i - nth i mu 0) = / rsum vd * wt vd y (fun x => mahalanobis k p x mu).
Proof.
  intros L N Lp. unfold trace_prod, qform, mahalanobis. rewrite Lp.
  rewrite (rsum_swap (fun i j => s_mat vd y i j * mentry p j i)).
  rewrite wt_sum. rewrite <- rsum_map_scale, <- rsum_map_plus. apply rsum_ext. intros i _. rewrite wt_sum, <- rsum_map_scale, <- rsum_map_plus. apply rsum_ext. intros j _.
  rewrite (wt_ext vd y _ (fun x => nth j (nth i p []) 0 * ((nth i x 0 - nth i mu 0) * (nth j x 0 - nth j mu 0)))) by (intros; lra). rewrite wt_scale.
  assert (Sy : s_mat vd y j i = s_mat vd y i j). { unfold s_mat. rewrite !wsum_div. f_equal. apply wt_ext. intros; lra. }
  rewrite Sy. pose proof (s_mat_value vd y mu i j L N) as V. unfold mentry. set (q := nth j (nth i p []) 0) in *.
  replace (/ rsum vd * (q * wt vd y (fun x => (nth i x 0 - nth i mu 0) * (nth j x 0 - nth j mu 0)))) with (q * (/ rsum vd * wt vd y (fun x => (nth i x 0 - nth i mu 0) * (nth j x 0 - nth j mu 0)))) by lra. rewrite <- V. lra.
Qed.
Lemma px_term_value dg d y vd a : length vd = length y -> rsum vd <> 0 -> det_is_norm d (ra_prec a) ->
  px_term dg d y (vd, a) = EF (2 * (/ rsum vd * group_term dg d y (vd, factor_of a)) + INR d * ln (2 * PI)).
Proof.
  intros L N H. unfold px_term. rewrite (elnw_value dg d a H). simpl. f_equal. destruct H as ((Lp & _) & _). pose proof (trace_quad vd y (ra_mu a) (ra_prec a) d L N Lp) as T.
  unfold group_term. cbn [fst snd]. change (rsum (map (fun p => fst p * e_log_normal dg d (factor_of a) (snd p)) (combine vd y))) with (wt vd y (e_log_normal dg d (factor_of a))).
  assert (G : wt vd y (e_log_normal dg d (factor_of a)) = (e_log_det dg d (factor_of a) - INR d / ra_lam a - INR d * ln (2 * PI)) / 2 * rsum vd - ra_scale a / 2 * wt vd y (fun x => mahalanobis d (ra_prec a) x (ra_mu a))).
  { rewrite (wt_ext vd y _ (fun x => (e_log_det dg d (factor_of a) - INR d / ra_lam a - INR d * ln (2 * PI)) / 2 + (- (ra_scale a / 2)) * mahalanobis d (ra_prec a) x (ra_mu a))) by (intros x; unfold e_log_normal; simpl; lra).
    rewrite wt_plus, wt_const, wt_scale by exact L. lra. }
  rewrite G. rewrite Rmult_minus_distr_l, <- (Rmult_assoc (/ rsum vd)), (Rmult_comm (/ rsum vd)), Rmult_assoc, Rinv_l, Rmult_1_r by exact N.
  replace (/ rsum vd * (ra_scale a / 2 * wt vd y (fun x => mahalanobis d (ra_prec a) x (ra_mu a)))) with (ra_scale a / 2 * (/ rsum vd * wt vd y (fun x => mahalanobis d (ra_prec a) x (ra_mu a)))) by lra.
  rewrite <- T. lra.
Qed.
Lemma c66_data_term_proof : forall dg d y D theta, state_ok d y D theta ->
  e_q_log_p_x dg d y D theta (length theta) = EF (rsum (map (fun rf => group_term dg d y rf / rsum (fst rf)) (combine D (map factor_of theta)))).
Proof.
  intros dg d y D theta (L & FD & FT). unfold e_q_log_p_x.
  assert (G : ext_sum (map (px_term dg d y) (combine D theta)) = EF (2 * rsum (map (fun rf => group_term dg d y rf / rsum (fst rf)) (combine D (map factor_of theta))) + INR (length theta) * (INR d * ln (2 * PI)))).
  { revert theta L FT. induction FD as [|vd D [Lv N] FD IH]; intros [|a theta] L FT; try discriminate L; [simpl; f_equal; lra|]. inversion FT as [|? ? Ha FT']; subst. cbn [combine map]. unfold ext_sum in *. cbn [fold_right].
    rewrite IH by (simpl in L; auto; lia). rewrite (px_term_value dg d y vd a Lv N Ha). cbn [ext_add]. f_equal. rewrite rsum_cons. change (length (a :: theta)) with (S (length theta)). rewrite S_INR. cbn [fst]. unfold Rdiv. lra. }
  rewrite G. simpl. f_equal. lra.
Qed.
Lemma c66_single_group_proof : forall dg d y a n, y <> [] -> det_is_norm d (ra_prec a) -> n = length y ->
  exists e, e_q_log_p_x dg d y [repeat 1 n] [a] 1 = EF e /\ true_px dg d y [repeat 1 n] [factor_of a] = INR n * e.
Proof.
  intros dg d y a n NE H ->. assert (Sm : rsum (repeat 1 (length y)) = INR (length y)).
  { generalize (length y). induction n as [|n IH]; [reflexivity|]. simpl repeat. rewrite rsum_cons, IH, S_INR. lra. }
  assert (K : 1 <= INR (length y)) by (apply (le_INR 1); destruct y; [congruence|simpl; lia]).
  eexists. split; [apply (c66_data_term_proof dg d y [repeat 1 (length y)] [a])|].
  - split; [reflexivity|]. split; [constructor; [split; [apply repeat_length|rewrite Sm; lra]|constructor]|repeat constructor; apply H].
  - unfold true_px. cbn [combine map fst]. rewrite !rsum_cons. cbn [fst]. rewrite Sm. simpl rsum. field. lra.
Qed.
Lemma c66_prior_term_proof : forall dg lg d theta h, Forall (fun a => det_is_norm d (ra_prec a)) theta -> det_is_norm d (rp_inv h) ->
  e_log_p_theta dg lg d h theta (length theta) = EF (true_ptheta dg lg d (rp_mu h) (rp_lam h) (rp_psi h) (rp_inv h) (rp_nu h) (map factor_of theta)).
Proof.
  intros dg lg d theta h F H. unfold e_log_p_theta. rewrite (lwn_value lg d _ _ H).
  assert (G : exists S, ext_sum (map (ptheta_term dg d h) theta) = EF S /\ true_ptheta dg lg d (rp_mu h) (rp_lam h) (rp_psi h) (rp_inv h) (rp_nu h) (map factor_of theta) = S / 2 + INR (length theta) * (INR d * ln (rp_lam h / (2 * PI)) / 2 + log_B lg d (rp_inv h) (rp_nu h))).
  { induction F as [|a theta Ha F IH]; [exists 0; split; [reflexivity|unfold true_ptheta; simpl; lra]|]. destruct IH as (S0 & E & T). eexists. split.
    - unfold ext_sum in *. cbn [map fold_right]. rewrite E. unfold ptheta_term. rewrite (elnw_value dg d a Ha). simpl. reflexivity.
    - unfold true_ptheta in *. cbn [map]. rewrite rsum_cons, T. change (length (a :: theta)) with (S (length theta)). rewrite S_INR. simpl f_lam. simpl f_nu. simpl f_W. simpl f_mean.
      destruct Ha as ((Lp & _) & _). change (qform (ra_prec a) (fun i => nth i (ra_mu a) 0 - nth i (rp_mu h) 0)) with (qform (ra_prec a) (dev (ra_mu a) (rp_mu h))). rewrite (qform_mahal _ _ _ d Lp). unfold trace_prod, mentry. lra. }
  destruct G as (S0 & E & T). rewrite E, T. simpl. f_equal. lra.
Qed.
Lemma c66_atom_entropy_proof : forall dg lg d theta, Forall (fun a => det_is_norm d (ra_prec a)) theta ->
  e_log_q_theta dg lg d theta (length theta) = EF (true_qtheta dg lg d (map factor_of theta) + rsum (map (fun a => INR d + wishart_entropy dg lg d (factor_of a) / 2) theta)).
Proof.
  intros dg lg d theta F. unfold e_log_q_theta.
  assert (G : exists S, ext_sum (map (qtheta_term dg lg d) theta) = EF S /\ true_qtheta dg lg d (map factor_of theta) + rsum (map (fun a => INR d + wishart_entropy dg lg d (factor_of a) / 2) theta) = S / 2 + INR (length theta) * (INR d / 2)).
  { induction F as [|a theta Ha F IH]; [exists 0; split; [reflexivity|unfold true_qtheta; simpl; lra]|]. destruct IH as (S0 & E & T). eexists. split.
    - unfold ext_sum in *. cbn [map fold_right]. rewrite E. unfold qtheta_term. rewrite (elnw_value dg d a Ha), (entropy_value dg lg d a Ha). simpl. reflexivity.
    - unfold true_qtheta in *. cbn [map]. rewrite !rsum_cons. change (length (a :: theta)) with (S (length theta)). rewrite S_INR. simpl f_lam. lra. }
  destruct G as (S0 & E & T). rewrite E, T. simpl. f_equal. lra.
Qed.
Lemma c66_gap_proof : forall dg lg d y D theta h pz pw qw, state_ok d y D theta -> det_is_norm d (rp_inv h) ->
  exists e, calc_elbo dg lg d y D theta (length theta) h (EF pz) (EF pw) (EF qw) = EF e /\
  e - true_elbo dg lg d y D (map factor_of theta) (rp_mu h) (rp_lam h) (rp_psi h) (rp_inv h) (rp_nu h) pz pw qw
  = rsum (map (fun rf => group_term dg d y rf * (/ rsum (fst rf) - 1)) (combine D (map factor_of theta)))
    + (qw - pw) - rsum (map (fun a => INR d + wishart_entropy dg lg d (factor_of a) / 2) theta).
Proof.
  intros dg lg d y D theta h pz pw qw Ok H. pose proof (c66_data_term_proof dg d y D theta Ok) as E1. destruct Ok as (_ & _ & FT). pose proof (c66_prior_term_proof dg lg d theta h FT H) as E2. pose proof (c66_atom_entropy_proof dg lg d theta FT) as E3.
  unfold calc_elbo, e_log_q_d, e_loq_q_w. rewrite E1, E2, E3. cbn [ext_add ext_opp]. eexists. split; [reflexivity|]. unfold true_elbo, true_qz.
  assert (G : rsum (map (fun rf => group_term dg d y rf * (/ rsum (fst rf) - 1)) (combine D (map factor_of theta))) = rsum (map (fun rf => group_term dg d y rf / rsum (fst rf)) (combine D (map factor_of theta))) - true_px dg d y D (map factor_of theta)).
  { unfold true_px. rewrite (rsum_ext _ (fun rf => group_term dg d y rf / rsum (fst rf) + (-1) * group_term dg d y rf)) by (intros; unfold Rdiv; lra). rewrite rsum_map_plus, rsum_map_scale. lra. }
  rewrite G. lra.
Qed.
Lemma c66_weights_ignored_proof : forall dg lg d y D theta k h pz pw pw' qw qw',
  calc_elbo dg lg d y D theta k h pz (EF pw) qw = calc_elbo dg lg d y D theta k h pz (EF pw') qw'.
Proof.
  intros. unfold calc_elbo, e_loq_q_w. generalize (e_q_log_p_x dg d y D theta k) (e_log_p_theta dg lg d h theta k) (e_log_q_theta dg lg d theta k). intros a b c. unfold e_log_q_d.
  destruct a, pz, b, c; simpl; try reflexivity; f_equal; lra.
Qed.
Lemma c66_infinite_prior_proof : forall dg lg d y D theta k h pz pw qw, pw = EPI \/ pw = ENI \/ pw = ENaN -> calc_elbo dg lg d y D theta k h pz pw qw = ENaN.
Proof.
  intros dg lg d y D theta k h pz pw qw H. unfold calc_elbo, e_loq_q_w, e_log_q_d. generalize (e_q_log_p_x dg d y D theta k) (e_log_p_theta dg lg d h theta k) (e_log_q_theta dg lg d theta k). intros a b c.
  destruct H as [->|[->| ->]]; destruct a, pz, b, c; reflexivity.
Qed.
