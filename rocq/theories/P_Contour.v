(* The dashed lines of pair plots (C73). *)
From Coq Require Import Reals Lra Psatz.
From Verif Require Import Prelude M_Contour S_Contour.
Open Scope R_scope.

Lemma bk_bounds : 0 < bk_alpha < 1.
Proof.
  unfold bk_alpha. assert (0 <= sqrt 17) by apply sqrt_pos. assert (sqrt 17 < 5); [|lra].
  rewrite <- (sqrt_square 5) by lra. apply sqrt_lt_1; lra.
Qed.
Lemma ldl_cases a b c : pos_def2 a b c ->
  (bk_alpha * Rabs b <= a /\ ldl a b c = Some (LDL 1 0 (b / a) 1 a (c - b * (b / a)))) \/
  (a < bk_alpha * Rabs b /\ ldl a b c = Some (LDL (b / c) 1 1 0 c (a - b * (b / c)))).
Proof.
  intros (A & C & D). unfold ldl. rewrite (Rabs_pos_eq a), (Rabs_pos_eq c) by lra. destruct (Rle_dec (bk_alpha * Rabs b) a) as [H|H]; [left; auto|right].
  apply Rnot_le_lt in H. split; [exact H|]. destruct (Rle_dec (bk_alpha * Rabs b) c) as [H'|H']; [reflexivity|exfalso]. apply Rnot_le_lt in H'.
  pose proof bk_bounds. assert (E : b * b = Rabs b * Rabs b) by (rewrite <- Rabs_mult; symmetry; apply Rabs_pos_eq; nra). pose proof (Rabs_pos b) as P. set (z := Rabs b) in *.
  assert (a < z) by nra. assert (c < z) by nra. nra.
Qed.
(* the distance of a point of the line *)
Lemma maha_ldl a c l s0 s1 m0 m1 r C S (* pivot a *) : 0 < a -> s0 * s0 = a -> 0 < s1 -> s1 * s1 = c - l * l * a -> C * C + S * S = 1 ->
  mahalanobis2 a (l * a) c m0 m1 (C * r * s0 + S * r * (s0 * l) + m0, C * r * (s0 * l) + S * r * (l * s0 * l + s1) + m1) = r * r * (1 + 2 * l * (C * S) + l * l * (S * S)).
Proof.
  intros A E0 P1 E1 T. unfold mahalanobis2. cbn [fst snd]. assert (D : a * c - l * a * (l * a) = a * (s1 * s1)) by (rewrite E1; ring). rewrite D.
  assert (Ec : c = s1 * s1 + l * l * a) by lra. rewrite Ec, <- E0.
  assert (N0 : s0 <> 0) by (intros ->; lra). assert (N1 : s1 <> 0) by lra.
  apply (Rmult_eq_reg_r (s0 * s0 * (s1 * s1))); [|apply Rmult_integral_contrapositive_currified; apply Rmult_integral_contrapositive_currified; assumption].
  unfold Rdiv. rewrite Rmult_assoc, Rinv_l, Rmult_1_r by (apply Rmult_integral_contrapositive_currified; apply Rmult_integral_contrapositive_currified; assumption).
  replace (r * r * (1 + 2 * l * (C * S) + l * l * (S * S)) * (s0 * s0 * (s1 * s1))) with (r * r * ((C * C + S * S) + 2 * l * (C * S) + l * l * (S * S)) * (s0 * s0 * (s1 * s1))) by (rewrite T; ring). ring.
Qed.
Lemma c73_distance_proof : forall a b c m0 m1 radius, pos_def2 a b c -> exists f l, ldl a b c = Some f /\ (l = 0 <-> b = 0) /\
  ((forall t, mahalanobis2 a b c m0 m1 (contour_point f radius m0 m1 t) = radius * radius * (1 + 2 * l * (cos t * sin t) + l * l * (sin t * sin t))) \/
   (forall t, mahalanobis2 a b c m0 m1 (contour_point f radius m0 m1 t) = radius * radius * (1 + 2 * l * (cos t * sin t) + l * l * (cos t * cos t)))).
Proof.
  intros a b c m0 m1 radius P. pose proof P as (A & C & D).
  assert (Tr : forall t, cos t * cos t + sin t * sin t = 1) by (intros t; pose proof (sin2_cos2 t); unfold Rsqr in *; lra).
  destruct (ldl_cases a b c P) as [[_ ->]|[_ ->]]; eexists.
  - exists (b / a). split; [reflexivity|]. split; [split; [intros H; apply (Rmult_eq_reg_r (/ a)); [unfold Rdiv in H; lra|apply Rinv_neq_0_compat; lra]|intros ->; unfold Rdiv; ring]|].
    left. intros t. unfold contour_point, sig_sq. cbn [l00 l01 l10 l11 d0 d1]. set (l := b / a). assert (Eb : b = l * a) by (unfold l; field; lra).
    assert (P1 : 0 < c - b * l) by (unfold l; apply (Rmult_lt_reg_r a); [exact A|]; replace ((c - b * (b / a)) * a) with (a * c - b * b) by (field; lra); lra).
    rewrite <- (maha_ldl a c l (sqrt a) (sqrt (c - b * l)) m0 m1 radius (cos t) (sin t)); [|exact A|apply sqrt_sqrt; lra|apply sqrt_lt_R0, P1|rewrite sqrt_sqrt by lra; rewrite Eb; ring|apply Tr].
    rewrite <- Eb. f_equal. f_equal; ring.
  - exists (b / c). split; [reflexivity|]. split; [split; [intros H; apply (Rmult_eq_reg_r (/ c)); [unfold Rdiv in H; lra|apply Rinv_neq_0_compat; lra]|intros ->; unfold Rdiv; ring]|].
    right. intros t. unfold contour_point, sig_sq. cbn [l00 l01 l10 l11 d0 d1]. set (l := b / c). assert (Eb : b = l * c) by (unfold l; field; lra).
    assert (P1 : 0 < a - b * l) by (unfold l; apply (Rmult_lt_reg_r c); [exact C|]; replace ((a - b * (b / c)) * c) with (a * c - b * b) by (field; lra); lra).
    assert (Sy : forall x y, mahalanobis2 a b c m0 m1 (x, y) = mahalanobis2 c b a m1 m0 (y, x)).
    { intros x y. unfold mahalanobis2. cbn [fst snd]. rewrite (Rmult_comm c a). unfold Rdiv. f_equal. ring. }
    rewrite Sy. replace (cos t * sin t) with (sin t * cos t) by ring.
    rewrite <- (maha_ldl c a l (sqrt c) (sqrt (a - b * l)) m1 m0 radius (sin t) (cos t)); [|exact C|apply sqrt_sqrt; lra|apply sqrt_lt_R0, P1|rewrite sqrt_sqrt by lra; rewrite Eb; ring|rewrite Rplus_comm; apply Tr].
    rewrite <- Eb. f_equal. f_equal; ring.
Qed.
Lemma second_angle : 0 < sin (2 * PI / 99) /\ 0 < cos (2 * PI / 99).
Proof. pose proof PI_RGT_0. split; [apply sin_gt_0; lra|apply cos_gt_0; lra]. Qed.
Lemma last_angle : cos (98 * (2 * PI / 99)) = cos (2 * PI / 99) /\ sin (98 * (2 * PI / 99)) = - sin (2 * PI / 99).
Proof.
  assert (E : 98 * (2 * PI / 99) = - (2 * PI / 99) + 2 * INR 1 * PI) by (simpl; field). rewrite E, cos_period, sin_period, cos_neg, sin_neg. auto.
Qed.
Lemma angle_in i : (i < 100)%nat -> In (INR i * (2 * PI / 99)) angles.
Proof. intros H. apply in_map_iff. exists i. split; [reflexivity|apply in_seq; lia]. Qed.
Lemma c73_contour_proof : forall a b c m0 m1 radius pts, pos_def2 a b c -> 0 < radius -> contour_points a b c radius m0 m1 = Some pts ->
  (Forall (on_contour a b c m0 m1 radius) pts <-> b = 0).
Proof.
  intros a b c m0 m1 radius pts P R0 H. destruct (c73_distance_proof a b c m0 m1 radius P) as (f & l & Ef & Z & F). unfold contour_points in H. rewrite Ef in H. cbn [option_map] in H. assert (Ep : pts = map (contour_point f radius m0 m1) angles) by congruence. rewrite Ep, Forall_map, <- Z.
  assert (R2 : 0 < radius * radius) by nra. split.
  - intros G. rewrite Forall_forall in G. pose proof (G _ (angle_in 1 ltac:(lia))) as G1. assert (X : (98 < 100)%nat) by lia. pose proof (G _ (angle_in 98 X)) as G2. unfold on_contour in *.
    change (INR 1) with 1 in G1. rewrite Rmult_1_l in G1. replace (INR 98) with 98 in G2 by (rewrite INR_IZR_INZ; reflexivity). destruct second_angle as [Sp Cp]. destruct last_angle as [Lc Ls].
    set (s := sin (2 * PI / 99)) in *. set (k := cos (2 * PI / 99)) in *.
    destruct F as [F|F]; rewrite F in G1, G2; rewrite Lc, Ls in G2; fold s k in G1.
    + assert (E1 : 2 * l * (k * s) + l * l * (s * s) = 0) by nra. assert (E2 : 2 * l * (k * - s) + l * l * (- s * - s) = 0) by nra.
      assert (E3 : l * l * (s * s) = 0) by lra. apply Rmult_integral in E3 as [E3|E3]; [|nra]. apply Rmult_integral in E3 as [E3|E3]; exact E3.
    + assert (E1 : 2 * l * (k * s) + l * l * (k * k) = 0) by nra. assert (E2 : 2 * l * (k * - s) + l * l * (k * k) = 0) by nra.
      assert (E3 : l * l * (k * k) = 0) by lra. apply Rmult_integral in E3 as [E3|E3]; [|nra]. apply Rmult_integral in E3 as [E3|E3]; exact E3.
  - intros ->. apply Forall_forall. intros t _. unfold on_contour. destruct F as [F|F]; rewrite F; ring.
Qed.
(* the area inside the line is that of the contour *)
Lemma c73_area_proof : forall a b c, pos_def2 a b c -> exists f p q r, ldl a b c = Some f /\ sig_sq f = (p, q, r) /\ (p * r - q * q) * (p * r - q * q) = a * c - b * b.
Proof.
  intros a b c P. pose proof P as (A & C & D).
  destruct (ldl_cases a b c P) as [[_ ->]|[_ ->]]; eexists _, _, _, _; (split; [reflexivity|]); (split; [unfold sig_sq; cbn [l00 l01 l10 l11 d0 d1]; reflexivity|]).
  - set (l := b / a). assert (P1 : 0 < c - b * l) by (unfold l; apply (Rmult_lt_reg_r a); [exact A|]; replace ((c - b * (b / a)) * a) with (a * c - b * b) by (field; lra); lra).
    transitivity ((sqrt a * sqrt a) * (sqrt (c - b * l) * sqrt (c - b * l))); [ring|]. rewrite !sqrt_sqrt by lra. unfold l. field. lra.
  - set (l := b / c). assert (P1 : 0 < a - b * l) by (unfold l; apply (Rmult_lt_reg_r c); [exact C|]; replace ((a - b * (b / c)) * c) with (a * c - b * b) by (field; lra); lra).
    transitivity ((sqrt c * sqrt c) * (sqrt (a - b * l) * sqrt (a - b * l))); [ring|]. rewrite !sqrt_sqrt by lra. unfold l. field. lra.
Qed.
Lemma c73_total_proof : forall a b c radius m0 m1, pos_def2 a b c -> exists pts, contour_points a b c radius m0 m1 = Some pts /\ length pts = 100%nat.
Proof.
  intros a b c radius m0 m1 P. unfold contour_points. destruct (ldl_cases a b c P) as [[_ ->]|[_ ->]]; cbn [option_map]; (eexists; split; [reflexivity|]); unfold angles; rewrite !map_length; reflexivity.
Qed.
Lemma c73_refuted_proof : exists a b c m0 m1 radius pts, pos_def2 a b c /\ 0 < radius /\ contour_points a b c radius m0 m1 = Some pts /\ ~ Forall (on_contour a b c m0 m1 radius) pts.
Proof.
  assert (P : pos_def2 1 (1 / 2) 1) by (unfold pos_def2; lra). destruct (c73_total_proof 1 (1 / 2) 1 1 0 0 P) as (pts & E & _). exists 1, (1 / 2), 1, 0, 0, 1, pts.
  split; [exact P|]. split; [lra|]. split; [exact E|]. rewrite (c73_contour_proof 1 (1 / 2) 1 0 0 1 pts P ltac:(lra) E). lra.
Qed.
