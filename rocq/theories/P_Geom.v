(* GeometricProcess.tail (C05). *)
From Coq Require Import Reals Lra Qreals Qround Lqa.
From Verif Require Import Prelude Numpy Rng M_Weights S_Weights S_Hist S_Oracle P_Lists P_Hoare P_Wp P_Inv P_Complete P_Random P_Tail P_Sticks.
Open Scope Q_scope.
Open Scope m_scope.

Lemma qpow_pos q n : 0 < q -> 0 < qpow q n.
Proof. intros H; induction n; simpl; [lra|]. nra. Qed.
Lemma qpow_le1 q n : 0 <= q <= 1 -> 0 <= qpow q n <= 1.
Proof. intros H; induction n; simpl; [lra|]. nra. Qed.
Lemma qpow_add q a b : qpow q (a + b) == qpow q a * qpow q b.
Proof. induction a; simpl; [ring|]. rewrite IHa; ring. Qed.
Lemma qpow_anti q n m : 0 <= q <= 1 -> (n <= m)%nat -> qpow q m <= qpow q n.
Proof.
  intros H L. replace m with (n + (m - n))%nat by lia. rewrite qpow_add.
  pose proof (qpow_le1 q n H). pose proof (qpow_le1 q (m - n) H). nra.
Qed.

Lemma geom_count_spec q b : forall fuel acc, b <= acc ->
  b <= acc * qpow q (geom_count fuel q acc b) /\
  ((geom_count fuel q acc b < fuel)%nat -> acc * qpow q (S (geom_count fuel q acc b)) < b) /\
  (geom_count fuel q acc b <= fuel)%nat.
Proof.
  induction fuel as [|f IH]; intros acc H; cbn [geom_count].
  - simpl. split; [lra|]. split; lia.
  - destruct (qleb b (acc * q)) eqn:E.
    + apply Qle_bool_iff in E. destruct (IH (acc * q) E) as (H1 & H2 & H3). cbn [qpow] in *.
      split; [rewrite Qmult_assoc; exact H1|]. split; [|lia].
      intros K. rewrite (Qmult_assoc acc q). apply H2. lia.
    + split; [simpl; lra|]. split; [|lia]. intros _. simpl.
      assert (~ b <= acc * q) by (intros K; apply Qle_bool_iff in K; unfold qleb in E; congruence). lra.
Qed.

(* Bernoulli: (1 + n p) (1-p)^n <= 1 *)
Lemma bernoulli_q pp n : 0 <= pp <= 1 -> (1 + nq n * pp) * qpow (1 - pp) n <= 1.
Proof.
  intros H; induction n as [|n IH]; [cbn [qpow]; change (nq 0) with 0; lra|].
  rewrite nq_S. cbn [qpow]. pose proof (nq_nonneg n).
  assert (P0 : 0 <= qpow (1 - pp) n) by (apply qpow_le1; lra).
  assert (E : (1 + (nq n + 1) * pp) * ((1 - pp) * qpow (1 - pp) n) ==
              (1 + nq n * pp) * qpow (1 - pp) n - (nq n * pp * pp + pp * pp) * qpow (1 - pp) n) by ring.
  rewrite E. assert (0 <= nq n * pp * pp + pp * pp) by (assert (0 <= pp * pp) by nra; nra). nra.
Qed.

Lemma geom_fuel_enough pp x n : 0 < pp -> pp < 1 -> 0 <= x -> x < 1 ->
  1 - x <= qpow (1 - pp) n -> (n < geom_fuel pp x)%nat.
Proof.
  intros Hp0 Hp1 Hx0 Hx1 H. unfold geom_fuel.
  pose proof (bernoulli_q pp n ltac:(lra)) as B.
  pose proof (nq_nonneg n).
  assert (K : nq n * ((1 - x) * pp) <= x) by nra.
  assert (D : 0 < (1 - x) * pp) by nra.
  assert (L : nq n <= x / ((1 - x) * pp)) by (apply Qle_shift_div_l; assumption).
  pose proof (Qle_ceiling (x / ((1 - x) * pp))) as C.
  assert (Z1 : nq n <= inject_Z (Qceiling (x / ((1 - x) * pp)))) by lra.
  unfold nq in Z1. rewrite <- Zle_Qle in Z1. lia.
Qed.

Lemma geom_tail_size_spec pp x : 0 < pp -> pp < 1 -> 0 <= x -> x < 1 ->
  exists n, geom_tail_size pp x = Ok (Z.of_nat n) /\ 1 - x <= qpow (1 - pp) n /\ qpow (1 - pp) (S n) < 1 - x.
Proof.
  intros Hp0 Hp1 Hx0 Hx1. unfold geom_tail_size.
  destruct (Qeq_bool pp 0) eqn:E0; [apply Qeq_bool_iff in E0; lra|].
  destruct (Qeq_bool pp 1) eqn:E1; [apply Qeq_bool_iff in E1; lra|].
  eexists; split; [reflexivity|].
  destruct (geom_count_spec (1 - pp) (1 - x) (geom_fuel pp x) 1 ltac:(lra)) as (H1 & H2 & H3).
  rewrite Qmult_1_l in H1. split; [exact H1|].
  rewrite Qmult_1_l in H2. apply H2. apply geom_fuel_enough; assumption.
Qed.

Lemma remaining_repeat q n : remaining (repeat q n) == qpow (1 - q) n.
Proof. induction n; [reflexivity|]. cbn [repeat]. rewrite remaining_cons, IHn. reflexivity. Qed.
Lemma firstn_repeat {A} (x : A) j n : (j <= n)%nat -> firstn j (repeat x n) = repeat x j.
Proof. revert n; induction j; intros [|n] H; simpl; try lia; [reflexivity|reflexivity|]. rewrite IHj by lia; reflexivity. Qed.

Lemma nth_repeat_lt (x y : Q) j n : (j < n)%nat -> nth j (repeat x n) y = x.
Proof. revert n; induction j; intros [|n] H; simpl; try lia; auto. apply IHj; lia. Qed.

Lemma geom_weights s a b : coherent (CGeom a b) s ->
  (forall j, (j < length (w s))%nat -> nth j (w s) 0 == p s * qpow (1 - p s) j) /\
  qtotal (w s) == 1 - qpow (1 - p s) (length (w s)).
Proof.
  intros [Hw Hv]. simpl in Hv. assert (L : length (w s) = length (v s)) by (rewrite Hw; apply stick_length).
  split.
  - intros j Hj. rewrite Hw. destruct (stick_image_stick (v s)) as [_ K].
    rewrite K by (rewrite <- L; exact Hj). rewrite L in Hj.
    assert (E1 : nth j (v s) 0 = p s) by (rewrite Hv; apply nth_repeat_lt; assumption).
    assert (E2 : qproduct (map (fun x => 1 - x) (firstn j (v s))) == qpow (1 - p s) j).
    { rewrite Hv, firstn_repeat by lia. apply remaining_repeat. }
    rewrite E1, E2. reflexivity.
  - rewrite L, Hw, <- qsum_total, stick_sum. rewrite Hv at 1. rewrite remaining_repeat. reflexivity.
Qed.

Lemma c05_proof a b o s g fuel x y s' g' :
  reached (CGeom a b) o s g -> 0 < p s -> p s < 1 ->
  wm_tail (CGeom a b) fuel x o s g = (Ok y, s', g') ->
  exists n, 1 - x <= qpow (1 - p s) n /\ qpow (1 - p s) (S n) < 1 - x /\
    length (w s') = Nat.max (length (w s)) n /\ y = w s' /\ p s' = p s /\
    (forall j, (j < length (w s'))%nat -> nth j (w s') 0 == p s * qpow (1 - p s) j) /\
    qtotal (w s') == 1 - qpow (1 - p s) (length (w s')).
Proof.
  intros Hr H0 H1 E.
  pose proof (reached_coherent (CGeom a b) o s g I Hr) as Hs.
  pose proof (geom_tail_wp a b o x s g Hs) as H. unfold wp in H. simpl wm_tail in E. rewrite E in H.
  destruct H as ((Hs' & _) & Hy). destruct (Hy y eq_refl) as (Hx0 & Hx1 & Ey & Ep).
  destruct (geom_tail_size_spec (p s) x H0 H1 Hx0 Hx1) as (n & En & B1 & B2).
  exists n. split; [exact B1|]. split; [exact B2|].
  assert (L : length (w s') = Nat.max (length (w s)) n).
  { unfold geom_tail in E. destruct (qleb 1 x || qltb x 0); [discriminate|].
    unfold bind at 1 in E. simpl in E. rewrite En in E.
    pose proof (geom_complete_wp o (SInt (Z.of_nat n)) (Z.of_nat n) s g eq_refl (or_introl (proj1 Hs)) (proj2 Hs)) as K.
    unfold wp in K. unfold bind in E at 1. destruct (geom_complete (SInt (Z.of_nat n)) o s g) as [[[r|e|] s1] g1]; try discriminate.
    injection E as _ <- _. destruct K as ((_ & Hw & Hl & _) & _).
    rewrite Hw, stick_length, Hl, (coherent_len _ _ Hs), Nat2Z.id. reflexivity. }
  destruct (geom_weights s' a b Hs') as [W1 W2]. rewrite Ep in W1, W2. repeat split; auto.
Qed.

Lemma c05_next_proof a b o s g fuel x y s' g' :
  reached (CGeom a b) o s g -> 0 < p s -> p s < 1 ->
  wm_tail (CGeom a b) fuel x o s g = (Ok y, s', g') ->
  x < qtotal (w s') + p s * qpow (1 - p s) (length (w s')).
Proof.
  intros Hr H0 H1 E. destruct (c05_proof _ _ _ _ _ _ _ _ _ _ Hr H0 H1 E) as (n & B1 & B2 & L & _ & _ & _ & W).
  rewrite W. assert (qpow (1 - p s) (S (length (w s'))) <= qpow (1 - p s) (S n)) by (apply qpow_anti; [lra|lia]).
  cbn [qpow] in *. lra.
Qed.

Lemma c05_iff_proof a b o s g fuel x y s' g' :
  reached (CGeom a b) o s g -> 0 < p s -> p s < 1 ->
  wm_tail (CGeom a b) fuel x o s g = (Ok y, s', g') ->
  exists n, 1 - x <= qpow (1 - p s) n /\ qpow (1 - p s) (S n) < 1 - x /\
    (x < qtotal (w s') <-> (n < length (w s))%nat) /\
    (x <= qtotal (w s') <-> (n < length (w s))%nat \/ 1 - x == qpow (1 - p s) n).
Proof.
  intros Hr H0 H1 E. destruct (c05_proof _ _ _ _ _ _ _ _ _ _ Hr H0 H1 E) as (n & B1 & B2 & L & _ & _ & _ & W).
  exists n. split; [exact B1|]. split; [exact B2|].
  destruct (Nat.lt_ge_cases n (length (w s))) as [Hn|Hn].
  - assert (A : qpow (1 - p s) (length (w s')) <= qpow (1 - p s) (S n)) by (apply qpow_anti; [lra|lia]).
    split; split; auto; intros _; rewrite W; lra.
  - rewrite L in W. replace (Nat.max (length (w s)) n) with n in W by lia. rewrite W.
    split; split; intros K.
    + lra.
    + lia.
    + right; lra.
    + destruct K as [K|K]; [lia|lra].
Qed.

(* the integer part of the quotient of logarithms *)
Lemma Q2R_qpow q n : Q2R (qpow q n) = (Q2R q ^ n)%R.
Proof. induction n; simpl; [unfold Q2R; simpl; Lra.lra|]. rewrite Q2R_mult, IHn; reflexivity. Qed.
Lemma c05_floor_proof pp x : 0 < pp -> pp < 1 -> 0 <= x -> x < 1 ->
  exists n, geom_tail_size pp x = Ok (Z.of_nat n) /\
    (INR n <= ln (1 - Q2R x) / ln (1 - Q2R pp) < INR n + 1)%R.
Proof.
  intros H0 H1 H2 H3. destruct (geom_tail_size_spec pp x H0 H1 H2 H3) as (n & E & B1 & B2).
  exists n; split; [exact E|].
  apply Qle_Rle in B1. apply Qlt_Rlt in B2. rewrite Q2R_qpow in B1, B2.
  apply Qlt_Rlt in H0, H1, H3. rewrite !Q2R_minus in *.
  replace (Q2R 1) with 1%R in * by (unfold Q2R; simpl; Lra.lra). replace (Q2R 0) with 0%R in * by (unfold Q2R; simpl; Lra.lra).
  set (q := (1 - Q2R pp)%R) in *. set (t := (1 - Q2R x)%R) in *.
  assert (Hq : (0 < q < 1)%R) by (unfold q; Lra.lra). assert (Ht : (0 < t)%R) by (unfold t; Lra.lra).
  assert (Lq : (ln q < 0)%R) by (rewrite <- ln_1; apply ln_increasing; Lra.lra).
  assert (Hpow : forall m, ln (q ^ m) = (INR m * ln q)%R) by (intros; apply ln_pow; Lra.lra).
  assert (A1 : (ln t <= INR n * ln q)%R).
  { rewrite <- Hpow. destruct B1 as [B1|B1]; [left; apply ln_increasing; assumption|right; rewrite B1; reflexivity]. }
  assert (A2 : ((INR n + 1) * ln q < ln t)%R).
  { rewrite <- S_INR, <- Hpow. apply ln_increasing; [apply pow_lt; Lra.lra|exact B2]. }
  split.
  - apply Rmult_le_reg_r with (- ln q)%R; [Lra.lra|]. unfold Rdiv. replace (ln t * / ln q * - ln q)%R with (- ln t)%R by (field; Lra.lra). Lra.lra.
  - apply Rmult_lt_reg_r with (- ln q)%R; [Lra.lra|]. unfold Rdiv. replace (ln t * / ln q * - ln q)%R with (- ln t)%R by (field; Lra.lra). Lra.lra.
Qed.

Lemma c05_witness : exists o s0 g0 fuel x a s' g', valid_oracle o /\
  new_ws (CGeom 1 1) 0 0 o = Ok (s0, g0) /\ 0 < p s0 /\ p s0 < 1 /\
  wm_tail (CGeom 1 1) fuel x o s0 g0 = (Ok a, s', g') /\ ~ x <= qtotal a.
Proof.
  exists (const_oracle (1 # 2)), (ws_init (1 # 2) 0), [rbeta 1 1], 0%nat, (2 # 3). do 3 eexists.
  split; [apply const_oracle_valid; split; discriminate|]. split; [reflexivity|].
  split; [reflexivity|]. split; [reflexivity|]. split; [vm_compute; reflexivity|]. vm_compute. intros H; apply H; reflexivity.
Qed.

(* the slice truncation based on it drops a component above the slice *)
Lemma c07_geom_witness : exists o s0 g0 u a s1 g1 s2 g2, valid_oracle o /\
  new_ws (CGeom 1 1) 0 0 o = Ok (s0, g0) /\ 0 < u /\ u < 1 /\
  wm_tail (CGeom 1 1) 0 (1 - u) o s0 g0 = (Ok a, s1, g1) /\
  exec_ops (CGeom 1 1) [OpComplete (SInt (Z.of_nat (length a) + 1))] o s1 g1 = (Ok tt, s2, g2) /\
  exists x, w s2 = a ++ [x] /\ u < x.
Proof.
  exists (const_oracle (9 # 10)), (ws_init (9 # 10) 0), [rbeta 1 1], (1 # 2). do 5 eexists.
  split; [apply const_oracle_valid; split; discriminate|]. split; [reflexivity|].
  split; [reflexivity|]. split; [reflexivity|]. split; [vm_compute; reflexivity|]. split; [vm_compute; reflexivity|].
  eexists; split; [vm_compute; reflexivity|]. reflexivity.
Qed.

(* p = 1 and p = 0 *)
Lemma c05_degenerate_proof a b fuel x o s g : 0 <= x -> x < 1 ->
  (p s == 1 -> wm_tail (CGeom a b) fuel x o s g = (Ok (w s), s, g)) /\
  (p s == 0 -> 0 < x -> wm_tail (CGeom a b) fuel x o s g = (Err OverflowError, s, g)) /\
  (p s == 0 -> x == 0 -> wm_tail (CGeom a b) fuel x o s g = (Err ValueError, s, g)).
Proof.
  intros H0 H1. simpl wm_tail. unfold geom_tail.
  assert (R : qleb 1 x || qltb x 0 = false).
  { apply orb_false_iff; split; [|apply qltb_ge; assumption].
    destruct (qleb 1 x) eqn:E; auto. apply Qle_bool_iff in E. lra. }
  rewrite R. unfold bind, get. unfold geom_tail_size.
  repeat split; intros Hp; try intros Hx.
  - assert (E0 : Qeq_bool (p s) 0 = false) by (destruct (Qeq_bool (p s) 0) eqn:E; auto; apply Qeq_bool_iff in E; lra).
    apply Qeq_bool_iff in Hp. rewrite E0, Hp. simpl.
    unfold geom_complete, bind; simpl. destruct (length (v s)); reflexivity.
  - apply Qeq_bool_iff in Hp. rewrite Hp. assert (E0 : Qeq_bool x 0 = false) by (destruct (Qeq_bool x 0) eqn:E; auto; apply Qeq_bool_iff in E; lra).
    rewrite E0. reflexivity.
  - apply Qeq_bool_iff in Hp, Hx. rewrite Hp, Hx. reflexivity.
Qed.
