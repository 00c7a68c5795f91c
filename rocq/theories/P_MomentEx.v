(* A law with the required moments up to degree three, for all parameters. *)
From Coq Require Import Lqa Field QArith.Qfield.
From Verif Require Import Prelude Numpy Rng M_Weights S_Weights S_Oracle S_Moment.
Open Scope Q_scope.

(* Beta: mass at 0, at (a+1)/(a+b+2) and at 1 *)
Definition lob_c (a b : Q) : Q := (a + 1) / (a + b + 2).
Definition lob_m (a b : Q) : Q := a * b * (a + b + 2) * (a + b + 2) / ((a + b) * (a + b + 1) * (a + 1) * (b + 1)).
Definition lob_1 (a b : Q) : Q := a / (a + b) - lob_m a b * lob_c a b.
Definition lob_beta (a b : Q) (f : Q -> Q) : Q :=
  (1 - lob_m a b - lob_1 a b) * f 0 + lob_m a b * f (lob_c a b) + lob_1 a b * f 1.
(* Binomial: the law itself *)
Fixpoint bin (n : nat) (q : Q) (f : Z -> Q) : Q :=
  match n with O => f 0%Z | S k => q * bin k q (fun x => f (x + 1)%Z) + (1 - q) * bin k q f end.
Definition lob_binom (n : Z) (q : Q) (f : Z -> Q) : Q := bin (Z.to_nat n) q f.
(* Choice: the law itself *)
Definition qpos (x : Q) : Q := if qltb 0 x then x else 0.
Definition lob_choice (ws : list Q) (f : nat -> Q) : Q :=
  qsum (map (fun i => qpos (nth i ws 0) * f i) (seq 0 (length ws))) / qsum (map qpos ws).
(* Dirichlet: mass at the mean and at the corners *)
Definition corner (n i : nat) : list Q := map (fun j => if Nat.eqb i j then 1 else 0) (seq 0 n).
Definition lob_dir (al : list Q) (f : list Q -> Q) : Q :=
  let t := qsum al in
  t / (t + 1) * f (map (fun x => x / t) al) +
  1 / (t + 1) * qsum (map (fun i => nth i al 0 / t * f (corner (length al) i)) (seq 0 (length al))).
Definition lob : law := {| e_beta := lob_beta; e_binom := lob_binom; e_choice := lob_choice; e_dir := lob_dir |}.

Lemma qsum_map_eq {X} (f h : X -> Q) l : (forall x, In x l -> f x == h x) -> qsum (map f l) == qsum (map h l).
Proof. induction l; intros H; cbn; [reflexivity|]. rewrite (H a) by (left; reflexivity). rewrite IHl by (intros; apply H; right; auto). reflexivity. Qed.
Lemma qsum_map_add {X} (f h : X -> Q) l : qsum (map (fun x => f x + h x) l) == qsum (map f l) + qsum (map h l).
Proof. induction l; cbn; [reflexivity|]. rewrite IHl. ring. Qed.
Lemma qsum_map_scale {X} c (f : X -> Q) l : qsum (map (fun x => c * f x) l) == c * qsum (map f l).
Proof. induction l; cbn; [ring|]. rewrite IHl. ring. Qed.
Lemma qsum_pos l : pos l -> l <> [] -> 0 < qsum l.
Proof. destruct l; [congruence|]. intros H _. inversion H as [|? ? H1 H2]; subst. cbn. clear H. enough (0 <= qsum l) by lra. clear H1. induction H2; cbn; lra. Qed.
Lemma qsum_nonneg l : pos l -> 0 <= qsum l.
Proof. induction 1; cbn; lra. Qed.
(* a sum with one non-zero term *)
Lemma qsum_pick (f : nat -> Q) j : forall n b, (b <= j < b + n)%nat -> qsum (map (fun i => if Nat.eqb i j then f i else 0) (seq b n)) == f j.
Proof.
  induction n; intros b H; [lia|]. cbn [seq map qsum]. destruct (Nat.eqb_spec b j) as [->|N].
  - assert (E : qsum (map (fun i => if Nat.eqb i j then f i else 0) (seq (S j) n)) == 0).
    { clear. assert (G : forall n b, (j < b)%nat -> qsum (map (fun i => if Nat.eqb i j then f i else 0) (seq b n)) == 0).
      { induction n0; intros b Hb; [reflexivity|]. cbn [seq map qsum]. destruct (Nat.eqb_spec b j); [lia|]. rewrite IHn0 by lia. ring. }
      apply G. lia. }
    rewrite E. ring.
  - rewrite IHn by lia. ring.
Qed.

Lemma lob_mom a b i j : 0 < a -> 0 < b -> (i + j <= 3)%nat -> lob_beta a b (fun x => qpow x i * qpow (1 - x) j) == beta_moment a b i j.
Proof.
  intros Ha Hb H. unfold lob_beta, lob_1, lob_m, lob_c, beta_moment.
  destruct i as [|[|[|[|i]]]]; destruct j as [|[|[|[|j]]]]; try lia; cbn [qpow rising Nat.add]; field; repeat split; lra.
Qed.

Lemma bin_ext0 q n : q == 0 -> forall f h, f 0%Z == h 0%Z -> bin n q f == bin n q h.
Proof. intros Hq. induction n; intros f h H; cbn [bin]; [exact H|]. rewrite (IHn f h H). generalize (bin n q (fun x => f (x + 1)%Z)) (bin n q (fun x => h (x + 1)%Z)) (bin n q h). intros. rewrite Hq. ring. Qed.
Lemma bin_ext1 q n : q == 1 -> forall f h, f (Z.of_nat n) == h (Z.of_nat n) -> bin n q f == bin n q h.
Proof.
  intros Hq. induction n; intros f h H; [exact H|]. cbn [bin].
  assert (E : f (Z.of_nat n + 1)%Z == h (Z.of_nat n + 1)%Z) by (replace (Z.of_nat n + 1)%Z with (Z.of_nat (S n)) by lia; exact H).
  rewrite (IHn (fun x => f (x + 1)%Z) (fun x => h (x + 1)%Z) E). generalize (bin n q f) (bin n q h) (bin n q (fun x => h (x + 1)%Z)). intros. rewrite Hq. ring.
Qed.
Lemma bin_ext q n : forall f h, (forall x, (0 <= x <= Z.of_nat n)%Z -> f x == h x) -> bin n q f == bin n q h.
Proof.
  induction n; intros f h H; cbn [bin]; [apply H; lia|].
  rewrite (IHn (fun x => f (x + 1)%Z) (fun x => h (x + 1)%Z)) by (intros; apply H; lia).
  rewrite (IHn f h) by (intros; apply H; lia). reflexivity.
Qed.
Lemma bin_add q n : forall f h, bin n q (fun x => f x + h x) == bin n q f + bin n q h.
Proof. induction n; intros f h; cbn [bin]; [reflexivity|]. rewrite (IHn (fun x => f (x + 1)%Z) (fun x => h (x + 1)%Z)), (IHn f h). ring. Qed.
Lemma bin_scale q n c : forall f, bin n q (fun x => c * f x) == c * bin n q f.
Proof. induction n; intros f; cbn [bin]; [reflexivity|]. rewrite (IHn (fun x => f (x + 1)%Z)), (IHn f). ring. Qed.
Lemma bin_one q n : bin n q (fun _ => 1) == 1.
Proof. induction n; cbn [bin]; [reflexivity|]. rewrite IHn. ring. Qed.
Lemma zq_add x y : zq (x + y) == zq x + zq y. Proof. unfold zq. rewrite inject_Z_plus. reflexivity. Qed.
Lemma bin_mean q n : bin n q zq == zq (Z.of_nat n) * q.
Proof.
  induction n; cbn [bin]; [reflexivity|].
  rewrite (bin_ext q n (fun x => zq (x + 1)) (fun x => zq x + 1)) by (intros; rewrite zq_add; reflexivity).
  rewrite bin_add, bin_one, IHn. replace (Z.of_nat (S n)) with (Z.of_nat n + 1)%Z by lia. rewrite zq_add. change (zq 1) with 1. ring.
Qed.
Lemma bin_square q n : bin n q (fun x => zq x * zq x) == zq (Z.of_nat n) * q + zq (Z.of_nat n) * (zq (Z.of_nat n) - 1) * q * q.
Proof.
  induction n; cbn [bin]; [cbn; change (zq 0) with 0; ring|].
  rewrite (bin_ext q n (fun x => zq (x + 1) * zq (x + 1)) (fun x => zq x * zq x + (2 * zq x + 1))) by (intros; rewrite zq_add; change (zq 1) with 1; ring).
  rewrite (bin_add q n (fun x => zq x * zq x) (fun x => 2 * zq x + 1)), (bin_add q n (fun x => 2 * zq x) (fun _ => 1)), bin_scale, bin_one, bin_mean, IHn.
  replace (Z.of_nat (S n)) with (Z.of_nat n + 1)%Z by lia. rewrite zq_add. change (zq 1) with 1. ring.
Qed.

Lemma corner_nth n i j : (j < n)%nat -> nth j (corner n i) 0 = if Nat.eqb i j then 1 else 0.
Proof.
  intros H. unfold corner. rewrite nth_indep with (d' := (fun j => if Nat.eqb i j then 1 else 0) 0%nat) by (rewrite map_length, seq_length; exact H).
  rewrite (map_nth (fun j => if Nat.eqb i j then 1 else 0)). rewrite seq_nth by exact H. reflexivity.
Qed.
Lemma nth_div al t j : nth j (map (fun x => x / t) al) 0 == nth j al 0 / t.
Proof.
  destruct (Nat.lt_ge_cases j (length al)) as [H|H].
  - rewrite nth_indep with (d' := (fun x => x / t) 0) by (rewrite map_length; exact H). rewrite (map_nth (fun x => x / t)). reflexivity.
  - rewrite !nth_overflow by (rewrite ?map_length; lia). unfold Qdiv. ring.
Qed.

Theorem lob_moments : moments 3 lob.
Proof.
  constructor; cbn [lob e_beta e_binom e_choice e_dir].
  - intros a b f h H. unfold lob_beta.
    assert (C : forall x, (0 < a -> 0 < b -> 0 <= x <= 1) -> f x == h x) by exact H.
    rewrite (C 0) by (intros; lra). rewrite (C 1) by (intros; lra). rewrite (C (lob_c a b)); [reflexivity|].
    intros Ha Hb. unfold lob_c. split; [apply Qle_shift_div_l; lra|apply Qle_shift_div_r; lra].
  - intros. unfold lob_beta. ring.
  - intros. unfold lob_beta. ring.
  - intros. apply lob_mom; auto.
  - intros n q f h H. unfold lob_binom. destruct (Z.le_gt_cases 0 n) as [Hn|Hn].
    + destruct (Qeq_dec q 0) as [E|N0].
      * apply bin_ext0; [exact E|]. apply H. intros _. split; [intros; lia|]. split; [reflexivity|]. intros E1. lra.
      * destruct (Qeq_dec q 1) as [E|N1].
        -- apply bin_ext1; [exact E|]. rewrite Z2Nat.id by exact Hn. apply H. intros _. split; [intros; lia|]. split; [intros; lra|reflexivity].
        -- apply bin_ext. rewrite Z2Nat.id by exact Hn. intros x Hx. apply H. intros _. split; [auto|]. split; intros; contradiction.
    + replace (Z.to_nat n) with 0%nat by lia. cbn. apply H. intros X; lia.
  - intros. unfold lob_binom. apply bin_add.
  - intros. unfold lob_binom. apply bin_scale.
  - intros. apply bin_one.
  - intros n q Hn Hq. unfold lob_binom. rewrite bin_mean, Z2Nat.id by exact Hn. reflexivity.
  - intros n q Hn Hq. unfold lob_binom. rewrite bin_square, Z2Nat.id by exact Hn. reflexivity.
  - intros ws f h H. unfold lob_choice. rewrite (qsum_map_eq (fun i => qpos (nth i ws 0) * f i) (fun i => qpos (nth i ws 0) * h i)); [reflexivity|].
    intros i Hi. apply in_seq in Hi. unfold qpos. destruct (qltb 0 (nth i ws 0)) eqn:E; [|ring]. rewrite (H i); [reflexivity|].
    intros _. split; [lia|apply qltb_lt; exact E].
  - intros ws f H T. unfold lob_choice.
    assert (E : forall x, 0 <= x -> qpos x == x). { intros x Hx. unfold qpos. destruct (qltb 0 x) eqn:E; [reflexivity|]. apply qltb_ge in E. lra. }
    rewrite (qsum_map_eq (fun i => qpos (nth i ws 0) * f i) (fun i => nth i ws 0 * f i)).
    + assert (E2 : qsum (map qpos ws) == qsum ws). { rewrite (qsum_map_eq qpos (fun x => x)); [rewrite map_id; reflexivity|]. intros x Hx. apply E. rewrite Forall_forall in H. auto. }
      rewrite E2. reflexivity.
    + intros i Hi. apply in_seq in Hi. rewrite E; [reflexivity|]. rewrite Forall_forall in H. apply H, nth_In. lia.
  - intros al f h H. unfold lob_dir.
    assert (E1 : f (map (fun x => x / qsum al) al) == h (map (fun x => x / qsum al) al)).
    { apply H. split; [apply map_length|]. split.
      - intros P. pose proof (qsum_nonneg al P) as T. apply Forall_forall. intros y Hy. apply in_map_iff in Hy. destruct Hy as (x & <- & Hx). pose proof (proj1 (Forall_forall _ al) P x Hx) as P'. cbn in P'.
        destruct (Qeq_dec (qsum al) 0) as [Z|NZ]; [rewrite Z; unfold Qdiv; change (/ 0) with 0; lra|]. apply Qle_shift_div_l; lra.
      - intros Ne P. pose proof (qsum_pos al P Ne) as T. rewrite (qsum_map_eq (fun x => x / qsum al) (fun x => / qsum al * x)) by (intros; unfold Qdiv; ring).
        rewrite qsum_map_scale, map_id. field. lra. }
    rewrite E1. rewrite (qsum_map_eq (fun i => nth i al 0 / qsum al * f (corner (length al) i)) (fun i => nth i al 0 / qsum al * h (corner (length al) i))); [reflexivity|].
    intros i Hi. apply in_seq in Hi. rewrite (H (corner (length al) i)); [reflexivity|].
    unfold corner. split; [rewrite map_length, seq_length; reflexivity|]. split.
    + intros _. apply Forall_forall. intros y Hy. apply in_map_iff in Hy. destruct Hy as (j & <- & _). destruct (Nat.eqb i j); lra.
    + intros _ _. rewrite (qsum_map_eq (fun j => if Nat.eqb i j then 1 else 0) (fun j => if Nat.eqb j i then 1 else 0)) by (intros; rewrite Nat.eqb_sym; reflexivity).
      apply (qsum_pick (fun _ => 1)). lia.
  - intros al j Ne P. pose proof (qsum_pos al P Ne) as T. unfold lob_dir. rewrite nth_div.
    destruct (Nat.lt_ge_cases j (length al)) as [Hj|Hj].
    + rewrite (qsum_map_eq (fun i => nth i al 0 / qsum al * nth j (corner (length al) i) 0) (fun i => if Nat.eqb i j then nth i al 0 / qsum al else 0)).
      * rewrite (qsum_pick (fun i => nth i al 0 / qsum al)) by lia. field. lra.
      * intros i _. rewrite corner_nth by exact Hj. destruct (Nat.eqb i j); ring.
    + rewrite (nth_overflow al) by exact Hj.
      rewrite (qsum_map_eq (fun i => nth i al 0 / qsum al * nth j (corner (length al) i) 0) (fun i => 0 * 0)).
      * rewrite qsum_map_scale. unfold Qdiv. ring.
      * intros i _. rewrite (nth_overflow (corner _ _)) by (unfold corner; rewrite map_length, seq_length; exact Hj). ring.
  - intros al i j Ne P Hi Hj. pose proof (qsum_pos al P Ne) as T. unfold lob_dir. rewrite !nth_div.
    rewrite (qsum_map_eq (fun i0 => nth i0 al 0 / qsum al * (nth i (corner (length al) i0) 0 * nth j (corner (length al) i0) 0))
              (fun i0 => if Nat.eqb i0 i then (if Nat.eqb i j then nth i0 al 0 / qsum al else 0) else 0)).
    + rewrite (qsum_pick (fun i0 => if Nat.eqb i j then nth i0 al 0 / qsum al else 0)) by lia. destruct (Nat.eqb_spec i j) as [->|]; field; lra.
    + intros x _. rewrite !corner_nth by assumption. destruct (Nat.eqb_spec x i) as [->|]; [|ring]. destruct (Nat.eqb i j); ring.
Qed.
