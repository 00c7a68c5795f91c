(* Laws with the required moments exist for every degree: interpolation at
   equidistant nodes for Beta, stick breaking for Dirichlet. *)
From Coq Require Import Lqa Field QArith.Qfield.
From Verif Require Import Prelude Numpy Rng M_Weights S_Weights S_Moment S_Bayes P_Lists P_Moment P_MomentInd P_MomentEx P_Bayes.
Open Scope Q_scope.

Section Step.
Variable h : Q.
Hypothesis Hh : 0 < h.
Definition delta (f : Q -> Q) (x : Q) : Q := f (x + h) - f x.
Fixpoint diff (n : nat) (f : Q -> Q) (x : Q) : Q := match n with O => f x | S k => diff k (delta f) x end.
(* degree at most n with leading coefficient c *)
Fixpoint deg (n : nat) (c : Q) (f : Q -> Q) : Prop :=
  match n with O => forall x, f x == c | S k => deg k (nq (S k) * h * c) (delta f) end.
Fixpoint fac (n : nat) (c : Q) : Q := match n with O => c | S k => fac k (nq (S k) * h * c) end.

Lemma deg_eq n : forall c c' f g, c == c' -> (forall x, f x == g x) -> deg n c f -> deg n c' g.
Proof.
  induction n; intros c c' f g Ec Ef H; cbn [deg] in *; [intros x; rewrite <- Ef, H; exact Ec|].
  apply (IHn (nq (S n) * h * c) _ (delta f) (delta g)); [rewrite Ec; reflexivity|intros x; unfold delta; rewrite <- !Ef; reflexivity|exact H].
Qed.
Lemma deg_add n : forall c c' f g, deg n c f -> deg n c' g -> deg n (c + c') (fun x => f x + g x).
Proof.
  induction n; intros c c' f g H H'; cbn [deg] in *; [intros x; rewrite H, H'; reflexivity|].
  eapply deg_eq; [| |apply (IHn _ _ _ _ H H')]; [ring|]. intros x. unfold delta. ring.
Qed.
Lemma deg_scale n : forall k c f, deg n c f -> deg n (k * c) (fun x => k * f x).
Proof.
  induction n; intros k c f H; cbn [deg] in *; [intros x; rewrite H; reflexivity|].
  eapply deg_eq; [| |apply (IHn k _ _ H)]; [ring|]. intros x. unfold delta. ring.
Qed.
Lemma deg_up n : forall c f, deg n c f -> deg (S n) 0 f.
Proof.
  induction n; intros c f H.
  - cbn [deg] in *. intros x. unfold delta. rewrite !H. ring.
  - cbn [deg] in H. specialize (IHn _ _ H). change (deg (S n) (nq (S (S n)) * h * 0) (delta f)). eapply deg_eq; [| |exact IHn]; [ring|reflexivity].
Qed.
Lemma deg_x n : forall c f, deg n c f -> deg (S n) c (fun x => x * f x).
Proof.
  induction n; intros c f H.
  - cbn [deg] in *. intros x. unfold delta. rewrite !H. change (nq 1) with 1. ring.
  - cbn [deg] in H. pose proof (IHn _ _ H) as A. pose proof (deg_scale (S n) h c f H) as B. pose proof (deg_scale (S n) h _ _ (deg_up n _ _ H)) as C.
    change (deg (S n) (nq (S (S n)) * h * c) (delta (fun x => x * f x))).
    eapply deg_eq; [| |apply (deg_add (S n) _ _ _ _ A (deg_add (S n) _ _ _ _ B C))].
    + rewrite (nq_S (S n)). ring.
    + intros x. unfold delta. ring.
Qed.
Lemma deg_pow n : deg n 1 (fun x => qpow x n).
Proof. induction n; [intros x; reflexivity|]. apply (deg_x n 1 (fun x => qpow x n)). exact IHn. Qed.
Lemma deg_more k : forall n c f, deg n c f -> deg (S (k + n)) 0 f.
Proof. induction k; intros n c f H; [apply (deg_up n c), H|]. cbn [Nat.add]. apply (deg_up (S (k + n)) 0). apply (IHk n c). exact H. Qed.
Lemma fac_eq n : forall c c', c == c' -> fac n c == fac n c'.
Proof. induction n; intros c c' E; cbn; [exact E|]. apply IHn. rewrite E. reflexivity. Qed.
Lemma fac_0 n : fac n 0 == 0.
Proof. induction n; cbn; [reflexivity|]. rewrite (fac_eq n _ 0) by ring. exact IHn. Qed.
Lemma fac_pos n : forall c, 0 < c -> 0 < fac n c.
Proof.
  induction n; intros c H; cbn; [exact H|]. apply IHn. apply Qmult_lt_0_compat; [|exact H]. apply Qmult_lt_0_compat; [|exact Hh]. rewrite nq_S. pose proof (nq_nonneg n). lra.
Qed.
Lemma diff_deg n : forall c f x, deg n c f -> diff n f x == fac n c.
Proof. induction n; intros c f x H; cbn in *; [apply H|]. apply IHn. exact H. Qed.
Lemma diff_low k m x : (m < k)%nat -> diff k (fun y => qpow y m) x == 0.
Proof. intros H. replace k with (S ((k - S m) + m)) by lia. rewrite (diff_deg _ 0); [apply fac_0|]. apply (deg_more _ m 1). apply deg_pow. Qed.
Lemma diff_ext k : forall f g lo hi x, (forall y, lo <= y <= hi -> f y == g y) -> lo <= x -> x + nq k * h <= hi -> diff k f x == diff k g x.
Proof.
  induction k; intros f g lo hi x H Hl Hx; cbn [diff].
  - apply H. change (nq 0) with 0 in Hx. lra.
  - rewrite nq_S in Hx. apply (IHk _ _ lo (hi - h)); [|exact Hl|lra]. intros y Hy. unfold delta. rewrite !H by lra. reflexivity.
Qed.
Lemma diff_all k : forall f g x, (forall y, f y == g y) -> diff k f x == diff k g x.
Proof. induction k; intros f g x H; cbn [diff]; [apply H|]. apply IHk. intros y. unfold delta. rewrite !H. reflexivity. Qed.
Lemma diff_add k : forall f g x, diff k (fun y => f y + g y) x == diff k f x + diff k g x.
Proof. induction k; intros f g x; cbn [diff]; [reflexivity|]. rewrite <- IHk. apply diff_all. intros y. unfold delta. ring. Qed.
Lemma diff_scale k : forall c f x, diff k (fun y => c * f y) x == c * diff k f x.
Proof. induction k; intros c f x; cbn [diff]; [reflexivity|]. rewrite <- IHk. apply diff_all. intros y. unfold delta. ring. Qed.

(* the functional with given moments m 0 .. m n *)
Fixpoint lam (m : nat -> Q) (n : nat) (f : Q -> Q) : Q :=
  match n with
  | O => m 0%nat * f 0
  | S k => lam m k f + (m (S k) - lam m k (fun x => qpow x (S k))) / fac (S k) 1 * diff (S k) f 0
  end.
Lemma lam_all m n : forall f g, (forall y, f y == g y) -> lam m n f == lam m n g.
Proof. induction n; intros f g H; cbn [lam]; [rewrite H; reflexivity|]. rewrite (IHn f g H), (diff_all (S n) f g 0 H). reflexivity. Qed.
Lemma lam_ext m n : forall f g, nq n * h <= 1 -> (forall y, 0 <= y <= 1 -> f y == g y) -> lam m n f == lam m n g.
Proof.
  induction n; intros f g Hn H; [cbn [lam]; rewrite H by lra; reflexivity|]. cbn [lam]. rewrite (diff_ext (S n) f g 0 1 0 H) by lra.
  rewrite nq_S in Hn. rewrite (IHn f g); [reflexivity|lra|exact H].
Qed.
Lemma lam_add m n f g : lam m n (fun x => f x + g x) == lam m n f + lam m n g.
Proof. induction n; cbn [lam]; [ring|]. rewrite IHn, diff_add. ring. Qed.
Lemma lam_scale m n c f : lam m n (fun x => c * f x) == c * lam m n f.
Proof. induction n; cbn [lam]; [ring|]. rewrite IHn, diff_scale. ring. Qed.
Lemma lam_moment m n : forall i, (i <= n)%nat -> lam m n (fun x => qpow x i) == m i.
Proof.
  induction n; intros i Hi.
  - assert (i = 0)%nat by lia. subst. cbn. ring.
  - cbn [lam]. destruct (Nat.eq_dec i (S n)) as [->|Ne].
    + rewrite (diff_deg (S n) 1) by apply deg_pow. pose proof (fac_pos (S n) 1 ltac:(lra)). set (F := fac (S n) 1) in *. field. lra.
    + rewrite (diff_low (S n) i) by lia. rewrite IHn by lia. ring.
Qed.
End Step.

Definition step_of (N : nat) : Q := 1 / nq (S N).
Lemma step_pos N : 0 < step_of N.
Proof. unfold step_of. apply Qlt_shift_div_l; [rewrite nq_S; pose proof (nq_nonneg N); lra|]. lra. Qed.
Lemma step_le N : nq N * step_of N <= 1.
Proof.
  unfold step_of. pose proof (nq_nonneg N) as H. rewrite nq_S. assert (E : nq N * (1 / (nq N + 1)) == nq N / (nq N + 1)) by (field; lra). rewrite E. apply Qle_shift_div_r; lra.
Qed.
Definition eq_beta (N : nat) (a b : Q) (f : Q -> Q) : Q := lam (step_of N) (fun i => beta_moment a b i 0) N f.

Lemma moment_next a b i j : 0 < a -> 0 < b -> beta_moment a b i (S j) == beta_moment a b i j - beta_moment a b (S i) j.
Proof.
  intros Ha Hb. unfold beta_moment.
  replace (S j) with (j + 1)%nat by lia. replace (S i) with (i + 1)%nat by lia. replace (i + (j + 1))%nat with (i + j + 1)%nat by lia. replace (i + 1 + j)%nat with (i + j + 1)%nat by lia.
  rewrite (rising_add b j 1), (rising_add a i 1), (rising_add (a + b) (i + j) 1). cbn [rising]. rewrite nq_add.
  pose proof (rising_pos (a + b) (i + j) ltac:(lra)). pose proof (nq_nonneg i). pose proof (nq_nonneg j). field. split; lra.
Qed.
Lemma eq_beta_mom N a b : 0 < a -> 0 < b -> forall j i, (i + j <= N)%nat -> eq_beta N a b (fun x => qpow x i * qpow (1 - x) j) == beta_moment a b i j.
Proof.
  intros Ha Hb. unfold eq_beta. induction j; intros i Hij.
  - rewrite (lam_all _ _ N _ (fun x => qpow x i)) by (intros; cbn; ring). apply (lam_moment (step_of N) (step_pos N) (fun i => beta_moment a b i 0) N i). lia.
  - rewrite (lam_all _ _ N _ (fun x => qpow x i * qpow (1 - x) j + (- (1)) * (qpow x (S i) * qpow (1 - x) j))) by (intros; cbn; ring).
    rewrite lam_add, lam_scale, !IHj by lia. rewrite moment_next by assumption. ring.
Qed.

Section Dir.
Variable N : nat.
Notation EB := (eq_beta N).
Lemma eb_ext a b f g : (forall x, can_beta a b x -> f x == g x) -> EB a b f == EB a b g.
Proof.
  intros H. unfold eq_beta. apply lam_ext; [apply step_pos|apply step_le|]. intros y Hy. apply H. intros _ _. exact Hy.
Qed.
Fixpoint dirE (al : list Q) (f : list Q -> Q) : Q :=
  match al with
  | [] => f []
  | [a] => f [1]
  | a :: rest => EB a (qsum rest) (fun v => dirE rest (fun xs => f (v :: map (fun x => (1 - v) * x) xs)))
  end.
Lemma dirE_cons a b rest f : dirE (a :: b :: rest) f = EB a (qsum (b :: rest)) (fun v => dirE (b :: rest) (fun xs => f (v :: map (fun x => (1 - v) * x) xs))).
Proof. reflexivity. Qed.
Lemma sum_pos l : l <> [] -> pos l -> 0 < qsum l.
Proof. intros Ne P. destruct P as [|x l Hx P]; [congruence|]. cbn. assert (0 <= qsum l) by (clear - P; induction P; cbn; lra). lra. Qed.
Lemma can_break a rest v xs : can_beta a (qsum rest) v -> can_dir rest xs -> rest <> [] -> can_dir (a :: rest) (v :: map (fun x => (1 - v) * x) xs).
Proof.
  intros Cv (Hl & Hn & Hs) Ne. split; [cbn; rewrite map_length, Hl; reflexivity|].
  assert (G : pos (a :: rest) -> 0 <= v <= 1 /\ pos rest). { intros P. inversion P; subst. split; [apply Cv; [assumption|apply sum_pos; assumption]|assumption]. }
  split.
  - intros P. destruct (G P) as (B & P'). constructor; [lra|]. specialize (Hn P'). clear - Hn B. induction Hn; cbn; constructor; auto. apply Qmult_le_0_compat; lra.
  - intros _ P. destruct (G P) as (B & P'). cbn. rewrite qsum_map_scale, map_id. rewrite (Hs Ne P'). ring.
Qed.
Lemma dirE_ext al : forall f g, (forall x, can_dir al x -> f x == g x) -> dirE al f == dirE al g.
Proof.
  induction al as [|a al IH]; intros f g H.
  - cbn. apply H. split; [reflexivity|]. split; [constructor|congruence].
  - destruct al as [|b al].
    + cbn. apply H. split; [reflexivity|]. split; [intros _; constructor; [lra|constructor]|intros _ _; cbn; ring].
    + rewrite !dirE_cons. apply eb_ext. intros v Cv. apply IH. intros xs Cx. apply H. apply can_break; [exact Cv|exact Cx|discriminate].
Qed.
Lemma dirE_scale al : forall c f, dirE al (fun x => c * f x) == c * dirE al f.
Proof.
  induction al as [|a al IH]; intros c f; [cbn; reflexivity|]. destruct al as [|b al]; [cbn; reflexivity|]. rewrite !dirE_cons.
  rewrite (eb_ext a _ _ (fun v => c * dirE (b :: al) (fun xs => f (v :: map (fun x => (1 - v) * x) xs)))) by (intros; apply IH). unfold eq_beta. apply lam_scale.
Qed.
Lemma plain_map es : forall xs c, length es = length xs -> plain_powers es (map (fun x => c * x) xs) == qpow c (list_sum es) * plain_powers es xs.
Proof.
  induction es as [|e es IH]; intros [|x xs] c H; try discriminate; [cbn; ring|]. cbn [map plain_powers]. rewrite IH by (cbn in H; lia).
  change (list_sum (e :: es)) with (e + list_sum es)%nat. rewrite qpow_plus.
  assert (E : qpow (c * x) e == qpow c e * qpow x e) by (clear; induction e; cbn; [ring|]; rewrite IHe; ring). rewrite E. ring.
Qed.
Lemma dirE_moments al : forall es, al <> [] -> pos al -> length es = length al -> (list_sum es <= N)%nat ->
  dirE al (plain_powers es) == rises al es / rising (qsum al) (list_sum es).
Proof.
  induction al as [|a al IH]; intros es Ne P Hl HN; [congruence|]. destruct es as [|e es]; [discriminate|]. inversion P; subst. destruct al as [|b al].
  - destruct es; [|discriminate]. cbn [dirE plain_powers rises qsum]. change (list_sum [e]) with (e + 0)%nat. rewrite Nat.add_0_r.
    assert (X : qpow 1 e == 1) by (clear; induction e; cbn; [reflexivity|]; rewrite IHe; ring). rewrite X.
    assert (Y : a + 0 == a) by ring. rewrite Y. pose proof (rising_pos a e ltac:(assumption)). field. lra.
  - change (list_sum (e :: es)) with (e + list_sum es)%nat in *. set (rest := b :: al) in *.
    assert (Sr : 0 < qsum rest) by (apply sum_pos; [discriminate|assumption]).
    specialize (IH es ltac:(discriminate) ltac:(assumption) ltac:(cbn in *; lia) ltac:(lia)).
    unfold rest at 1. rewrite dirE_cons. fold rest.
    rewrite (eb_ext a (qsum rest) _ (fun v => (rises rest es / rising (qsum rest) (list_sum es)) * (qpow v e * qpow (1 - v) (list_sum es)))).
    + unfold eq_beta at 1. rewrite lam_scale. fold (EB a (qsum rest) (fun v => qpow v e * qpow (1 - v) (list_sum es))). rewrite eq_beta_mom by (auto; lia).
      unfold beta_moment. cbn [rises qsum]. pose proof (rising_pos (qsum rest) (list_sum es) Sr). pose proof (rising_pos (a + qsum rest) (e + list_sum es) ltac:(lra)).
      change (qsum rest) with (b + qsum al) in *. field. split; lra.
    + intros v Cv. rewrite <- IH. rewrite (Qmult_comm (dirE rest (plain_powers es))). rewrite <- dirE_scale. apply dirE_ext. intros xs (Hx & _).
      cbn [plain_powers]. rewrite plain_map by (rewrite Hx; cbn in *; lia). ring.
Qed.
Lemma dirE_zero al : dirE al (fun _ => 0) == 0.
Proof. rewrite (dirE_ext al _ (fun x => 0 * 0)) by (intros; ring). rewrite (dirE_scale al 0 (fun _ => 0)). ring. Qed.
End Dir.

Definition exact_law (N : nat) : law := {| e_beta := eq_beta N; e_binom := e_binom lob; e_choice := e_choice lob; e_dir := dirE N |}.
Lemma pick n i f : (i < n)%nat -> f i == prod n (fun j => if Nat.eqb i j then f j else 1).
Proof.
  revert i f. induction n; intros i f Hi; [lia|]. rewrite prod_S. destruct (Nat.eqb_spec i n) as [->|Ne].
  - rewrite (prod_ext n _ (fun _ => 1)); [rewrite prod_one; ring|]. intros j Hj. destruct (Nat.eqb_spec n j); [lia|reflexivity].
  - rewrite <- IHn by lia. ring.
Qed.
Lemma sum_one n i : list_sum (map (fun j => if Nat.eqb i j then 1 else 0)%nat (seq 0 n)) = if (i <? n)%nat then 1%nat else 0%nat.
Proof. induction n; [reflexivity|]. rewrite seq_S, map_app, list_sum_app, IHn. unfold list_sum. cbn [map fold_right]. cbn [Nat.add]. destruct (Nat.eqb_spec i n), (Nat.ltb_spec i n), (Nat.ltb_spec i (S n)); lia. Qed.
Definition one_at (n i : nat) : list nat := map (fun j => if Nat.eqb i j then 1 else 0)%nat (seq 0 n).
Definition two_at (n i j : nat) : list nat := map (fun k => (if Nat.eqb i k then 1 else 0) + (if Nat.eqb j k then 1 else 0))%nat (seq 0 n).

Lemma exact_moments N : (2 <= N)%nat -> moments N (exact_law N) /\ dir_moments N (exact_law N).
Proof.
  intros HN. pose proof lob_moments as LM.
  assert (DM : dir_moments N (exact_law N)) by (intros al es Ne P Hl Hs; apply dirE_moments; assumption).
  split; [|exact DM]. constructor; cbn [exact_law e_beta e_binom e_choice e_dir]; try apply LM.
  - intros a b f g H. apply eb_ext. exact H.
  - intros. unfold eq_beta. apply lam_add.
  - intros. unfold eq_beta. apply lam_scale.
  - intros. apply eq_beta_mom; assumption.
  - intros al f g H. apply dirE_ext. exact H.
  - intros al j Ne P. set (n := length al). destruct (Nat.lt_ge_cases j n) as [Hj|Hj].
    + rewrite (dirE_ext N al _ (plain_powers (one_at n j))).
      * assert (S1 : list_sum (one_at n j) = 1%nat) by (unfold one_at; rewrite sum_one; destruct (Nat.ltb_spec j n); [reflexivity|lia]).
        rewrite dirE_moments; [|exact Ne|exact P|unfold one_at; rewrite map_length, seq_length; reflexivity|lia]. rewrite S1.
        rewrite rises_prod by (unfold one_at; rewrite map_length, seq_length; reflexivity). fold n.
        rewrite (pick n j (fun k => nth k al 0) Hj). cbn [rising]. rewrite Qmult_1_r. apply Qmult_comp; [|reflexivity]. apply prod_ext. intros k Hk. unfold one_at. rewrite nth_map_seq by exact Hk.
        destruct (Nat.eqb j k); cbn; ring.
      * intros x (Hx & _). rewrite plain_prod, Hx. fold n. rewrite (pick n j (fun k => nth k x 0) Hj). apply prod_ext. intros k Hk. unfold one_at. rewrite nth_map_seq by exact Hk. destruct (Nat.eqb j k); cbn; ring.
    + rewrite (dirE_ext N al _ (fun _ => 0)).
      * rewrite dirE_zero, nth_overflow by exact Hj. unfold Qdiv. ring.
      * intros x (Hx & _). rewrite nth_overflow by (rewrite Hx; exact Hj). reflexivity.
  - intros al i j Ne P Hi Hj. set (n := length al) in *.
    rewrite (dirE_ext N al _ (plain_powers (two_at n i j))).
    + assert (S2 : list_sum (two_at n i j) = 2%nat) by (unfold two_at; rewrite sum_add, !sum_one; destruct (Nat.ltb_spec j n), (Nat.ltb_spec i n); try lia; reflexivity).
      rewrite dirE_moments; [|exact Ne|exact P|unfold two_at; rewrite map_length, seq_length; reflexivity|lia]. rewrite S2.
      rewrite rises_prod by (unfold two_at; rewrite map_length, seq_length; reflexivity). fold n. cbn [rising]. rewrite Qmult_1_r. apply Qmult_comp; [|reflexivity].
      destruct (Nat.eqb_spec i j) as [->|Ne'].
      * rewrite (pick n j (fun k => nth k al 0 * (nth k al 0 + 1)) Hj). apply prod_ext. intros k Hk. unfold two_at. rewrite nth_map_seq by exact Hk. destruct (Nat.eqb j k); cbn; ring.
      * rewrite Qplus_0_r. rewrite (pick n i (fun k => nth k al 0) Hi), (pick n j (fun k => nth k al 0) Hj), <- prod_mul. apply prod_ext. intros k Hk. unfold two_at. rewrite nth_map_seq by exact Hk.
        destruct (Nat.eqb_spec i k), (Nat.eqb_spec j k); try lia; cbn; ring.
    + intros x (Hx & _). rewrite plain_prod, Hx. fold n. rewrite (pick n i (fun k => nth k x 0) Hi), (pick n j (fun k => nth k x 0) Hj), <- prod_mul. apply prod_ext. intros k Hk. unfold two_at. rewrite nth_map_seq by exact Hk.
      destruct (Nat.eqb i k), (Nat.eqb j k); cbn; ring.
Qed.
Lemma moments_less N N' L : (N' <= N)%nat -> moments N L -> moments N' L.
Proof. intros H [A1 A2 A3 A4 A5 A6 A7 A8 A9 A10 A11 A12 A13 A14 A15]. constructor; auto. intros. apply A4; auto. lia. Qed.
Lemma laws_exist N : exists L, moments N L /\ dir_moments N L.
Proof.
  destruct (exact_moments (N + 2) ltac:(lia)) as (A & B). exists (exact_law (N + 2)). split; [apply (moments_less (N + 2)); [lia|exact A]|].
  intros al es Ne P Hl Hs. apply B; auto. lia.
Qed.
