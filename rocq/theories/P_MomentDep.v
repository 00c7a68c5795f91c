(* Means over the dependent sticks of BetaBernoulli and BetaInDirichlet. *)
From Coq Require Import Lqa Field QArith.Qfield.
From Verif Require Import Prelude Numpy Rng M_Weights S_Weights S_Hist S_Draws S_More S_Urn S_Moment P_Wp P_Post P_More P_Urn P_UrnEppf P_Moment P_MomentInd.
Open Scope Q_scope.

Section Law.
Variables (N : nat) (L : law).
Hypothesis ML : moments N L.
Variable al : Q.
Hypothesis Hal : 0 < al.
Notation E1 := (one_stick L al).

Lemma red_pos : 0 < Qred al. Proof. rewrite Qred_correct. exact Hal. Qed.
Lemma one_ext f h : (forall x, 0 <= x <= 1 -> f x == h x) -> E1 f == E1 h.
Proof. intros H. apply (beta_ext N L ML). intros x C. apply H. apply C; [lra|apply red_pos]. Qed.
Lemma one_add f h : E1 (fun x => f x + h x) == E1 f + E1 h.
Proof. apply (beta_add N L ML); [lra|apply red_pos]. Qed.
Lemma one_scale c f : E1 (fun x => c * f x) == c * E1 f.
Proof. apply (beta_scale N L ML); [lra|apply red_pos]. Qed.
Lemma one_const c : E1 (fun _ => c) == c.
Proof. apply (beta_const N L ML); [lra|apply red_pos]. Qed.
Lemma one_lin c e f : E1 (fun x => c * f x + e) == c * E1 f + e.
Proof. rewrite (one_add (fun x => c * f x) (fun _ => e)), one_scale, one_const. reflexivity. Qed.

Notation r1 := (rbeta 1 al).
Lemma r1_pos : beta_pos r1. Proof. apply rbeta_pos; lra. Qed.

(* one, or two, of several independent draws *)
Lemma one_of phi : forall n a, (a < n)%nat -> forall k, (forall xs, length xs = n -> tmean L (k xs) == phi (nth a xs 0)) -> tmean L (asks (repeat r1 n) k) == E1 phi.
Proof.
  assert (C : forall n c k, (forall xs, length xs = n -> tmean L (k xs) == c) -> tmean L (asks (repeat r1 n) k) == c).
  { induction n; intros c k H; [apply H; reflexivity|]. cbn [repeat asks tmean]. unfold rbeta at 1. cbn [asks tmean]. change (Qred 1) with 1.
    transitivity (E1 (fun _ => c)); [|apply one_const]. apply one_ext. intros x _. apply IHn. intros xs Hx. apply H. cbn. lia. }
  induction n; intros a Ha k H; [lia|]. cbn [repeat]. unfold rbeta at 1. cbn [asks tmean]. change (Qred 1) with 1. destruct a as [|a].
  - apply one_ext. intros x _. apply (C n). intros xs Hx. rewrite H by (cbn; lia). reflexivity.
  - transitivity (E1 (fun _ => E1 phi)); [|apply one_const]. apply one_ext. intros x _. apply (IHn a); [lia|]. intros xs Hx. rewrite H by (cbn; lia). reflexivity.
Qed.
Lemma two_of g h : forall n a b, (a < b < n)%nat -> forall k, (forall xs, length xs = n -> tmean L (k xs) == g (nth a xs 0) * h (nth b xs 0)) -> tmean L (asks (repeat r1 n) k) == E1 g * E1 h.
Proof.
  induction n; intros a b Hab k H; [lia|]. cbn [repeat]. unfold rbeta at 1. cbn [asks tmean]. change (Qred 1) with 1. destruct b as [|b]; [lia|]. destruct a as [|a].
  - transitivity (E1 (fun x => E1 h * g x)); [|rewrite one_scale; ring]. apply one_ext. intros x _.
    rewrite (one_of (fun y => g x * h y) n b); [rewrite one_scale; ring|lia|]. intros xs Hx. rewrite H by (cbn; lia). cbn. ring.
  - transitivity (E1 (fun _ => E1 g * E1 h)); [|apply one_const]. apply one_ext. intros x _. apply (IHn a b); [lia|]. intros xs Hx. rewrite H by (cbn; lia). reflexivity.
Qed.

(* ---- BetaBernoulli ---- *)
Lemma chain_nth : forall ms x fresh j, (j < length ms)%nat -> (ones ms <= length fresh)%nat ->
  nth j (chain_sticks x fresh ms) 0 = nth (ones (firstn (S j) ms)) (x :: fresh) 0.
Proof.
  induction ms as [|m ms IH]; intros x fresh j Hj Hl; [cbn in Hj; lia|]. cbn [chain_sticks firstn]. unfold ones in *. cbn [filter] in *. destruct (m =? 0)%Z; cbn [negb] in *.
  - destruct j; [reflexivity|]. cbn [nth length]. rewrite IH by (cbn in Hj; auto; lia). reflexivity.
  - cbn [length] in *. destruct fresh as [|y fresh]; [cbn in Hl; lia|]. cbn [hd tl]. destruct j; [cbn; reflexivity|]. cbn [nth]. rewrite IH by (cbn in *; lia). reflexivity.
Qed.

Fixpoint bits (q : Q) (k : nat) (c : list Z -> tree) : tree :=
  match k with O => c [] | S k => ABinom 1 (Qred q) (fun z => bits q k (fun zs => c (z :: zs))) end.
Lemma follow_bits q k : forall c o g, follow (bits q k c) o g = follow (c (binom_answers o g (repeat (rbinom 1 q) k))) o (g ++ repeat (rbinom 1 q) k).
Proof.
  induction k; intros c o g; cbn [bits follow repeat]; [rewrite app_nil_r; reflexivity|]. unfold rbinom at 1 3. cbn [binom_answers follow].
  rewrite IHk. rewrite <- app_assoc. reflexivity.
Qed.

Section Bits.
Variable q : Q.
Hypothesis Hq : 0 <= q <= 1.
Lemma red_q : 0 <= Qred q <= 1. Proof. rewrite Qred_correct. exact Hq. Qed.
Lemma bit_ext f h : f 0%Z == h 0%Z -> f 1%Z == h 1%Z -> e_binom L 1 (Qred q) f == e_binom L 1 (Qred q) h.
Proof.
  intros H0 H1. apply (binom_ext N L ML). intros x C. destruct (C ltac:(lia)) as (R & _). specialize (R red_q).
  assert (x = 0 \/ x = 1)%Z as [->| ->] by lia; assumption.
Qed.
Lemma bit_mean f : e_binom L 1 (Qred q) f == (1 - q) * f 0%Z + q * f 1%Z.
Proof.
  rewrite (bit_ext f (fun x => f 0%Z * 1 + (f 1%Z - f 0%Z) * zq x)) by (change (zq 0) with 0; change (zq 1) with 1; ring).
  rewrite (binom_add N L ML 1 (Qred q) (fun x => f 0%Z * 1) (fun x => (f 1%Z - f 0%Z) * zq x)) by (try lia; apply red_q).
  rewrite !(binom_scale N L ML) by (try lia; apply red_q). rewrite (binom_one N L ML), (binom_mean N L ML) by (try lia; apply red_q).
  rewrite Qred_correct. change (zq 1) with 1. ring.
Qed.
Lemma bits_const k : forall c y, (forall zs, length zs = k -> Forall (fun m => m = 0 \/ m = 1)%Z zs -> tmean L (c zs) == y) -> tmean L (bits q k c) == y.
Proof.
  induction k; intros c y H; [apply H; [reflexivity|constructor]|]. cbn [bits tmean]. rewrite bit_mean.
  rewrite !(IHk _ y); [ring| |]; intros zs Hl Hz; apply H; cbn; auto; constructor; auto.
Qed.
End Bits.

Lemma ones_firstn zs j : (ones (firstn j zs) <= ones zs)%nat.
Proof. revert zs. induction j; intros [|z zs]; cbn; try lia. unfold ones in *. cbn [filter]. specialize (IHj zs). destruct (negb _); cbn; lia. Qed.
Lemma ones_bits z zs : ones (z :: zs) = (if (z =? 0)%Z then ones zs else S (ones zs)).
Proof. unfold ones. cbn [filter]. destruct (z =? 0)%Z; reflexivity. Qed.

(* the tree of BetaBernoulli.random(k) for an observable of the sticks *)
Definition bb_tree (q : Q) (k : nat) (F : list Q -> Q) : tree :=
  bits q k (fun ms => asks (repeat r1 (S (ones ms))) (fun xs => Leaf (F (chain_sticks (hd 0 xs) (tl xs) ms)))).
Lemma bb_follow q k s f F : 0 <= q <= 1 -> d s = [] -> bern s <> [] -> (0 < k)%nat ->
  (forall r s', f r s' == F (v s')) -> forall o g, valid_oracle o ->
  let '(r, s', g') := wm_random (CBB q al) (SInt (Z.of_nat k)) o s g in
  let '(z, g'') := follow (bb_tree q k F) o g in g' = g'' /\ f r s' == z.
Proof.
  intros Hq Hd Hb Hk HF o g V. pose proof (c63_prior_proof q al k o s g V Hq Hal Hd Hb Hk) as X. unfold wp, ends_with in X. cbv zeta in X.
  destruct (wm_random _ _ o s g) as [[r s'] g']. destruct X as (_ & Hg & (x & fresh & Hx & Hv) & _).
  unfold bb_tree. rewrite follow_bits, follow_asks by (apply repeat_pos, r1_pos). cbn [follow]. rewrite Hx. cbn [hd tl]. rewrite HF, Hv. split; [rewrite Hg, app_assoc; reflexivity|reflexivity].
Qed.
Lemma hd_tl (xs : list Q) n : length xs = S n -> hd 0 xs :: tl xs = xs.
Proof. destruct xs; [discriminate|reflexivity]. Qed.

Lemma bb_stick q k s phi j : 0 <= q <= 1 -> d s = [] -> bern s <> [] -> (j < k)%nat ->
  mean_of L (wm_random (CBB q al) (SInt (Z.of_nat k))) s (stick_fun phi j) (E1 phi).
Proof.
  intros Hq Hd Hb Hj. exists (bb_tree q k (fun vs => phi (nth j vs 0))). split.
  - apply bb_follow; auto; [lia|]. intros; reflexivity.
  - apply (bits_const q Hq). intros zs Hl _. apply one_of with (ones (firstn (S j) zs)); [pose proof (ones_firstn zs (S j)); lia|].
    intros xs Hx. cbn [tmean]. rewrite chain_nth; [|lia|destruct xs; cbn in *; lia]. rewrite (hd_tl xs (ones zs) Hx). reflexivity.
Qed.
Lemma bits_tie q : 0 <= q <= 1 -> forall A B j i k c, (i <= j < k)%nat ->
  (forall zs, length zs = k -> tmean L (c zs) == if (ones (firstn (S i) zs) =? ones (firstn (S j) zs))%nat then A else B) ->
  tmean L (bits q k c) == qpow (1 - q) (j - i) * A + (1 - qpow (1 - q) (j - i)) * B.
Proof.
  intros Hq A B.
  (* ties from the first position on *)
  assert (T : forall j k c, (j < k)%nat -> (forall zs, length zs = k -> tmean L (c zs) == if (0 =? ones (firstn (S j) zs))%nat then A else B) ->
              tmean L (bits q k c) == qpow (1 - q) (S j) * A + (1 - qpow (1 - q) (S j)) * B).
  { induction j; intros k c Hk H; (destruct k; [lia|]); cbn [bits tmean]; rewrite (bit_mean q Hq).
    - assert (X0 : tmean L (bits q k (fun zs => c (0%Z :: zs))) == A). { apply (bits_const q Hq). intros zs Hl _. rewrite H by (cbn; lia). reflexivity. }
      assert (X1 : tmean L (bits q k (fun zs => c (1%Z :: zs))) == B). { apply (bits_const q Hq). intros zs Hl _. rewrite H by (cbn; lia). reflexivity. }
      eapply Qeq_trans; [apply Qplus_comp; [apply Qmult_comp; [reflexivity|exact X0]|apply Qmult_comp; [reflexivity|exact X1]]|]. cbn [qpow]. ring.
    - assert (X0 : tmean L (bits q k (fun zs => c (0%Z :: zs))) == qpow (1 - q) (S j) * A + (1 - qpow (1 - q) (S j)) * B).
      { apply IHj; [lia|]. intros zs Hl. rewrite H by (cbn; lia). cbn [firstn]. rewrite ones_bits. reflexivity. }
      assert (X1 : tmean L (bits q k (fun zs => c (1%Z :: zs))) == B).
      { apply (bits_const q Hq). intros zs Hl _. rewrite H by (cbn; lia). cbn [firstn]. rewrite ones_bits. reflexivity. }
      eapply Qeq_trans; [apply Qplus_comp; [apply Qmult_comp; [reflexivity|exact X0]|apply Qmult_comp; [reflexivity|exact X1]]|]. cbn [qpow]. ring. }
  intros j i. revert j. induction i; intros j k c Hij H; (destruct k; [lia|]).
  - destruct j as [|j].
    + rewrite (bits_const q Hq (S k) c A); [cbn; ring|]. intros zs Hl _. rewrite H by exact Hl. rewrite Nat.eqb_refl. reflexivity.
    + replace (S j - 0)%nat with (S j) by lia. cbn [bits tmean]. rewrite (bit_mean q Hq).
      assert (X : forall z, (z = 0 \/ z = 1)%Z -> tmean L (bits q k (fun zs => c (z :: zs))) == qpow (1 - q) (S j) * A + (1 - qpow (1 - q) (S j)) * B).
      { intros z Hz. apply T; [lia|]. intros zs Hl. rewrite H by (cbn; lia). change (firstn 1 (z :: zs)) with [z]. change (firstn (S (S j)) (z :: zs)) with (z :: firstn (S j) zs). rewrite !ones_bits. destruct Hz as [-> | ->]; reflexivity. }
      eapply Qeq_trans; [apply Qplus_comp; [apply Qmult_comp; [reflexivity|apply X; auto]|apply Qmult_comp; [reflexivity|apply X; auto]]|]. ring.
  - destruct j as [|j]; [lia|]. cbn [bits tmean]. rewrite (bit_mean q Hq).
    assert (X : forall z, (z = 0 \/ z = 1)%Z -> tmean L (bits q k (fun zs => c (z :: zs))) == qpow (1 - q) (j - i) * A + (1 - qpow (1 - q) (j - i)) * B).
    { intros z Hz. apply IHi; [lia|]. intros zs Hl. rewrite H by (cbn; lia). change (firstn (S (S i)) (z :: zs)) with (z :: firstn (S i) zs). change (firstn (S (S j)) (z :: zs)) with (z :: firstn (S j) zs). rewrite !ones_bits. destruct Hz as [-> | ->]; reflexivity. }
    change (S j - S i)%nat with (j - i)%nat.
    eapply Qeq_trans; [apply Qplus_comp; [apply Qmult_comp; [reflexivity|apply X; auto]|apply Qmult_comp; [reflexivity|apply X; auto]]|]. ring.
Qed.
Lemma ones_firstn_le zs : forall i j, (i <= j)%nat -> (ones (firstn i zs) <= ones (firstn j zs))%nat.
Proof. induction zs as [|z zs IH]; intros [|i] [|j] H; cbn [firstn]; try (cbn; lia). rewrite !ones_bits. specialize (IH i j ltac:(lia)). destruct (z =? 0)%Z; lia. Qed.

Lemma bb_two q k s g h i j : 0 <= q <= 1 -> d s = [] -> bern s <> [] -> (i < j < k)%nat ->
  mean_of L (wm_random (CBB q al) (SInt (Z.of_nat k))) s (stick_pair g h i j) (two_sticks L al (qpow (1 - q) (j - i)) g h).
Proof.
  intros Hq Hd Hb Hk. exists (bb_tree q k (fun vs => g (nth i vs 0) * h (nth j vs 0))). split.
  - apply bb_follow; auto; [lia|]. intros; reflexivity.
  - unfold two_sticks, bb_tree. apply bits_tie; [exact Hq|lia|]. intros zs Hl.
    pose proof (ones_firstn_le zs (S i) (S j) ltac:(lia)) as Le. pose proof (ones_firstn zs (S j)) as Lj.
    destruct (Nat.eqb_spec (ones (firstn (S i) zs)) (ones (firstn (S j) zs))) as [Eq|Ne].
    + apply one_of with (ones (firstn (S j) zs)); [lia|]. intros xs Hx. cbn [tmean].
      rewrite !chain_nth; try (destruct xs; cbn [length tl] in *; lia). rewrite !(hd_tl xs _ Hx), Eq. reflexivity.
    + apply two_of with (ones (firstn (S i) zs)) (ones (firstn (S j) zs)); [lia|]. intros xs Hx. cbn [tmean].
      rewrite !chain_nth; try (destruct xs; cbn [length tl] in *; lia). rewrite !(hd_tl xs _ Hx). reflexivity.
Qed.

(* ---- BetaInDirichlet ---- *)
Section Urn.
Variable a : Q.
Hypothesis Ha : 0 <= a.
Fixpoint urnT (F : list Q -> list nat -> Q) (n k : nat) (seen : list nat) (base : list Q) (labs : list nat) : tree :=
  match n with
  | O => Leaf (F base labs)
  | S n => AChoice (map Qred (urn_weights a k seen)) (fun p =>
      if (p <? k)%nat then urnT F n k (seen ++ [p]) base (labs ++ [p])
      else ABeta 1 (Qred al) (fun x => urnT F n (S k) (seen ++ [p]) (base ++ [x]) (labs ++ [p])))
  end.
Lemma follow_urn F o : forall n ps k seen base labs g, length ps = n -> choices o g (urn_requests al a k seen ps) = ps ->
  follow (urnT F n k seen base labs) o g = (F (base ++ betas o g (urn_requests al a k seen ps)) (labs ++ ps), g ++ urn_requests al a k seen ps).
Proof.
  induction n; intros ps k seen base labs g Hl Hc; (destruct ps as [|p ps]; try discriminate).
  - cbn. rewrite !app_nil_r. reflexivity.
  - cbn [urn_requests choices] in Hc. injection Hc as Hp Hc. cbn [urnT follow urn_requests betas]. rewrite Hp. unfold next in *. destruct (p <? k)%nat eqn:Hpk.
    + cbn [app] in *. rewrite (IHn ps) by (auto; cbn in Hl; lia). rewrite <- !app_assoc. reflexivity.
    + unfold rbeta in *. cbn [app choices] in Hc. cbn [app follow betas]. change (Qred 1) with 1 in *. rewrite (IHn ps) by (auto; cbn in Hl; lia). rewrite <- !app_assoc. reflexivity.
Qed.
Definition at_pos (base : list Q) (labs : list nat) (j : nat) : Q := nth (nth j labs 0%nat) base 0.
Lemma bid_follow n s f F : d s = [] ->
  (forall s' base ps, length ps = n -> v s' = map (fun p => nth p base 0) ps -> stick_image (v s') (w s') -> f (Ok (w s')) s' == F base ps) ->
  forall o g, valid_oracle o ->
  let '(r, s', g') := wm_random (CBID al a) (SInt (Z.of_nat n)) o s g in
  let '(z, g'') := follow (ABeta 1 (Qred al) (fun x => urnT F n 1 [0%nat] [x] [])) o g in g' = g'' /\ f r s' == z.
Proof.
  intros Hd HF o g V. destruct (c100_prior_proof al a n o s g V Hal Ha Hd) as (ps & s' & g' & E & _ & U). rewrite E.
  destruct U as (Hl & Hp & Hg & Hc & Hb & Hv & _ & Hw & _). cbn [length beta_answers rbeta] in *. change (Qred 1) with 1 in *. cbn [follow].
  rewrite (follow_urn _ o n ps); [|exact Hl|exact Hc]. split; [rewrite Hg; unfold rbeta; reflexivity|]. rewrite Hb in Hv. cbn [app] in *. apply HF; assumption.
Qed.
End Urn.
End Law.
