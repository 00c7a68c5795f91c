(* The draw on labels is the Bayes posterior of the draw without labels. *)
From Coq Require Import Lqa Field QArith.Qfield.
From Verif Require Import Prelude Numpy Rng M_Weights S_Weights S_Hist S_Draws S_More S_Moment S_Bayes P_Lists P_Wp P_Post P_More P_MomentLaw P_Moment P_MomentInd P_MomentEx.
Open Scope Q_scope.

(* ---- rising factorials ---- *)
Lemma rising_add a n i : rising a (n + i) == rising a n * rising (a + nq n) i.
Proof.
  revert a. induction n; intros a.
  - cbn. assert (E : a + nq 0 == a) by (change (nq 0) with 0; ring). rewrite E. ring.
  - cbn [Nat.add rising]. rewrite IHn. assert (E : a + 1 + nq n == a + nq (S n)) by (rewrite nq_S; ring). rewrite E. ring.
Qed.
Lemma rising_pos a n : 0 < a -> 0 < rising a n.
Proof. revert a. induction n; intros a H; cbn; [lra|]. apply Qmult_lt_0_compat; [exact H|]. apply IHn. lra. Qed.
Lemma moment_pos a b i j : 0 < a -> 0 < b -> 0 < beta_moment a b i j.
Proof.
  intros Ha Hb. unfold beta_moment. apply Qlt_shift_div_l; [apply rising_pos; lra|]. rewrite Qmult_0_l. apply Qmult_lt_0_compat; apply rising_pos; assumption.
Qed.
Lemma moment_split a b n m i j : 0 < a -> 0 < b ->
  beta_moment a b (n + i) (m + j) == beta_moment a b n m * beta_moment (a + nq n) (b + nq m) i j.
Proof.
  intros Ha Hb. pose proof (nq_nonneg n). pose proof (nq_nonneg m). unfold beta_moment. rewrite !(rising_add a), !(rising_add b).
  replace (n + i + (m + j))%nat with (n + m + (i + j))%nat by lia. rewrite (rising_add (a + b)).
  assert (E : a + nq n + (b + nq m) == a + b + nq (n + m)) by (rewrite nq_add; ring). rewrite E.
  pose proof (rising_pos (a + b) (n + m) ltac:(lra)). pose proof (nq_nonneg (n + m)). pose proof (rising_pos (a + b + nq (n + m)) (i + j) ltac:(lra)).
  field. split; lra.
Qed.

(* ---- products over positions ---- *)
Definition prod (n : nat) (f : nat -> Q) : Q := qproduct (map f (seq 0 n)).
Lemma qproduct_app a b : qproduct (a ++ b) == qproduct a * qproduct b.
Proof. unfold qproduct. induction a; cbn; [ring|]. rewrite IHa. ring. Qed.
Lemma prod_S n f : prod (S n) f == prod n f * f n.
Proof. unfold prod. rewrite seq_S, map_app, qproduct_app. cbn. ring. Qed.
Lemma prod_ext n f h : (forall j, (j < n)%nat -> f j == h j) -> prod n f == prod n h.
Proof. induction n; intros H; [reflexivity|]. rewrite !prod_S, IHn by (intros; apply H; lia). rewrite H by lia. reflexivity. Qed.
Lemma prod_mul n f h : prod n (fun j => f j * h j) == prod n f * prod n h.
Proof. induction n; [unfold prod; cbn; ring|]. rewrite !prod_S, IHn. ring. Qed.
Lemma prod_one n : prod n (fun _ => 1) == 1.
Proof. induction n; [reflexivity|]. rewrite prod_S, IHn. ring. Qed.
Lemma prod_pos n f : (forall j, (j < n)%nat -> 0 < f j) -> 0 < prod n f.
Proof. induction n; intros H; [unfold prod; cbn; lra|]. rewrite prod_S. apply Qmult_lt_0_compat; [apply IHn; intros; apply H; lia|apply H; lia]. Qed.
Lemma prod_shift n f : prod (S n) f == f 0%nat * prod n (fun j => f (S j)).
Proof. induction n; [unfold prod; cbn; ring|]. rewrite prod_S, IHn, prod_S. ring. Qed.

Lemma monos_prod E : forall xs, monos (map E (seq 0 (length xs))) xs == prod (length xs) (fun j => mono (E j) (nth j xs 0)).
Proof.
  intros xs. revert E. induction xs as [|x xs IH]; intros E; [reflexivity|]. cbn [length]. rewrite prod_shift. cbn [seq map monos nth].
  rewrite <- seq_shift, map_map. rewrite (IH (fun j => E (S j))). reflexivity.
Qed.
Lemma powers_prod : forall es xs, powers es xs == prod (length xs) (fun j => mono (nth j es (0, 0)%nat) (nth j xs 0)).
Proof.
  induction es as [|(e, f) es IH]; intros xs.
  - destruct xs; cbn [powers]; symmetry; erewrite prod_ext; try apply prod_one; intros j _; destruct j; unfold mono; cbn; ring.
  - destruct xs as [|x xs]; [reflexivity|]. cbn [length powers]. rewrite prod_shift. cbn [nth]. rewrite IH. unfold mono at 1. cbn [fst snd]. reflexivity.
Qed.
Lemma moments_prod_fun (A B : nat -> Q) E n : moments_prod (map (fun j => rbeta (A j) (B j)) (seq 0 n)) (map E (seq 0 n)) == prod n (fun j => beta_moment (A j) (B j) (fst (E j)) (snd (E j))).
Proof.
  revert A B E. induction n; intros A B E; [reflexivity|]. rewrite prod_shift. cbn [seq map moments_prod]. rewrite req_moment_rbeta.
  rewrite <- seq_shift, !map_map. rewrite (IHn (fun j => A (S j)) (fun j => B (S j)) (fun j => E (S j))). reflexivity.
Qed.

Definition drew (rs : list req) (o : oracle) (g : rng) (r : res (list Q)) (s' : ws) (g' : rng) : Prop :=
  r = Ok (w s') /\ g' = g ++ rs /\ v s' = beta_answers o g rs /\ stick_image (v s') (w s').
(* a call that draws the sticks j < n from Beta(A j, B j): the mean of a product
   of powers of the sticks *)
Lemma drawn_powers N L (m : M ws (list Q)) s A B n E f : moments N L -> (forall j, (j < n)%nat -> 0 < A j /\ 0 < B j) ->
  (forall j, (j < n)%nat -> (fst (E j) + snd (E j) <= N)%nat) ->
  (forall o g, valid_oracle o -> ends_with (m o s g) (drew (map (fun j => rbeta (A j) (B j)) (seq 0 n)) o g)) ->
  (forall s', length (v s') = n -> stick_image (v s') (w s') -> f (Ok (w s')) s' == prod n (fun j => mono (E j) (nth j (v s') 0))) ->
  mean_of L m s f (prod n (fun j => beta_moment (A j) (B j) (fst (E j)) (snd (E j)))).
Proof.
  intros ML HP HE HD Hf. set (rs := map (fun j => rbeta (A j) (B j)) (seq 0 n)) in *.
  assert (HR : Forall beta_pos rs) by (apply Forall_forall; intros r Hr; apply in_map_iff in Hr; destruct Hr as (j & <- & Hj); apply in_seq in Hj; apply rbeta_pos; apply HP; lia).
  eapply mean_eq; [apply (mean_independent N L ML m s f rs (map E (seq 0 n)) HR)|apply moments_prod_fun].
  - apply Forall_forall. intros e He. apply in_map_iff in He. destruct He as (j & <- & Hj). apply in_seq in Hj. apply HE. lia.
  - intros o g V. specialize (HD o g V). unfold ends_with in *. destruct (m o s g) as [[r s'] g']. destruct HD as (-> & Hg & Hv & Hw).
    split; [exact Hg|]. pose proof (beta_answers_length rs HR o g) as Hl. rewrite <- Hv in *. unfold rs in Hl. rewrite map_length, seq_length in Hl.
    rewrite Hf by assumption. rewrite <- Hl at 1 2. rewrite monos_prod. reflexivity.
Qed.

(* ---- the chance of labels ---- *)
Definition lab (i j : nat) : nat * nat := ((if Nat.eqb i j then 1 else 0), (if j <? i then 1 else 0))%nat.
Lemma weight_powers_lab vs ws i n : stick_image vs ws -> length vs = n -> (i < n)%nat -> nth i ws 0 == prod n (fun j => mono (lab i j) (nth j vs 0)).
Proof.
  intros (_ & H) Hl Hi. rewrite H by lia. clear H. revert i n Hl Hi. induction vs as [|x vs IH]; intros i n Hl Hi; [cbn in Hl; lia|]. destruct n; [discriminate|].
  rewrite prod_shift. cbn [nth]. destruct i.
  - cbn [nth firstn map]. rewrite (prod_ext n _ (fun _ => 1)); [rewrite prod_one; unfold mono, lab, qproduct; cbn; ring|]. intros j _. unfold mono, lab. cbn. ring.
  - cbn [nth firstn map]. unfold qproduct. cbn [fold_right]. fold (qproduct (map (fun x => 1 - x) (firstn i vs))).
    rewrite (prod_ext n _ (fun j => mono (lab i j) (nth j vs 0))) by (intros j _; reflexivity).
    rewrite <- IH by (cbn in Hl; lia). unfold mono, lab. cbn. ring.
Qed.
Lemma qpow_plus x a b : qpow x (a + b) == qpow x a * qpow x b.
Proof. induction a; cbn; [ring|]. rewrite IHa. ring. Qed.
Lemma mono_add e f x : mono (fst e + fst f, snd e + snd f)%nat x == mono e x * mono f x.
Proof. unfold mono. cbn [fst snd]. rewrite !qpow_plus. ring. Qed.
Definition counts (dd : list nat) (j : nat) : nat * nat := (n_eq j dd, n_gt j dd).
Lemma counts_cons i dd j : counts (i :: dd) j = (fst (lab i j) + fst (counts dd j), snd (lab i j) + snd (counts dd j))%nat.
Proof.
  unfold counts, lab, n_eq, n_gt. cbn [fst snd count_occ filter].
  destruct (Nat.eq_dec i j) as [->|Ne]; [rewrite Nat.eqb_refl|rewrite (proj2 (Nat.eqb_neq i j) Ne)]; destruct (j <? _)%nat; reflexivity.
Qed.
Lemma chance_powers dd r s n : r = Ok (w s) -> stick_image (v s) (w s) -> length (v s) = n -> Forall (fun i => (i < n)%nat) dd ->
  label_chance dd r s == prod n (fun j => mono (counts dd j) (nth j (v s) 0)).
Proof.
  intros -> HI Hl. unfold label_chance. induction dd as [|i dd IH]; intros HF.
  - cbn. rewrite (prod_ext n _ (fun _ => 1)); [rewrite prod_one; reflexivity|]. intros j _. unfold mono, counts. cbn. ring.
  - inversion HF; subst. cbn [map]. unfold qproduct in *. cbn [fold_right]. rewrite IH by assumption. cbn [weight].
    rewrite (weight_powers_lab (v s) (w s) i (length (v s)) HI eq_refl) by assumption. rewrite <- prod_mul.
    apply prod_ext. intros j _. rewrite counts_cons, mono_add. reflexivity.
Qed.
Lemma counts_le dd j : (fst (counts dd j) + snd (counts dd j) <= length dd)%nat.
Proof.
  induction dd as [|i dd IH]; [cbn; lia|]. rewrite counts_cons. unfold lab. cbn [fst snd length] in *.
  destruct (Nat.eqb_spec i j), (Nat.ltb_spec j i); lia.
Qed.

Lemma bayes_sticks N L prior s0 post s1 A B n dd es : moments N L -> (forall j, 0 < A j /\ 0 < B j) ->
  (forall o g, valid_oracle o -> ends_with (prior o s0 g) (drew (map (fun j => rbeta (A j) (B j)) (seq 0 n)) o g)) ->
  (forall o g, valid_oracle o -> ends_with (post o s1 g) (drew (map (fun j => rbeta (A j + nq (n_eq j dd)) (B j + nq (n_gt j dd))) (seq 0 n)) o g)) ->
  Forall (fun i => (i < n)%nat) dd -> Forall (fun e => (length dd + fst e + snd e <= N)%nat) es -> (length dd <= N)%nat ->
  bayes L prior s0 post s1 (label_chance dd) (stick_powers es).
Proof.
  intros ML HP H0 H1 HF HE HN. set (E := fun j => nth j es (0, 0)%nat).
  assert (EN : forall j, (length dd + (fst (E j) + snd (E j)) <= N)%nat).
  { intros j. unfold E. destruct (Nat.lt_ge_cases j (length es)) as [Hj|Hj].
    - rewrite Forall_forall in HE. specialize (HE _ (nth_In es (0, 0)%nat Hj)). lia.
    - rewrite nth_overflow by exact Hj. cbn. lia. }
  exists (prod n (fun j => beta_moment (A j) (B j) (n_eq j dd) (n_gt j dd))), (prod n (fun j => beta_moment (A j + nq (n_eq j dd)) (B j + nq (n_gt j dd)) (fst (E j)) (snd (E j)))).
  split; [apply prod_pos; intros j _; apply moment_pos; apply HP|]. split; [|split].
  - apply (drawn_powers N L prior s0 A B n (counts dd) _ ML); auto.
    + intros j _. pose proof (counts_le dd j). lia.
    + intros s' Hl HI. apply chance_powers; auto.
  - apply (drawn_powers N L post s1 _ _ n E _ ML); auto.
    + intros j _. pose proof (nq_nonneg (n_eq j dd)). pose proof (nq_nonneg (n_gt j dd)). destruct (HP j). split; lra.
    + intros j _. specialize (EN j). lia.
    + intros s' Hl HI. unfold stick_powers. rewrite powers_prod, Hl. reflexivity.
  - eapply mean_eq.
    + apply (drawn_powers N L prior s0 A B n (fun j => (n_eq j dd + fst (E j), n_gt j dd + snd (E j))%nat) _ ML); auto.
      * intros j _. specialize (EN j). pose proof (counts_le dd j) as C. unfold counts in C. cbn [fst snd] in *. lia.
      * intros s' Hl HI. rewrite (chance_powers dd (Ok (w s')) s' n) by auto. unfold stick_powers. rewrite powers_prod, Hl, <- prod_mul. apply prod_ext. intros j _.
        symmetry. apply (mono_add (counts dd j) (E j)).
    + rewrite <- prod_mul. apply prod_ext. intros j _. cbn [fst snd]. apply moment_split; apply HP.
Qed.

Lemma wp_drew {m : M ws (list Q)} s rs o g : wp o m (drawn s rs o g) s g -> ends_with (m o s g) (drew rs o g).
Proof. unfold wp, ends_with, drawn, drew. destruct (m o s g) as [[r s'] g']. intuition. Qed.
Lemma below dd n : (list_max dd < n)%nat -> Forall (fun i => (i < n)%nat) dd.
Proof. intros H. apply Forall_forall. intros i Hi. apply list_max_in in Hi. lia. Qed.
Lemma n_eq_above dd j : (list_max dd < j)%nat -> n_eq j dd = 0%nat.
Proof. intros H. unfold n_eq. apply count_occ_not_In. intros Hi. apply list_max_in in Hi. lia. Qed.
Lemma n_gt_above dd j : (list_max dd < j)%nat -> n_gt j dd = 0%nat.
Proof.
  intros H. unfold n_gt. replace (filter (fun x => j <? x)%nat dd) with (@nil nat); [reflexivity|]. symmetry.
  assert (F : forall i, In i dd -> (i < j)%nat) by (intros i Hi; apply list_max_in in Hi; lia). clear H. induction dd as [|i dd IH]; [reflexivity|]. cbn [filter].
  destruct (Nat.ltb_spec j i); [specialize (F i (or_introl eq_refl)); lia|]. apply IH. intros; apply F; right; assumption.
Qed.
Lemma rbeta_eq a b a' b' : a == a' -> b == b' -> rbeta a b = rbeta a' b'.
Proof. intros E F. unfold rbeta. rewrite (Qred_complete _ _ E), (Qred_complete _ _ F). reflexivity. Qed.
Lemma nq0 : nq 0 == 0. Proof. reflexivity. Qed.
Lemma split_requests (A B : nat -> Q) dd n : (list_max dd < n)%nat ->
  map (fun j => rbeta (A j + nq (n_eq j dd)) (B j + nq (n_gt j dd))) (seq 0 n) =
  map (fun j => rbeta (A j + nq (n_eq j dd)) (B j + nq (n_gt j dd))) (seq 0 (S (list_max dd))) ++ map (fun j => rbeta (A j) (B j)) (seq (S (list_max dd)) (n - S (list_max dd))).
Proof.
  intros H. replace n with (S (list_max dd) + (n - S (list_max dd)))%nat at 1 by lia. rewrite seq_app, map_app. apply f_equal. apply map_ext_in. intros j Hj. apply in_seq in Hj.
  rewrite n_eq_above, n_gt_above by lia. apply rbeta_eq; rewrite nq0; ring.
Qed.
Lemma map_const_seq {X} (x : X) : forall n b, map (fun _ => x) (seq b n) = repeat x n.
Proof. induction n; intros b; cbn; [reflexivity|]. rewrite IHn. reflexivity. Qed.


Lemma dp_bayes N L al n size s0 s1 es : moments N L -> 0 < al -> d s0 = [] -> d s1 <> [] -> (list_max (d s1) < n)%nat -> post_size (d s1) n size ->
  (length (d s1) <= N)%nat -> Forall (fun e => (length (d s1) + fst e + snd e <= N)%nat) es ->
  bayes L (wm_random (CDP al) (SInt (Z.of_nat n))) s0 (wm_random (CDP al) size) s1 (label_chance (d s1)) (stick_powers es).
Proof.
  intros ML Hal H0 H1 Hm Hs HN HE. apply (bayes_sticks N L _ s0 _ s1 (fun _ => 1) (fun _ => al) n (d s1) es ML); auto; [intros; split; lra| | |apply below; exact Hm].
  - intros o g _. apply (wp_drew s0). rewrite map_const_seq. apply c08_prior; auto. lia.
  - intros o g _. apply (wp_drew s1). rewrite (split_requests (fun _ => 1) (fun _ => al)) by exact Hm. destruct Hs as [(-> & ->)| ->].
    + rewrite Nat.sub_diag. cbn [seq map]. rewrite app_nil_r. apply c08_none; auto.
    + rewrite map_const_seq. pose proof (c08_some al n o s1 g H1 Hal ltac:(lia)) as X. rewrite Nat.min_r in X by lia. exact X.
Qed.
Lemma py_bayes N L pd al n size s0 s1 es : moments N L -> py_ok pd al -> d s0 = [] -> d s1 <> [] -> (list_max (d s1) < n)%nat -> post_size (d s1) n size ->
  (length (d s1) <= N)%nat -> Forall (fun e => (length (d s1) + fst e + snd e <= N)%nat) es ->
  bayes L (wm_random (CPY pd al) (SInt (Z.of_nat n))) s0 (wm_random (CPY pd al) size) s1 (label_chance (d s1)) (stick_powers es).
Proof.
  intros ML Hok H0 H1 Hm Hs HN HE. apply (bayes_sticks N L _ s0 _ s1 (fun _ => 1 - pd) (fun j => al + nq j * pd) n (d s1) es ML); auto; [| | |apply below; exact Hm].
  - destruct Hok as (A1 & A2 & A3). intros j. pose proof (nq_nonneg j). assert (0 <= nq j * pd) by (apply Qmult_le_0_compat; auto). split; lra.
  - intros o g _. apply (wp_drew s0). apply c09_prior; auto. lia.
  - intros o g _. apply (wp_drew s1). rewrite (split_requests (fun _ => 1 - pd) (fun j => al + nq j * pd)) by exact Hm. destruct Hs as [(-> & ->)| ->].
    + rewrite Nat.sub_diag. cbn [seq map]. rewrite app_nil_r. apply c09_none; auto.
    + pose proof (c09_some pd al n o s1 g H1 Hok ltac:(lia)) as X. rewrite Nat.min_r in X by lia. exact X.
Qed.
Lemma bib_bayes N L x al a b n size s0 s1 es : moments N L -> 0 < x -> x < 1 -> 0 < al -> 0 < a -> 0 < b -> 0 <= p s0 <= 1 -> p s1 = p s0 -> d s0 = [] -> d s1 <> [] -> (list_max (d s1) < n)%nat -> post_size (d s1) n size ->
  (length (d s1) <= N)%nat -> Forall (fun e => (length (d s1) + fst e + snd e <= N)%nat) es ->
  bayes L (wm_random (CBIB x al a b PStatic) (SInt (Z.of_nat n))) s0 (wm_random (CBIB x al a b PStatic) size) s1 (label_chance (d s1)) (stick_powers es).
Proof.
  intros ML Hx0 Hx1 Hal Ha Hb Hp Ep H0 H1 Hm Hs HN HE. assert (Hc : 0 < x / (1 - x)) by (apply Qlt_shift_div_l; lra).
  apply (bayes_sticks N L _ s0 _ s1 (fun _ => 1 + x / (1 - x) * p s0) (fun _ => al + x / (1 - x) * (1 - p s0)) n (d s1) es ML); auto; [| | |apply below; exact Hm].
  - intros _. assert (0 <= x / (1 - x) * p s0) by (apply Qmult_le_0_compat; lra). assert (0 <= x / (1 - x) * (1 - p s0)) by (apply Qmult_le_0_compat; lra). split; lra.
  - intros o g _. pose proof (c62_prior_proof x al a b PStatic n o s0 g Hx0 Hx1 Hal H0 Hp ltac:(lia)) as X. rewrite map_const_seq. unfold ends_with, drawn, drew, bib_prior in *.
    destruct (wm_random _ _ o s0 g) as [[r s'] g']. intuition.
  - intros o g V. pose proof (c62_fitted_proof x al a b PStatic size n o s1 g V Hx0 Hx1 Hal Ha Hb H1 ltac:(left; reflexivity) ltac:(rewrite Ep; exact Hp) ltac:(lia) Hs) as X.
    cbv zeta in X. change (p_requests PStatic a b (d s1)) with (@nil req) in X. unfold p_after in X. change (last (beta_answers o g []) (p s1)) with (p s1) in X.
    rewrite firstn_all2 in X by (unfold labels; rewrite seq_length; lia).
    set (post := map (bib_post x al (p s1) (d s1)) (labels (d s1))) in *. change (last (beta_answers o (g ++ [] ++ post) []) (p s1)) with (p s1) in X. cbn [app] in X.
    unfold ends_with, drew in *. destruct (wm_random _ _ o s1 g) as [[r s'] g']. destruct X as (Hr & Hg & Hv & _ & Hw).
    rewrite (split_requests (fun _ => 1 + x / (1 - x) * p s0) (fun _ => al + x / (1 - x) * (1 - p s0))) by exact Hm. rewrite map_const_seq.
    assert (EP : map (fun j => rbeta (1 + x / (1 - x) * p s0 + nq (n_eq j (d s1))) (al + x / (1 - x) * (1 - p s0) + nq (n_gt j (d s1)))) (seq 0 (S (list_max (d s1)))) = post) by (unfold post, bib_post, labels; rewrite Ep; reflexivity).
    rewrite EP. rewrite Ep in *. unfold bib_prior in *. rewrite app_nil_r in *. split; [exact Hr|]. split; [rewrite Hg, <- app_assoc; reflexivity|]. split; [|exact Hw]. rewrite Hv.
    assert (BA : forall rs1, Forall (fun r => exists a b, r = rbeta a b) rs1 -> forall rs2 g0, beta_answers o g0 rs1 ++ beta_answers o (g0 ++ rs1) rs2 = beta_answers o g0 (rs1 ++ rs2)).
    { induction 1 as [|r0 rs1 (a0 & b0 & ->) HH IH]; intros rs2 g0; [cbn; rewrite app_nil_r; reflexivity|]. cbn [app beta_answers rbeta]. unfold rbeta in *. cbn [beta_answers app]. rewrite <- IH, <- app_assoc. reflexivity. }
    rewrite ?app_nil_r. etransitivity; [apply BA|reflexivity]. apply Forall_forall. intros r0 Hr0. apply in_map_iff in Hr0. destruct Hr0 as (j & <- & _). eexists _, _. reflexivity.
Qed.

(* ---- GeometricProcess ---- *)
Lemma geom_chance dd r s n : r = Ok (w s) -> (forall j, (j < n)%nat -> nth j (w s) 0 == p s * qpow (1 - p s) j) -> Forall (fun i => (i < n)%nat) dd ->
  label_chance dd r s == mono (length dd, list_sum dd) (p s).
Proof.
  intros -> HW. unfold label_chance. induction dd as [|i dd IH]; intros HF; [unfold mono; cbn; ring|]. inversion HF; subst. cbn [map]. unfold qproduct in *. cbn [fold_right weight].
  rewrite IH, HW by assumption. unfold mono. cbn [fst snd length]. change (list_sum (i :: dd)) with (i + list_sum dd)%nat. rewrite qpow_plus. cbn [qpow]. ring.
Qed.
Lemma geom_bayes N L a b n size s0 s1 e f : moments N L -> 0 < a -> 0 < b -> d s0 = [] -> d s1 <> [] -> (list_max (d s1) < n)%nat -> post_size (d s1) n size ->
  (length (d s1) + list_sum (d s1) + e + f <= N)%nat ->
  bayes L (wm_random (CGeom a b) (SInt (Z.of_nat n))) s0 (wm_random (CGeom a b) size) s1 (label_chance (d s1)) (p_powers e f).
Proof.
  intros ML Ha Hb H0 H1 Hm Hs HN. set (dd := d s1) in *. pose proof (nq_nonneg (length dd)). pose proof (nq_nonneg (list_sum dd)).
  assert (G : forall s z E ff, (z = SNone /\ d s <> [] /\ n = S (list_max (d s)) \/ z = SInt (Z.of_nat n)) -> (fst E + snd E <= N)%nat ->
     (forall s', (forall j, (j < n)%nat -> nth j (w s') 0 == p s' * qpow (1 - p s') j) -> ff (Ok (w s')) s' == mono E (p s')) ->
     mean_of L (wm_random (CGeom a b) z) s ff (beta_moment (a + nq (length (d s))) (b + nq (list_sum (d s))) (fst E) (snd E))).
  { intros s z E ff Hz HE Hf. pose proof (nq_nonneg (length (d s))). pose proof (nq_nonneg (list_sum (d s))).
    set (rq := rbeta (a + nq (length (d s))) (b + nq (list_sum (d s)))). assert (P : beta_pos rq) by (apply rbeta_pos; lra).
    eapply mean_eq.
    - apply (mean_independent N L ML) with (rs := [rq]) (es := [E]); [constructor; [exact P|constructor]|constructor; [exact HE|constructor]|].
      intros o g _. pose proof (c10_gen a b z n o s g Ha Hb ltac:(lia) Hz) as X. unfold wp, geom_drawn in X. cbv zeta in X. unfold ends_with.
      destruct (wm_random _ _ o s g) as [[r s'] g']. destruct X as (-> & Hg & Hp & _ & _ & Hw). split; [exact Hg|]. fold rq in Hp. rewrite <- Hp. cbn [monos]. rewrite Hf by exact Hw. ring.
    - cbn [moments_prod]. unfold rq. rewrite req_moment_rbeta. ring. }
  exists (beta_moment a b (length dd) (list_sum dd)), (beta_moment (a + nq (length dd)) (b + nq (list_sum dd)) e f).
  split; [apply moment_pos; assumption|]. split; [|split].
  - eapply mean_eq; [apply (G s0 (SInt (Z.of_nat n)) (length dd, list_sum dd)); [right; reflexivity|cbn; lia|]|].
    + intros s' Hw. apply (geom_chance dd (Ok (w s')) s' n); auto. apply below; exact Hm.
    + rewrite H0. cbn [length list_sum fold_right fst snd]. rewrite nq0, !Qplus_0_r. reflexivity.
  - apply (G s1 size (e, f)); [destruct Hs as [(-> & ->)| ->]; auto|cbn; lia|]. intros s' _. reflexivity.
  - eapply mean_eq; [apply (G s0 (SInt (Z.of_nat n)) (length dd + e, list_sum dd + f)%nat); [right; reflexivity|cbn; lia|]|].
    + intros s' Hw. rewrite (geom_chance dd (Ok (w s')) s' n) by (auto; apply below; exact Hm). unfold p_powers. symmetry. apply (mono_add (length dd, list_sum dd) (e, f)).
    + rewrite H0. cbn [length list_sum fold_right fst snd]. rewrite nq0, !Qplus_0_r. apply moment_split; assumption.
Qed.

(* ---- DirichletDistribution ---- *)
Lemma plain_prod es : forall xs, plain_powers es xs == prod (length xs) (fun j => qpow (nth j xs 0) (nth j es 0%nat)).
Proof.
  induction es as [|e es IH]; intros xs.
  - destruct xs; cbn [plain_powers]; symmetry; erewrite prod_ext; try apply prod_one; intros j _; destruct j; cbn; ring.
  - destruct xs as [|x xs]; [reflexivity|]. cbn [length plain_powers]. rewrite prod_shift. cbn [nth]. rewrite IH. reflexivity.
Qed.
Lemma rises_prod : forall al es, length es = length al -> rises al es == prod (length al) (fun j => rising (nth j al 0) (nth j es 0%nat)).
Proof.
  induction al as [|a al IH]; intros [|e es] H; try discriminate; [reflexivity|]. cbn [length rises]. rewrite prod_shift. cbn [nth]. rewrite IH by (cbn in H; lia). reflexivity.
Qed.
Lemma dd_chance dd x s n : length x = n -> Forall (fun i => (i < n)%nat) dd ->
  label_chance dd (Ok x) s == prod n (fun j => qpow (nth j x 0) (n_eq j dd)).
Proof.
  intros Hl. unfold label_chance. induction dd as [|i dd IH]; intros HF.
  - cbn [map]. unfold qproduct. cbn [fold_right]. symmetry. rewrite (prod_ext n _ (fun _ => 1)); [apply prod_one|]. intros j _. reflexivity.
  - inversion HF; subst. cbn [map]. unfold qproduct in *. cbn [fold_right weight]. rewrite IH by assumption.
    assert (G : forall n i, (i < n)%nat -> forall f, f i == prod n (fun j => if Nat.eqb i j then f j else 1)).
    { clear. induction n; intros i Hi f; [lia|]. rewrite prod_S. destruct (Nat.eqb_spec i n) as [->|Ne].
      - rewrite (prod_ext n _ (fun _ => 1)); [rewrite prod_one; ring|]. intros j Hj. destruct (Nat.eqb_spec n j); [lia|reflexivity].
      - rewrite <- IHn by lia. ring. }
    rewrite (G (length x) i H1 (fun j => nth j x 0)). rewrite <- prod_mul. apply prod_ext. intros j _. unfold n_eq. cbn [count_occ].
    destruct (Nat.eq_dec i j) as [->|Ne]; [rewrite Nat.eqb_refl; cbn; ring|rewrite (proj2 (Nat.eqb_neq i j) Ne); ring].
Qed.
Lemma sum_add : forall (l : list nat) (f h : nat -> nat), list_sum (map (fun j => f j + h j)%nat l) = (list_sum (map f l) + list_sum (map h l))%nat.
Proof. induction l; intros; cbn; [reflexivity|]. change list_sum with (fold_right Nat.add 0%nat) in IHl. cbv beta. rewrite IHl. lia. Qed.
Lemma sum_counts dd : forall n, Forall (fun i => (i < n)%nat) dd -> list_sum (map (fun j => n_eq j dd) (seq 0 n)) = length dd.
Proof.
  induction dd as [|i dd IH]; intros n HF.
  - cbn. induction (seq 0 n); cbn; auto.
  - inversion HF; subst. rewrite (map_ext _ (fun j => (if Nat.eqb i j then 1 else 0) + n_eq j dd)%nat).
    + rewrite sum_add, IH by assumption. assert (G : forall n, list_sum (map (fun j => if Nat.eqb i j then 1 else 0)%nat (seq 0 n)) = if (i <? n)%nat then 1%nat else 0%nat).
      { clear. induction n; [reflexivity|]. rewrite seq_S, map_app, list_sum_app, IHn. unfold list_sum. cbn [map fold_right]. cbn [Nat.add]. destruct (Nat.eqb_spec i n), (Nat.ltb_spec i n), (Nat.ltb_spec i (S n)); lia. }
      rewrite G. destruct (Nat.ltb_spec i n); [reflexivity|lia].
    + intros j. unfold n_eq. cbn [count_occ]. destruct (Nat.eq_dec i j) as [->|Ne]; [rewrite Nat.eqb_refl; reflexivity|rewrite (proj2 (Nat.eqb_neq i j) Ne); reflexivity].
Qed.
Lemma sum_nth (es : list nat) : forall n, length es = n -> list_sum (map (fun j => nth j es 0%nat) (seq 0 n)) = list_sum es.
Proof. induction es as [|e es IH]; intros [|n] H; try discriminate; [reflexivity|]. cbn [seq map nth]. rewrite <- seq_shift, map_map. cbn. rewrite IH by (cbn in H; lia). reflexivity. Qed.
Lemma nth_map_seq {X} (f : nat -> X) x n j : (j < n)%nat -> nth j (map f (seq 0 n)) x = f j.
Proof. intros H. rewrite nth_indep with (d' := f 0%nat) by (rewrite map_length, seq_length; exact H). rewrite map_nth, seq_nth by exact H. reflexivity. Qed.

Lemma dd_bayes N L k al size0 size s0 s1 es : moments N L -> dir_moments N L -> pos al -> d s0 = [] -> d s1 <> [] -> (list_max (d s1) < length al)%nat ->
  length es = length al -> (length (d s1) + list_sum es <= N)%nat ->
  bayes L (wm_random (CDirDist k al) size0) s0 (wm_random (CDirDist k al) size) s1 (label_chance (d s1)) (weight_powers es).
Proof.
  intros ML DM P H0 H1 Hm He HN. set (dd := d s1) in *. set (n := length al) in *. pose proof (below dd n Hm) as HF.
  assert (Nal : al <> []) by (destruct al; [cbn in n; lia|discriminate]).
  set (cs := map (fun j => n_eq j dd) (seq 0 n)). set (post := map (fun j => nth j al 0 + nq (n_eq j dd)) (seq 0 n)).
  set (both := map (fun j => n_eq j dd + nth j es 0)%nat (seq 0 n)).
  assert (Pj : forall j, (j < n)%nat -> 0 < nth j al 0) by (intros j Hj; unfold pos in P; rewrite Forall_forall in P; apply P, nth_In; exact Hj).
  assert (PP : pos post). { unfold post, pos. apply Forall_forall. intros y Hy. apply in_map_iff in Hy. destruct Hy as (i & <- & Hi). apply in_seq in Hi. pose proof (nq_nonneg (n_eq i dd)). specialize (Pj i ltac:(lia)). lra. }
  assert (Sal : 0 < qsum al). { clear - P Nal. destruct P as [|x l Hx P]; [congruence|]. cbn. assert (0 <= qsum l) by (clear - P; induction P; cbn; lra). lra. }
  assert (Cs : list_sum cs = length dd) by (apply sum_counts; exact HF).
  assert (Bs : list_sum both = (length dd + list_sum es)%nat) by (unfold both; rewrite sum_add; fold cs; rewrite Cs, sum_nth by exact He; reflexivity).
  assert (Sp : qsum post == qsum al + nq (length dd)).
  { unfold post. rewrite qsum_map_add. apply Qplus_comp.
    - unfold n. clear. induction al as [|a al IH]; [reflexivity|]. cbn [length seq map qsum nth]. rewrite <- seq_shift, map_map. rewrite IH. reflexivity.
    - apply n_eq_total. rewrite Forall_forall in HF. exact HF. }
  assert (RE : forall bs es', length es' = length bs -> rises (map Qred bs) es' == rises bs es').
  { clear. induction bs as [|b bs IH]; intros [|e es'] H; try discriminate; [reflexivity|]. cbn [map rises]. rewrite IH by (cbn in H; lia). rewrite Qred_correct. reflexivity. }
  assert (EM : forall bs es', pos bs -> length bs = n -> length es' = n -> (list_sum es' <= N)%nat ->
    forall F, (forall x, length x = n -> F x == plain_powers es' x) -> e_dir L (map Qred bs) F == rises bs es' / rising (qsum bs) (list_sum es')).
  { intros bs es' Pb Lb Le Hb F HFx. rewrite (dir_ext N L ML (map Qred bs) F (plain_powers es')).
    - eapply Qeq_trans; [apply DM; [destruct bs; [cbn in Lb; lia|discriminate]|apply map_pos; exact Pb|rewrite map_length; lia|exact Hb]|]. rewrite RE by lia. rewrite qsum_red. reflexivity.
    - intros x (Hx & _). apply HFx. rewrite Hx, map_length. exact Lb. }
  assert (LP : length post = n) by (unfold post; rewrite map_length, seq_length; reflexivity).
  assert (LC : length cs = n) by (unfold cs; rewrite map_length, seq_length; reflexivity).
  assert (LB : length both = n) by (unfold both; rewrite map_length, seq_length; reflexivity).
  assert (CP : forall x, length x = n -> forall s, label_chance dd (Ok x) s == plain_powers cs x).
  { intros x Hx s. rewrite (dd_chance dd x s n Hx HF), plain_prod, Hx. apply prod_ext. intros j Hj. unfold cs. rewrite nth_map_seq by exact Hj. reflexivity. }
  assert (Rz : 0 < rising (qsum al) (length dd)) by (apply rising_pos; exact Sal).
  pose proof (nq_nonneg (length dd)) as Nd.
  assert (Rz2 : 0 < rising (qsum al + nq (length dd)) (list_sum es)) by (apply rising_pos; lra).
  exists (rises al cs / rising (qsum al) (length dd)), (rises post es / rising (qsum al + nq (length dd)) (list_sum es)).
  split; [|split; [|split]].
  - apply Qlt_shift_div_l; [exact Rz|]. rewrite Qmult_0_l, rises_prod by exact LC. apply prod_pos. intros j Hj. apply rising_pos, Pj, Hj.
  - apply dir_mean_of with (al := map Qred al) (F := fun x => label_chance dd (Ok x) s0).
    + intros o g V. eexists _, _. split; [apply c11_prior_proof; auto|reflexivity].
    + rewrite (EM al cs P eq_refl LC ltac:(lia)) by (intros; apply CP; assumption). rewrite Cs. reflexivity.
  - apply dir_mean_of with (al := map Qred post) (F := plain_powers es).
    + intros o g V. eexists _, _. split; [apply c11_proof; auto|reflexivity].
    + rewrite (EM post es PP LP He ltac:(lia)) by reflexivity. rewrite Sp. reflexivity.
  - apply dir_mean_of with (al := map Qred al) (F := fun x => label_chance dd (Ok x) s0 * plain_powers es x).
    + intros o g V. eexists _, _. split; [apply c11_prior_proof; auto|reflexivity].
    + rewrite (EM al both P eq_refl LB ltac:(lia)).
      * rewrite Bs, rising_add. rewrite !rises_prod by (auto; lia). rewrite LP. fold n.
        assert (X : prod n (fun j => rising (nth j al 0) (nth j both 0%nat)) == prod n (fun j => rising (nth j al 0) (nth j cs 0%nat)) * prod n (fun j => rising (nth j post 0) (nth j es 0%nat))).
        { rewrite <- prod_mul. apply prod_ext. intros j Hj. unfold both, cs, post. rewrite !nth_map_seq by exact Hj. apply rising_add. }
        rewrite X. field. split; lra.
      * intros x Hx. rewrite CP by exact Hx. rewrite !plain_prod, Hx, <- prod_mul. apply prod_ext. intros j Hj. unfold cs, both. rewrite !nth_map_seq by exact Hj. symmetry. apply qpow_plus.
Qed.
