(* C15, C16: BetaBernoulli. *)
From Coq Require Import Lqa.
From Verif Require Import Prelude Numpy Rng M_Weights S_Weights S_Hist S_Draws S_Oracle P_Lists P_Hoare P_Wp P_Complete P_Random P_Post.
Open Scope Q_scope.
Open Scope m_scope.

Lemma binom_draws_const o n q b : (forall g, o_binom o g n (Qred q) = b) ->
  forall k g, fst (binom_draws o n (repeat q k) g) = repeat b k.
Proof. intros H. induction k; intros g; simpl; [reflexivity|]. rewrite H, IHk. reflexivity. Qed.
Lemma ncumsum_ones k : forall a, ncumsum_from a (repeat 1%nat k) = seq (S a) k.
Proof. induction k; intros a; simpl; [reflexivity|]. rewrite IHk. replace (a + 1)%nat with (S a) by lia. reflexivity. Qed.
Lemma ncumsum_zeros k : forall a, ncumsum_from a (repeat 0%nat k) = repeat a k.
Proof. induction k; intros a; simpl; [reflexivity|]. rewrite Nat.add_0_r, IHk. reflexivity. Qed.
Lemma nth_error_mid {A} (pre l : list A) x : nth_error (pre ++ x :: l) (length pre) = Some x.
Proof. induction pre; simpl; auto. Qed.
Lemma gather_seq {A} (l pre : list A) : gather (pre ++ l) (seq (length pre) (length l)) = Some l.
Proof.
  revert pre. induction l as [|x l IH]; intros pre; [reflexivity|].
  cbn [length seq gather]. rewrite nth_error_mid.
  specialize (IH (pre ++ [x])). rewrite <- app_assoc in IH. simpl app in IH. rewrite app_length in IH. simpl length in IH.
  rewrite Nat.add_1_r in IH. rewrite IH. reflexivity.
Qed.
Lemma gather_zeros {A} (x : A) l k : gather (x :: l) (repeat 0%nat k) = Some (repeat x k).
Proof. induction k; simpl; [reflexivity|]. rewrite IHk. reflexivity. Qed.
Lemma nmax_seq a n : (0 < n)%nat -> nmax (seq a n) = (a + n - 1)%nat.
Proof.
  revert a. induction n as [|n IH]; intros a H; [lia|]. simpl. destruct n; [simpl; lia|]. rewrite IH by lia. lia.
Qed.
Lemma nmax_zeros n : nmax (repeat 0%nat n) = 0%nat.
Proof. induction n; simpl; auto. Qed.
Lemma last_seq a n x : (0 < n)%nat -> last (seq a n) x = (a + n - 1)%nat.
Proof.
  intros H. destruct n; [lia|]. replace (S n) with (n + 1)%nat by lia. rewrite seq_app; change (seq (a + n) 1) with [(a + n)%nat]; rewrite last_last. lia.
Qed.
Lemma last_repeat {A} (x y : A) n : (0 < n)%nat -> last (repeat x n) y = x.
Proof. intros H. induction n as [|n IH]; [lia|]. destruct n; [reflexivity|]. change (last (repeat x (S n)) y = x). apply IH; lia. Qed.

Lemma is_nil_seq a n : (0 < n)%nat -> is_nil (seq a n) = false.
Proof. destruct n; [lia|reflexivity]. Qed.
Lemma is_nil_repeat {A} (x : A) n : (0 < n)%nat -> is_nil (repeat x n) = false.
Proof. destruct n; [lia|reflexivity]. Qed.
Lemma wsum_at_seq x : forall a j, (a <= j < a + length x)%nat ->
  wsum_at j (seq a (length x)) x = nth (j - a) x 0%nat.
Proof.
  unfold wsum_at.
  assert (Z : forall x a j, (j < a)%nat -> nsum (map (fun mw : nat * nat => if Nat.eqb (fst mw) j then snd mw else 0%nat) (combine (seq a (length x)) x)) = 0%nat).
  { induction x0 as [|y x0 IH]; intros a j H; simpl; [reflexivity|]. destruct (Nat.eqb_spec a j); [lia|]. rewrite IH; lia. }
  induction x as [|y x IH]; intros a j H; simpl in *; [lia|]. destruct (Nat.eqb_spec a j).
  - subst. rewrite Z by lia. rewrite Nat.sub_diag. lia.
  - rewrite IH by lia. replace (j - a)%nat with (S (j - S a)) by lia. reflexivity.
Qed.
Lemma map_nth_seq (x : list nat) : map (fun j => nth j x 0%nat) (seq 0 (length x)) = x.
Proof.
  apply nth_ext with (d := 0%nat) (d' := 0%nat); rewrite map_length, seq_length; auto.
  intros n Hn. rewrite nth_indep with (d' := nth 0 x 0%nat) by (rewrite map_length, seq_length; auto).
  rewrite (map_nth (fun j => nth j x 0%nat)), seq_nth by auto. reflexivity.
Qed.
Lemma wbincount_seq x : x <> [] -> wbincount (seq 0 (length x)) x = x.
Proof.
  intros H. unfold wbincount. destruct (seq 0 (length x)) eqn:E.
  { destruct x; [congruence|discriminate]. }
  rewrite <- E. rewrite nmax_seq by (destruct x; [congruence|simpl; lia]).
  replace (S (0 + length x - 1)) with (length x) by (destruct x; [congruence|simpl; lia]).
  transitivity (map (fun j => nth j x 0%nat) (seq 0 (length x))); [|apply map_nth_seq]. apply map_ext_in. intros j Hj. apply in_seq in Hj.
  rewrite wsum_at_seq by lia. rewrite Nat.sub_0_r; reflexivity.
Qed.
Lemma wbincount_zeros x : x <> [] -> wbincount (repeat 0%nat (length x)) x = [nsum x].
Proof.
  intros H. unfold wbincount. destruct (repeat 0%nat (length x)) eqn:E; [destruct x; [congruence|discriminate]|].
  rewrite <- E, nmax_zeros. simpl. f_equal. unfold wsum_at. clear. induction x; simpl; auto.
Qed.
Lemma sum_n_gt dd : forall M, (nmax dd <= S M)%nat -> nsum (map (fun j => n_gt j dd) (seq 0 (S M))) = nsum dd.
Proof.
  induction dd as [|x t IH]; intros M H.
  - simpl. generalize (seq 1 M). induction l; simpl; auto.
  - cbn [nmax] in H. rewrite (map_ext _ (fun j => ((if Nat.ltb j x then 1 else 0) + n_gt j t)%nat)) by (intros; apply n_gt_cons).
    rewrite nsum_map_add, IH by lia. cbn [nsum]. f_equal.
    assert (E : forall n a, nsum (map (fun j => if Nat.ltb j x then 1%nat else 0%nat) (seq a n)) = (Nat.min (a + n) x - a)%nat).
    { induction n; intros a; simpl; [lia|]. rewrite IHn. destruct (Nat.ltb_spec a x); lia. }
    rewrite E. lia.
Qed.
Lemma nsum_tail dd : dd <> [] -> nsum (tail_counts (bincount dd)) = nsum dd.
Proof. intros H. rewrite tail_counts_eq by assumption. apply sum_n_gt. lia. Qed.

Lemma zfact_pos n : (0 < zfact n)%Z.
Proof. induction n; cbn [zfact]; nia. Qed.
Lemma betaf_pos a b : (0 < a)%nat -> (0 < b)%nat -> exists q, betaf a b = XFin q /\ 0 < q.
Proof.
  intros Ha Hb. destruct a, b; try lia. eexists. split; [reflexivity|].
  apply Qlt_shift_div_l.
  - unfold zq. change 0 with (inject_Z 0). rewrite <- Zlt_Qlt. apply zfact_pos.
  - rewrite Qmult_0_l. unfold zq. change 0 with (inject_Z 0). rewrite <- Zlt_Qlt.
    pose proof (zfact_pos a). pose proof (zfact_pos b). nia.
Qed.
Lemma betaf_cases a b : betaf a b = XInf \/ exists q, betaf a b = XFin q /\ 0 < q.
Proof. destruct a, b; auto. right. apply betaf_pos; lia. Qed.

Lemma prob_okI q : 0 <= q -> q <= 1 -> prob_ok q = true.
Proof. intros. unfold prob_ok. apply andb_true_iff. split; apply Qle_bool_iff; assumption. Qed.

Lemma nset_same {A} j (y dflt : A) l : (j < length l)%nat -> nth j l dflt = y -> nset j y l = l.
Proof.
  revert j. induction l as [|x l IH]; intros j Hj Hn; simpl in *; [lia|].
  destruct j; unfold nset; simpl in *; [subst; reflexivity|]. f_equal. apply (IH j); [lia|assumption].
Qed.
Lemma nth_repeat' {A} (x y : A) n j : (j < n)%nat -> nth j (repeat x n) y = x.
Proof. intros H. revert j H. induction n; intros j H; [lia|]. destruct j; simpl; auto. apply IHn; lia. Qed.
Lemma skipn_repeat {A} (x : A) n k : skipn k (repeat x n) = repeat x (n - k).
Proof. revert k. induction n; intros [|k]; simpl; auto. Qed.

(* --- p = 1 --- *)
Lemma bb_prob_one q al m ac bc j : q == 1 -> (j < m)%nat -> length ac = S m -> length bc = S m ->
  exists r, bb_prob q al (0%nat :: repeat 1%nat m) ac bc j = XFin r /\ r == 1.
Proof.
  intros Hq Hj La Lb. unfold bb_prob. change (skipn (S j) (0%nat :: repeat 1%nat m)) with (skipn j (repeat 1%nat m)). rewrite skipn_repeat.
  destruct (m - j)%nat as [|e] eqn:E; [lia|].
  destruct (skipn (S j) ac) as [|x xs] eqn:Ex. { apply (f_equal (@length nat)) in Ex. rewrite skipn_length in Ex. simpl in Ex. lia. }
  destruct (skipn (S j) bc) as [|y ys] eqn:Ey. { apply (f_equal (@length nat)) in Ey. rewrite skipn_length in Ey. simpl in Ey. lia. }
  cbn [repeat bb_up Nat.eqb].
  cbv beta iota. match goal with |- context [bb_down ?a ?b ?c ?e ?f] => destruct (bb_down a b c e f) as [a2 b2] end.
  assert (F : qltb q 1 = false) by (apply qltb_ge; lra). assert (T : qltb 0 q = true) by (apply qltb_lt; lra).
  rewrite F, T. cbn [xscale xadd xdiv].
  assert (N : Qeq_bool (q * 1 + 0) 0 = false).
  { destruct (Qeq_bool _ _) eqn:Z; [|reflexivity]. apply Qeq_bool_iff in Z. lra. }
  rewrite N. eexists. split; [reflexivity|]. rewrite Hq. reflexivity.
Qed.

Lemma wp_bernoulli_const o q c b (P : post ws nat) s g : valid_oracle o -> (c = 0 \/ c = 1) -> q == c ->
  b = Z.to_nat (if Qeq_bool c 0 then 0 else 1) ->
  P (Ok b) s (g ++ [rbinom 1 c]) -> wp o (bernoulli_x (XFin q)) P s g.
Proof.
  intros V Hc Hq Hb HP. unfold bernoulli_x. apply wp_bind, wp_binom1.
  - intros _. apply wp_ret. unfold rbinom. rewrite (Qred_complete _ _ Hq).
    replace (o_binom o g 1 (Qred c)) with (if Qeq_bool c 0 then 0 else 1)%Z; [rewrite <- Hb; exact HP|].
    destruct Hc as [-> | ->]; simpl.
    + symmetry. apply (vo_binom0 o V); [lia|reflexivity].
    + symmetry. apply (vo_binom1 o V); [lia|reflexivity].
  - intros F. exfalso. rewrite prob_okI in F; [discriminate|..]; destruct Hc as [-> | ->]; lra.
Qed.

Lemma bb_loop_one o q al m ac bc s : valid_oracle o -> q == 1 -> length ac = S m -> length bc = S m ->
  forall js g, Forall (fun j => 0 < j < m)%nat js ->
  wp o (bb_loop q al ac bc js (0%nat :: repeat 1%nat m)) (fun r s' g' =>
    r = Ok (0%nat :: repeat 1%nat m) /\ s' = s /\ g' = g ++ repeat (rbinom 1 1) (length js)) s g.
Proof.
  intros V Hq La Lb. induction js as [|j js IH]; intros g Hf; cbn [bb_loop length repeat].
  - wpure. rewrite app_nil_r; auto.
  - inversion Hf as [|? ? Hj Hf']; subst. destruct (bb_prob_one q al m ac bc j Hq ltac:(lia) La Lb) as (r & -> & Hr).
    apply wp_bind. apply (wp_bernoulli_const o r 1 1%nat _ _ _ V (or_intror eq_refl) Hr eq_refl).
    rewrite (nset_same j 1%nat 0%nat); [|simpl; rewrite repeat_length; lia|].
    + eapply wp_mono; [apply IH; exact Hf'|]. cbv beta. intros r0 s' g' (A & B & C). rewrite C, <- app_assoc. auto.
    + destruct j; [lia|]. simpl. apply nth_repeat'. lia.
Qed.

(* --- p = 0 --- *)
Lemma bb_prob_zero q al bs ac bc j : q == 0 -> 0 < al -> exists r, bb_prob q al bs ac bc j = XFin r /\ r == 0.
Proof.
  intros Hq Hal. unfold bb_prob. match goal with |- context [bb_up ?a ?b ?c ?e ?f ?h ?i] => destruct (bb_up a b c e f h i) as [[a1 b1] gp] end.
  cbv beta iota. match goal with |- context [bb_down ?a ?b ?c ?e ?f] => destruct (bb_down a b c e f) as [a2 b2] end.
  assert (F : qltb 0 q = false) by (apply qltb_ge; lra). assert (T : qltb q 1 = true) by (apply qltb_lt; lra).
  rewrite F, T. destruct (betaf_cases a2 b2) as [-> | (x & -> & Hx)]; cbn [xscale xadd xdiv].
  - exists 0. split; reflexivity.
  - assert (P : 0 < (1 - q) * (al * x)).
    { setoid_replace ((1 - q) * (al * x)) with (al * x) by (rewrite Hq; ring). nra. }
    assert (N : Qeq_bool (0 + (1 - q) * (al * x)) 0 = false).
    { destruct (Qeq_bool _ _) eqn:Z; [|reflexivity]. apply Qeq_bool_iff in Z. lra. }
    rewrite N. eexists. split; [reflexivity|]. unfold Qdiv. ring.
Qed.
Lemma bb_loop_zero o q al n ac bc s : valid_oracle o -> q == 0 -> 0 < al ->
  forall js g, Forall (fun j => j < n)%nat js ->
  wp o (bb_loop q al ac bc js (repeat 0%nat n)) (fun r s' g' =>
    r = Ok (repeat 0%nat n) /\ s' = s /\ g' = g ++ repeat (rbinom 1 0) (length js)) s g.
Proof.
  intros V Hq Hal. induction js as [|j js IH]; intros g Hf; cbn [bb_loop length repeat].
  - wpure. rewrite app_nil_r; auto.
  - inversion Hf as [|? ? Hj Hf']; subst. destruct (bb_prob_zero q al (repeat 0%nat n) ac bc j Hq Hal) as (r & -> & Hr).
    apply wp_bind. apply (wp_bernoulli_const o r 0 0%nat _ _ _ V (or_introl eq_refl) Hr eq_refl).
    rewrite (nset_same j 0%nat 0%nat); [|rewrite repeat_length; lia|apply nth_repeat'; lia].
    eapply wp_mono; [apply IH; exact Hf'|]. cbv beta. intros r0 s' g' (A & B & C). rewrite C, <- app_assoc. auto.
Qed.

(* proposals when p is 0 or 1 *)
Lemma wp_binom_rep_const o q c k (P : post ws (list Z)) s g : valid_oracle o -> (c = 0 \/ c = 1) -> q == c ->
  P (Ok (repeat (if Qeq_bool c 0 then 0 else 1)%Z k)) s (g ++ repeat (rbinom 1 c) k) -> wp o (binom_rep 1 q k) P s g.
Proof.
  intros V Hc Hq HP. apply wp_binom_rep.
  - intros _. rewrite (binom_draws_const o 1 q (if Qeq_bool c 0 then 0 else 1)%Z).
    + replace (rbinom 1 q) with (rbinom 1 c) by (unfold rbinom; rewrite (Qred_complete _ _ Hq); reflexivity). exact HP.
    + intros g0. rewrite (Qred_complete _ _ Hq). destruct Hc as [-> | ->]; simpl.
      * apply (vo_binom0 o V); [lia|reflexivity].
      * apply (vo_binom1 o V); [lia|reflexivity].
  - intros F. exfalso. rewrite prob_okI in F; [discriminate|..]; destruct Hc as [-> | ->]; lra.
Qed.

Definition unit_bern (c : Q) (n : nat) : list nat := repeat (if Qeq_bool c 0 then 0%nat else 1%nat) n.
Lemma map_unit_bern c n : map Z.to_nat (repeat (if Qeq_bool c 0 then 0 else 1)%Z n) = unit_bern c n.
Proof. unfold unit_bern. rewrite map_repeat. destruct (Qeq_bool c 0); reflexivity. Qed.

Lemma seq_inner m : Forall (fun j => 0 < j < m)%nat (seq 1 (m - 1)).
Proof. apply Forall_forall. intros j Hj. apply in_seq in Hj. lia. Qed.

(* indicators drawn by random *)
Lemma bb_bern_const o q al c n s g : valid_oracle o -> (c = 0 \/ c = 1) -> q == c -> 0 < al -> bern s <> [] -> (0 < n)%nat ->
  (d s <> [] -> n = S (nmax (d s))) ->
  wp o (bb_random_bernoullis q al n) (fun r s' g' =>
    r = Ok tt /\ w s' = w s /\ d s' = d s /\ v s' = v s /\
    bern s' = (match d s with [] => unit_bern c n | _ => 0%nat :: unit_bern c (n - 1) end) /\
    g' = g ++ repeat (rbinom 1 c) (n + match d s with [] => 0 | _ => n - 2 end)) s g.
Proof.
  intros V Hc Hq Hal Hb Hn0 Hn. unfold bb_random_bernoullis. apply wp_bind.
  apply (wp_binom_rep_const o q c n _ _ _ V Hc Hq). wpure. rewrite (snil _ Hb). wpure. rewrite map_unit_bern.
  destruct (d s) as [|x t] eqn:Ed; cbn [is_nil].
  - wpure. cbn. rewrite Nat.add_0_r. repeat split; auto.
  - rewrite <- Ed in *. assert (Hd : d s <> []) by congruence. specialize (Hn Hd).
    assert (E0 : nset 0 0%nat (unit_bern c n) = 0%nat :: unit_bern c (n - 1)).
    { unfold unit_bern. rewrite Hn. replace (S (nmax (d s)) - 1)%nat with (nmax (d s)) by lia. reflexivity. }
    rewrite E0. 
    assert (La : length (bincount (d s)) = S (nmax (d s))) by (apply bincount_length; assumption).
    assert (Lb : length (tail_counts (bincount (d s))) = S (nmax (d s))) by (rewrite tail_counts_length; auto using bincount_nonnil).
    eapply (wp_call _ _ _ (fun r s' g' => r = Ok (0%nat :: unit_bern c (n - 1)) /\ s' = set_bern (nset 0 1%nat (bern s)) s /\
       g' = (g ++ repeat (rbinom 1 c) n) ++ repeat (rbinom 1 c) (n - 2))).
    + destruct Hc as [-> | ->].
      * change (0%nat :: unit_bern 0 (n - 1)) with (repeat 0%nat (S (n - 1))).
        eapply wp_mono; [apply (bb_loop_zero o q al (S (n - 1)) _ _ (set_bern (nset 0 1%nat (bern s)) s) V Hq Hal)|].
        -- apply Forall_forall. intros j Hj. apply in_seq in Hj. lia.
        -- cbv beta. intros r s' g' (A & B & C). rewrite seq_length in C. replace (n - 2)%nat with (nmax (d s) - 1)%nat by lia. auto.
      * change (unit_bern 1 (n - 1)) with (repeat 1%nat (n - 1)). replace (n - 1)%nat with (nmax (d s)) by lia.
        eapply wp_mono; [apply (bb_loop_one o q al (nmax (d s)) _ _ (set_bern (nset 0 1%nat (bern s)) s) V Hq La Lb); apply seq_inner|].
        cbv beta. intros r s' g' (A & B & C). rewrite seq_length in C. replace (n - 2)%nat with (nmax (d s) - 1)%nat by lia. auto.
    + cbv beta. intros a s' g' (A & B & C). injection A as ->. wpure. cbn. subst s'. cbn.
      repeat split; auto. rewrite C, <- app_assoc, repeat_app. reflexivity.
    + intros e s' g' (A & _); discriminate.
    + intros s' g' (A & _); discriminate.
Qed.

Definition stick_ok (s' : ws) := stick_image (v s') (w s').

Lemma repeat_breq a b n : repeat (rbeta a b) n = map breq (repeat (a, b) n).
Proof. rewrite map_repeat. reflexivity. Qed.

Lemma c15_p1_prior q al k o s g : valid_oracle o -> q == 1 -> 0 < al -> d s = [] -> bern s <> [] -> (0 < k)%nat ->
  let g1 := g ++ repeat (rbinom 1 1) k in
  let rs := repeat (rbeta 1 al) (S k) in
  ends_with (wm_random (CBB q al) (SInt (Z.of_nat k)) o s g) (fun r s' g' =>
    r = Ok (w s') /\ g' = g1 ++ rs /\ v s' = tl (beta_answers o g1 rs) /\ stick_image (v s') (w s')).
Proof.
  intros V Hq Hal Hd Hb Hk g1 rs.
  change (wp o (bb_random q al (SInt (Z.of_nat k))) (fun r s' g' =>
    r = Ok (w s') /\ g' = g1 ++ rs /\ v s' = tl (beta_answers o g1 rs) /\ stick_image (v s') (w s')) s g).
  unfold bb_random. wpure. rewrite Hd. cbn [is_snone is_nil andb]. wpure. eapply wp_int; [reflexivity|].
  destruct (Z.ltb_spec (Z.of_nat k) 0); [lia|]. rewrite Nat2Z.id.
  eapply wp_call; [apply (bb_bern_const o q al 1 k (set_v [] s) g V (or_intror eq_refl) Hq Hal Hb Hk)|..]; cbv beta.
  - simpl. congruence.
  - cbn [d set_v]. rewrite Hd. intros [] s1 h1 (_ & A1 & A2 & A3 & A4 & A5). wpure. rewrite A4.
    unfold unit_bern. change (Qeq_bool 1 0) with false. cbv iota. unfold ncumsum. rewrite ncumsum_ones.
    rewrite is_nil_seq by (lia || (unfold e; lia)).
    rewrite last_seq by assumption. apply wp_bind. apply wp_beta_rep_ok; [reflexivity|assumption|]. wpure.
    replace (1 + k - 1 + 1)%nat with (S k) by lia.
    assert (Eh : h1 = g1) by (rewrite A5, Nat.add_0_r; reflexivity). rewrite Eh. fold rs.
    change (repeat (rbeta 1 al) (S k)) with rs.
    assert (L : length (beta_answers o g1 rs) = S k).
    { unfold rs. rewrite repeat_breq, answers_len, repeat_length. reflexivity. }
    destruct (beta_answers o g1 rs) as [|x xs] eqn:Ea; [discriminate|]. simpl in L. injection L as L.
    assert (G : gather (x :: xs) (seq 1 k) = Some xs).
    { rewrite <- L. apply (gather_seq xs [x]). }
    rewrite G. wpure. cbn [w v refresh_w set_v set_w]. repeat split; auto.
    + apply stick_length. + intros j Hj. apply stick_image_stick. exact Hj.
  - intros e s1 h1 (A & _); discriminate.
  - intros s1 h1 (A & _); discriminate.
Qed.

(* extension by complete when p is 0 or 1 *)
Lemma bb_complete_one o q al k s g : valid_oracle o -> q == 1 -> 0 < al -> v s <> [] -> w s = stick (v s) ->
  let e := (k - length (v s))%nat in
  let g1 := g ++ repeat (rbinom 1 1) e in
  wp o (bb_complete q al (SInt (Z.of_nat k))) (fun r s' g' =>
    r = Ok (w s') /\ g' = g1 ++ repeat (rbeta 1 al) e /\ d s' = d s /\
    v s' = v s ++ beta_answers o g1 (repeat (rbeta 1 al) e) /\ w s' = stick (v s')) s g.
Proof.
  intros V Hq Hal Hv Hw e g1. unfold bb_complete. apply wp_bind. cbn [base_complete_check]. wpure.
  eapply wp_int; [reflexivity|]. wpure.
  destruct (Z.ltb_spec (Z.of_nat (length (v s))) (Z.of_nat k)) as [H|H].
  - rewrite (snil _ Hv). wpure. apply wp_bind. apply (wp_binom_rep_const o q 1 _ _ _ _ V (or_intror eq_refl) Hq).
    replace (Z.to_nat (Z.of_nat k - Z.of_nat (length (v s)))) with e by (unfold e; lia).
    wpure. rewrite map_unit_bern. unfold unit_bern. change (Qeq_bool 1 0) with false. cbv iota.
    unfold ncumsum. rewrite ncumsum_ones. rewrite is_nil_seq by (lia || (unfold e; lia)). rewrite last_seq by (unfold e; lia). replace (1 + e - 1)%nat with e by lia.
    apply wp_bind. apply wp_beta_rep_ok; [reflexivity|assumption|]. fold g1.
    set (xs := beta_answers o g1 (repeat (rbeta 1 al) e)).
    assert (L : length xs = e) by (unfold xs; rewrite repeat_breq, answers_len, repeat_length; reflexivity).
    assert (G : gather (last (v s) 0 :: xs) (seq 1 e) = Some xs) by (rewrite <- L; apply (gather_seq xs [last (v s) 0])).
    rewrite G. wpure. cbn. repeat split; reflexivity.
  - wpure. assert (E : e = 0%nat) by (unfold e; lia). unfold g1. rewrite E. cbn. rewrite !app_nil_r. repeat split; auto.
Qed.
Lemma last_in01_irrel (l : list Q) : l <> [] -> exists i x, l = i ++ [x].
Proof. intros H. exists (removelast l), (last l 0). apply app_removelast_last; assumption. Qed.
Lemma bb_complete_zero o q al k s g x n : valid_oracle o -> q == 0 -> 0 < al -> v s = repeat x (S n) -> w s = stick (v s) ->
  let e := (k - S n)%nat in
  wp o (bb_complete q al (SInt (Z.of_nat k))) (fun r s' g' =>
    r = Ok (w s') /\ g' = g ++ repeat (rbinom 1 0) e /\ d s' = d s /\
    v s' = repeat x (Nat.max (S n) k) /\ w s' = stick (v s')) s g.
Proof.
  intros V Hq Hal Hv Hw e. assert (Lv : length (v s) = S n) by (rewrite Hv; apply repeat_length).
  unfold bb_complete. apply wp_bind. cbn [base_complete_check]. wpure.
  eapply wp_int; [reflexivity|]. wpure. rewrite Lv.
  destruct (Z.ltb_spec (Z.of_nat (S n)) (Z.of_nat k)) as [H|H].
  - assert (Nv : is_nil (v s) = false) by (rewrite Hv; reflexivity). rewrite Nv. wpure. apply wp_bind. rewrite Lv.
    apply (wp_binom_rep_const o q 0 _ _ _ _ V (or_introl eq_refl) Hq).
    replace (Z.to_nat (Z.of_nat k - Z.of_nat (S n))) with e by (unfold e; lia).
    wpure. rewrite map_unit_bern. unfold unit_bern. change (Qeq_bool 0 0) with true. cbv iota.
    unfold ncumsum. rewrite ncumsum_zeros. rewrite is_nil_repeat by (lia || (unfold e; lia)). rewrite last_repeat by (unfold e; lia).
    apply wp_bind. apply wp_beta_rep_ok; [reflexivity|assumption|]. cbn [repeat beta_answers].
    rewrite gather_zeros. wpure. cbn [w v refresh_w set_v set_w d set_bern].
    rewrite app_nil_r. repeat split; auto. rewrite Hv. rewrite last_repeat by lia. rewrite <- repeat_app. f_equal. unfold e. lia.
  - wpure. assert (E : e = 0%nat) by (unfold e; lia). rewrite E. cbn [repeat]. rewrite !app_nil_r.
    replace (Nat.max (S n) k) with (S n) by lia. repeat split; auto.
Qed.

Lemma bb_size_eq size k (dd : list nat) : (size = SNone /\ k = 1%nat \/ size = SInt (Z.of_nat k)) ->
  dd <> [] -> is_snone size && is_nil dd = false /\ (if is_snone size then SInt 1 else size) = SInt (Z.of_nat k).
Proof. intros [[-> ->]| ->] H; rewrite (snil _ H); auto. Qed.

Lemma c15_p1_fit q al size k o s g : valid_oracle o -> q == 1 -> 0 < al -> d s <> [] -> bern s <> [] ->
  (size = SNone /\ k = 1%nat \/ size = SInt (Z.of_nat k)) ->
  let m := list_max (d s) in
  let e := (k - S m)%nat in
  let g1 := g ++ repeat (rbinom 1 1) (S m + (m - 1)) in
  let post := map (dp_post al (d s)) (labels (d s)) in
  let g2 := g1 ++ post ++ repeat (rbinom 1 1) e in
  let ext := repeat (rbeta 1 al) e in
  ends_with (wm_random (CBB q al) size o s g) (fun r s' g' =>
    r = Ok (w s') /\ g' = g2 ++ ext /\ d s' = d s /\
    v s' = beta_answers o g1 post ++ beta_answers o g2 ext /\ stick_image (v s') (w s')).
Proof.
  intros V Hq Hal Hd Hb Hz m e g1 post g2 ext.
  destruct (bb_size_eq size k (d s) Hz Hd) as [Ez1 Ez2].
  change (wp o (bb_random q al size) (fun r s' g' =>
    r = Ok (w s') /\ g' = g2 ++ ext /\ d s' = d s /\
    v s' = beta_answers o g1 post ++ beta_answers o g2 ext /\ stick_image (v s') (w s')) s g).
  unfold bb_random. wpure. rewrite Ez1, Ez2, (snil _ Hd). wpure.
  assert (Hm : nmax (d s) = m) by reflexivity.
  eapply wp_call; [apply (bb_bern_const o q al 1 (S (nmax (d s))) (set_v [] s) g V (or_intror eq_refl) Hq Hal Hb ltac:(lia) (fun _ => eq_refl))|..]; cbv beta.
  - intros [] s1 h1 (_ & A1 & A2 & A3 & A4 & A5). cbn [d set_v] in *.
    assert (Md : forall A (a b : A), (match d s with [] => a | _ :: _ => b end) = b) by (intros; destruct (d s); [congruence|reflexivity]).
    rewrite Md in A4, A5. wpure. rewrite A4.
    replace (S (nmax (d s)) - 1)%nat with m by lia. unfold unit_bern. change (Qeq_bool 1 0) with false. cbv iota.
    assert (Em : ncumsum (0%nat :: repeat 1%nat m) = seq 0 (S m)).
    { unfold ncumsum. cbn [ncumsum_from Nat.add]. rewrite ncumsum_ones. reflexivity. }
    rewrite Em.
    assert (La : length (bincount (d s)) = S m) by (rewrite bincount_length; auto).
    assert (Lb : length (tail_counts (bincount (d s))) = S m) by (rewrite tail_counts_length; auto using bincount_nonnil).
    assert (Wa : wbincount (seq 0 (S m)) (bincount (d s)) = bincount (d s)) by (rewrite <- La; apply wbincount_seq, bincount_nonnil; assumption).
    assert (Wb : wbincount (seq 0 (S m)) (tail_counts (bincount (d s))) = tail_counts (bincount (d s))).
    { rewrite <- Lb. apply wbincount_seq. intros F. rewrite F in Lb. discriminate. }
    rewrite Wa, Wb, (dp_pairs al (d s) Hd). apply wp_bind.
    apply wp_beta_many_ok; [apply dp_pair_pos; assumption|].
    assert (Eh : h1 = g1) by (rewrite A5; unfold g1; rewrite Hm; do 3 f_equal; lia). rewrite Eh.
    assert (Ep : map breq (map (dp_pair al (d s)) (labels (d s))) = post) by (rewrite map_map; reflexivity). rewrite !Ep. wpure.
    assert (Lx : length (beta_answers o g1 post) = S m).
    { rewrite <- Ep, answers_len, map_length, labels_length. reflexivity. }
    assert (G : gather (beta_answers o g1 post) (seq 0 (S m)) = Some (beta_answers o g1 post)) by (rewrite <- Lx; apply (gather_seq _ [])).
    rewrite G. wpure.
    match goal with |- wp _ _ _ ?s2 ?g3 => set (s3 := s2); set (g4 := g3) end.
    eapply wp_call; [apply (bb_complete_one o q al k s3 g4 V Hq Hal); [|reflexivity]|..]; cbv beta.
    + change (v s3) with (beta_answers o g1 post). intros F. rewrite F in Lx; discriminate.
    + change (v s3) with (beta_answers o g1 post). change (d s3) with (d s1). rewrite Lx, A2.
      intros a s' g' (B1 & B2 & B3 & B4 & B5). wpure. fold e in B2, B4.
      assert (Eg : g4 ++ repeat (rbinom 1 1) e = g2) by (unfold g2, g4; rewrite app_assoc; reflexivity).
      rewrite Eg in B2, B4. repeat split; auto. { rewrite B5; apply stick_length. } rewrite B5. apply stick_image_stick.
    + intros er s' g' (F & _); discriminate.
    + intros s' g' (F & _); discriminate.
  - intros er s' g' (F & _); discriminate.
  - intros s' g' (F & _); discriminate.
Qed.

Lemma c15_p0_prior q al k o s g : valid_oracle o -> q == 0 -> 0 < al -> d s = [] -> bern s <> [] -> (0 < k)%nat ->
  let g1 := g ++ repeat (rbinom 1 0) k in
  ends_with (wm_random (CBB q al) (SInt (Z.of_nat k)) o s g) (fun r s' g' =>
    r = Ok (w s') /\ g' = g1 ++ [rbeta 1 al] /\
    (exists x, beta_answers o g1 [rbeta 1 al] = [x] /\ v s' = repeat x k) /\ stick_image (v s') (w s')).
Proof.
  intros V Hq Hal Hd Hb Hk g1.
  change (wp o (bb_random q al (SInt (Z.of_nat k))) (fun r s' g' =>
    r = Ok (w s') /\ g' = g1 ++ [rbeta 1 al] /\
    (exists x, beta_answers o g1 [rbeta 1 al] = [x] /\ v s' = repeat x k) /\ stick_image (v s') (w s')) s g).
  unfold bb_random. wpure. rewrite Hd. cbn [is_snone is_nil andb]. wpure. eapply wp_int; [reflexivity|].
  destruct (Z.ltb_spec (Z.of_nat k) 0); [lia|]. rewrite Nat2Z.id.
  eapply wp_call; [apply (bb_bern_const o q al 0 k (set_v [] s) g V (or_introl eq_refl) Hq Hal Hb Hk)|..]; cbv beta.
  - simpl. congruence.
  - cbn [d set_v]. rewrite Hd. intros [] s1 h1 (_ & A1 & A2 & A3 & A4 & A5). wpure. rewrite A4.
    unfold unit_bern. change (Qeq_bool 0 0) with true. cbv iota. unfold ncumsum. rewrite ncumsum_zeros.
    rewrite is_nil_repeat by (lia || (unfold e; lia)).
    rewrite last_repeat by assumption. apply wp_bind. apply wp_beta_rep_ok; [reflexivity|assumption|]. wpure.
    assert (Eh : h1 = g1) by (rewrite A5, Nat.add_0_r; reflexivity). rewrite Eh.
    change (repeat (rbeta 1 al) (0 + 1)) with [rbeta 1 al]. unfold rbeta at 1. cbn [beta_answers].
    rewrite gather_zeros. wpure. cbn [w v refresh_w set_v set_w].
    split; [reflexivity|]. split; [reflexivity|]. split; [eexists; split; reflexivity|apply stick_image_stick].
  - intros e s1 h1 (A & _); discriminate.
  - intros s1 h1 (A & _); discriminate.
Qed.

Lemma c15_p0_fit q al size k o s g : valid_oracle o -> q == 0 -> 0 < al -> d s <> [] -> bern s <> [] ->
  (size = SNone /\ k = 1%nat \/ size = SInt (Z.of_nat k)) ->
  let m := list_max (d s) in
  let g1 := g ++ repeat (rbinom 1 0) (S m + (m - 1)) in
  let rq := bib_req 1 al (d s) in
  ends_with (wm_random (CBB q al) size o s g) (fun r s' g' =>
    r = Ok (w s') /\ g' = g1 ++ rq :: repeat (rbinom 1 0) (k - S m) /\ d s' = d s /\
    (exists x, beta_answers o g1 [rq] = [x] /\ v s' = repeat x (Nat.max (S m) k)) /\ stick_image (v s') (w s')).
Proof.
  intros V Hq Hal Hd Hb Hz m g1 rq.
  destruct (bb_size_eq size k (d s) Hz Hd) as [Ez1 Ez2].
  change (wp o (bb_random q al size) (fun r s' g' =>
    r = Ok (w s') /\ g' = g1 ++ rq :: repeat (rbinom 1 0) (k - S m) /\ d s' = d s /\
    (exists x, beta_answers o g1 [rq] = [x] /\ v s' = repeat x (Nat.max (S m) k)) /\ stick_image (v s') (w s')) s g).
  unfold bb_random. wpure. rewrite Ez1, Ez2, (snil _ Hd). wpure.
  assert (Hm : nmax (d s) = m) by reflexivity.
  eapply wp_call; [apply (bb_bern_const o q al 0 (S (nmax (d s))) (set_v [] s) g V (or_introl eq_refl) Hq Hal Hb ltac:(lia) (fun _ => eq_refl))|..]; cbv beta.
  - intros [] s1 h1 (_ & A1 & A2 & A3 & A4 & A5). cbn [d set_v] in *.
    assert (Md : forall A (a b : A), (match d s with [] => a | _ :: _ => b end) = b) by (intros; destruct (d s); [congruence|reflexivity]).
    rewrite Md in A4, A5. wpure. rewrite A4.
    replace (S (nmax (d s)) - 1)%nat with m by lia. unfold unit_bern. change (Qeq_bool 0 0) with true. cbv iota.
    assert (Em : ncumsum (0%nat :: repeat 0%nat m) = repeat 0%nat (S m)).
    { unfold ncumsum. change (0%nat :: repeat 0%nat m) with (repeat 0%nat (S m)). apply ncumsum_zeros. }
    rewrite Em.
    assert (La : length (bincount (d s)) = S m) by (rewrite bincount_length; auto).
    assert (Lb : length (tail_counts (bincount (d s))) = S m) by (rewrite tail_counts_length; auto using bincount_nonnil).
    assert (Wa : wbincount (repeat 0%nat (S m)) (bincount (d s)) = [length (d s)]) by (rewrite <- La, wbincount_zeros, count_all by (apply bincount_nonnil; assumption); reflexivity).
    assert (Wb : wbincount (repeat 0%nat (S m)) (tail_counts (bincount (d s))) = [list_sum (d s)]).
    { rewrite <- Lb, wbincount_zeros, nsum_tail; auto. intros F. rewrite F in Lb. discriminate. }
    rewrite Wa, Wb. cbn [map pairs combine]. apply wp_bind.
    apply wp_beta_many_ok.
    { constructor; [|constructor]. cbn [fst snd]. pose proof (nq_nonneg (length (d s))). pose proof (nq_nonneg (list_sum (d s))). lra. }
    assert (Eh : h1 = g1) by (rewrite A5; unfold g1; rewrite Hm; do 3 f_equal; lia). rewrite Eh.
    change (map breq [(1 + nq (length (d s)), al + nq (list_sum (d s)))]) with [rq]. wpure.
    unfold rq at 1. unfold bib_req, rbeta at 1. cbn [beta_answers]. rewrite gather_zeros. wpure.
    match goal with |- wp _ _ _ ?s2 ?g3 => set (s3 := s2); set (g4 := g3) end.
    eapply wp_call; [apply (bb_complete_zero o q al k s3 g4 _ m V Hq Hal eq_refl eq_refl)|..]; cbv beta.
    + change (d s3) with (d s1). rewrite A2. intros a s' g' (B1 & B2 & B3 & B4 & B5). wpure.
      split; [reflexivity|]. split; [rewrite B2; unfold g4; rewrite <- app_assoc; reflexivity|]. split; [assumption|].
      split; [eexists; split; [reflexivity|exact B4]|]. rewrite B5. apply stick_image_stick.
    + intros er s' g' (F & _); discriminate.
    + intros s' g' (F & _); discriminate.
  - intros er s' g' (F & _); discriminate.
  - intros s' g' (F & _); discriminate.
Qed.
