(* C62, C63. *)
From Coq Require Import Lqa.
From Verif Require Import Prelude Numpy Rng M_Weights S_Weights S_Hist S_Draws S_Oracle S_More P_Lists P_Hoare P_Wp P_Complete P_Random P_Post P_Rel P_Bib P_BB.
Open Scope Q_scope.
Open Scope m_scope.

Definition ratio (x : Q) : Q := x / (1 - x).
Lemma ratio_nonneg x : 0 <= x -> x < 1 -> 0 <= ratio x.
Proof. intros H0 H1. unfold ratio. apply Qle_shift_div_l; lra. Qed.
Lemma mid_facts x : 0 < x -> x < 1 -> Qeq_bool x 1 = false /\ Qeq_bool x 0 = false /\ qltb x 1 = true /\ qltb 0 x = true.
Proof.
  intros H0 H1. repeat split; [..|apply qltb_lt; exact H1|apply qltb_lt; exact H0].
  - destruct (Qeq_bool x 1) eqn:E; [|reflexivity]. apply Qeq_bool_iff in E. lra.
  - destruct (Qeq_bool x 0) eqn:E; [|reflexivity]. apply Qeq_bool_iff in E. lra.
Qed.
Lemma mid_pos x al pp : 0 < x -> x < 1 -> 0 < al -> 0 <= pp <= 1 -> 0 < 1 + ratio x * pp /\ 0 < al + ratio x * (1 - pp).
Proof.
  intros H0 H1 Ha [P0 P1]. pose proof (ratio_nonneg x ltac:(lra) H1). assert (0 <= ratio x * pp) by (apply Qmult_le_0_compat; lra).
  assert (0 <= ratio x * (1 - pp)) by (apply Qmult_le_0_compat; lra). split; lra.
Qed.

(* renewal of p on a fitted object *)
Lemma random_p_fitted x a b pm o s g (P : post ws Q) : 0 < x -> x < 1 -> 0 < a -> 0 < b -> d s <> [] -> closed_method pm ->
  (forall q s', s' = (match p_requests pm a b (d s) with [] => s | _ => set_p (p_after o g (p_requests pm a b (d s)) (p s)) s end) ->
     P (Ok q) s' (g ++ p_requests pm a b (d s))) ->
  wp o (bib_random_p x a b pm) P s g.
Proof.
  intros H0 H1 Ha Hb Hd Hm HP. destruct (mid_facts x H0 H1) as (E1 & E2 & _). unfold bib_random_p. wpure. rewrite E1, E2, (snil _ Hd).
  destruct Hm as [-> | [-> | ->]].
  - cbn [p_requests] in HP. wpure. rewrite app_nil_r in HP. apply HP. reflexivity.
  - apply wp_bind, wp_beta1_ok; [assumption|assumption|]. wpure. apply HP. reflexivity.
  - apply wp_bind. change (nsum (d s)) with (list_sum (d s)). apply wp_beta1_ok.
    + pose proof (nq_nonneg (length (d s))). lra.
    + pose proof (nq_nonneg (list_sum (d s))). lra.
    + wpure. apply HP. reflexivity.
Qed.
Lemma p_after_range o g pm a b dd p0 : valid_oracle o -> 0 < a -> 0 < b -> 0 <= p0 <= 1 -> 0 <= p_after o g (p_requests pm a b dd) p0 <= 1.
Proof.
  intros V Ha Hb Hp. unfold p_after. destruct pm; try exact Hp; unfold p_requests, bib_req, rbeta; cbn [beta_answers last]; apply (vo_beta o V); rewrite Qred_correct; try assumption.
  - pose proof (nq_nonneg (length dd)). lra.
  - pose proof (nq_nonneg (list_sum dd)). lra.
Qed.

Definition bib_pair (x al pp : Q) (dd : list nat) (j : nat) : Q * Q :=
  (1 + ratio x * pp + nq (n_eq j dd), al + ratio x * (1 - pp) + nq (n_gt j dd)).
Lemma bib_pairs x al pp dd : dd <> [] ->
  pairs (map (fun n => 1 + x / (1 - x) * pp + nq n) (bincount dd)) (map (fun n => al + x / (1 - x) * (1 - pp) + nq n) (tail_counts (bincount dd)))
  = map (bib_pair x al pp dd) (labels dd).
Proof.
  intros H. rewrite tail_counts_eq, bincount_eq by assumption.
  unfold pairs. rewrite !map_map, combine_map2, nmaxS_labels. reflexivity.
Qed.

(* complete on a fitted object with sticks *)
Lemma bib_complete_fitted x al a b pm k o s g : valid_oracle o -> 0 < x -> x < 1 -> 0 < al -> 0 < a -> 0 < b -> d s <> [] -> v s <> [] -> closed_method pm -> 0 <= p s <= 1 ->
  let rp := p_requests pm a b (d s) in
  let p2 := p_after o g rp (p s) in
  let new := repeat (bib_prior x al p2) (k - length (v s)) in
  wp o (bib_complete x al a b pm (SInt (Z.of_nat k))) (fun r s' g' =>
    r = Ok (w s') /\ g' = g ++ rp ++ new /\ v s' = v s ++ beta_answers o (g ++ rp) new /\ p s' = p2 /\ d s' = d s /\
    w s' = if (length (v s) <? k)%nat then stick (v s') else w s) s g.
Proof.
  intros V H0 H1 Hal Ha Hb Hd Hv Hm Hp rp p2 new. destruct (mid_facts x H0 H1) as (E1 & E2 & E3 & E4).
  unfold bib_complete. apply wp_bind. cbn [base_complete_check]. destruct (Z.ltb_spec (Z.of_nat k) 0); [lia|]. wpure.
  assert (Hl : (length (v s) <> 0)%nat) by (destruct (v s); [congruence|discriminate]).
  apply Nat.eqb_neq in Hl. rewrite Hl. cbn [negb].
  apply wp_bind. apply random_p_fitted; auto. intros q s1 Hs1.
  assert (Q1 : v s1 = v s /\ p s1 = p2 /\ d s1 = d s /\ w s1 = w s).
  { unfold p2, rp. rewrite Hs1. destruct Hm as [-> | [-> | ->]]; repeat split. }
  destruct Q1 as (V1 & P1 & D1 & W1). cbv beta iota. eapply wp_int; [reflexivity|]. wpure. rewrite V1, E3, P1.
  assert (R : 0 <= p2 <= 1) by (apply p_after_range; assumption). destruct (mid_pos x al p2 H0 H1 Hal R) as [A B].
  destruct (Z.ltb_spec (Z.of_nat (length (v s))) (Z.of_nat k)).
  - replace (Z.to_nat (Z.of_nat k - Z.of_nat (length (v s)))) with (k - length (v s))%nat by lia.
    apply wp_bind. apply wp_beta_rep_ok; [exact A|exact B|]. fold (bib_prior x al p2). fold new. wpure. cbn [v w d p set_v refresh_w set_w].
    destruct (Nat.ltb_spec (length (v s)) k); [|lia]. rewrite <- app_assoc. repeat split; auto.
  - wpure. destruct (Nat.ltb_spec (length (v s)) k); [lia|]. unfold new. replace (k - length (v s))%nat with 0%nat by lia. cbn [repeat beta_answers]. rewrite !app_nil_r. rewrite W1. repeat split; auto.
Qed.

Lemma c62_fitted_proof x al a b pm size k o s g : valid_oracle o -> 0 < x -> x < 1 -> 0 < al -> 0 < a -> 0 < b ->
  d s <> [] -> closed_method pm -> 0 <= p s <= 1 -> (0 < k)%nat ->
  (size = SNone /\ k = S (list_max (d s)) \/ size = SInt (Z.of_nat k)) ->
  ends_with (wm_random (CBIB x al a b pm) size o s g) (fun r s' g' =>
    let rp := p_requests pm a b (d s) in
    let p1 := p_after o g rp (p s) in
    let post := map (bib_post x al p1 (d s)) (firstn k (labels (d s))) in
    let g1 := g ++ rp ++ post in
    let p2 := p_after o g1 rp p1 in
    let new := repeat (bib_prior x al p2) (k - S (list_max (d s))) in
    r = Ok (w s') /\ g' = g1 ++ rp ++ new /\
    v s' = beta_answers o (g ++ rp) post ++ beta_answers o (g1 ++ rp) new /\
    p s' = p2 /\ stick_image (v s') (w s')).
Proof.
  intros V H0 H1 Hal Ha Hb Hd Hm Hp Hk Hz. destruct (mid_facts x H0 H1) as (E1 & E2 & E3 & E4).
  match goal with |- ends_with _ ?P => change (wp o (wm_random (CBIB x al a b pm) size) P s g) end.
  simpl wm_random. unfold bib_random. wpure. rewrite (snil _ Hd). rewrite andb_false_r. wpure. rewrite E4.
  set (rp := p_requests pm a b (d s)). set (p1 := p_after o g rp (p s)).
  apply wp_bind. apply random_p_fitted; auto. intros q s1 Hs1. cbn [d set_v p] in *. fold rp in Hs1. fold p1 in Hs1.
  assert (Q1 : p s1 = p1 /\ d s1 = d s).
  { unfold p1. rewrite Hs1. destruct Hm as [-> | [-> | ->]]; repeat split. }
  destruct Q1 as (P1 & D1). cbv beta iota zeta. fold rp.
  assert (Ez : (if is_snone size then SInt (Z.of_nat (length (bincount (d s)))) else size) = SInt (Z.of_nat k)).
  { destruct Hz as [[-> ->]| ->]; simpl; [|reflexivity]. rewrite bincount_length by assumption. reflexivity. }
  rewrite Ez. eapply wp_int; [reflexivity|]. wpure. rewrite E3, P1. rewrite bincount_length by assumption. rewrite !py_take_firstn by lia. rewrite Nat2Z.id.
  set (ab := map (bib_pair x al p1 (d s)) (firstn k (labels (d s)))).
  match goal with |- context [beta_many ?X] => assert (E : X = ab) end.
  { unfold ab. destruct (Z.ltb_spec (Z.of_nat k) (Z.of_nat (S (nmax (d s))))).
    - unfold pairs. rewrite <- !firstn_map', combine_firstn.
      match goal with |- firstn k (combine ?A ?B) = _ => change (combine A B) with (pairs A B) end. rewrite bib_pairs by assumption. reflexivity.
    - rewrite bib_pairs by assumption. rewrite firstn_all2; [reflexivity|]. rewrite labels_length. lia. }
  rewrite E. clear E.
  assert (R1 : 0 <= p1 <= 1) by (apply p_after_range; assumption). destruct (mid_pos x al p1 H0 H1 Hal R1) as [A B].
  apply wp_bind. apply wp_beta_many_ok.
  { unfold ab. apply Forall_forall. intros y Hy. apply in_map_iff in Hy as (j & <- & _). cbn [fst snd bib_pair]. pose proof (nq_nonneg (n_eq j (d s))). pose proof (nq_nonneg (n_gt j (d s))). split; lra. }
  assert (Em : map breq ab = map (bib_post x al p1 (d s)) (firstn k (labels (d s)))) by (unfold ab; rewrite map_map; reflexivity).
  rewrite Em. set (post := map (bib_post x al p1 (d s)) (firstn k (labels (d s)))) in *. wpure.
  match goal with |- wp _ _ _ ?s2 _ => set (s3 := s2) end.
  assert (Lp : length (beta_answers o (g ++ rp) post) = Nat.min k (S (list_max (d s)))).
  { rewrite <- Em, answers_len. unfold ab. rewrite map_length, firstn_length, labels_length. reflexivity. }
  assert (V3 : v s3 = beta_answers o (g ++ rp) post) by reflexivity.
  assert (D3 : d s3 = d s) by exact D1. assert (P3 : p s3 = p1) by exact P1.
  eapply wp_call.
  - apply (bib_complete_fitted x al a b pm k o s3); auto; [rewrite D3; exact Hd| |rewrite P3; exact R1].
    rewrite V3. intros F. rewrite F in Lp. simpl in Lp. lia.
  - cbv beta zeta. rewrite D3, P3, V3, Lp. fold rp. replace (k - Nat.min k (S (list_max (d s))))%nat with (k - S (list_max (d s)))%nat by lia.
    rewrite (app_assoc g rp post). intros r s' g' (G1 & G2 & G3 & G4 & G5 & G6). wpure. fold rp p1 post. rewrite <- (app_assoc g rp post) in *.
    split; [reflexivity|]. split; [exact G2|]. split; [exact G3|]. split; [exact G4|].
    assert (W : w s' = stick (v s')).
    { rewrite G6. destruct (Nat.ltb_spec (Nat.min k (S (list_max (d s)))) k); [reflexivity|]. change (w s3) with (stick (v s3)). rewrite V3, G3. f_equal.
      replace (k - S (list_max (d s)))%nat with 0%nat by lia. cbn [repeat beta_answers]. rewrite app_nil_r. reflexivity. }
    rewrite W. apply stick_image_stick.
  - intros e s' g' (G & _); discriminate.
  - intros s' g' (G & _); discriminate.
Qed.

(* unfitted: all sticks from the prior at the stored p *)
Lemma c62_prior_proof x al a b pm k o s g : 0 < x -> x < 1 -> 0 < al -> d s = [] -> 0 <= p s <= 1 -> (0 < k)%nat ->
  ends_with (wm_random (CBIB x al a b pm) (SInt (Z.of_nat k)) o s g) (fun r s' g' =>
    drawn s (repeat (bib_prior x al (p s)) k) o g r s' g' /\ p s' = p s).
Proof.
  intros H0 H1 Hal Hd Hp Hk. destruct (mid_facts x H0 H1) as (E1 & E2 & E3 & E4).
  match goal with |- ends_with _ ?P => change (wp o (wm_random (CBIB x al a b pm) (SInt (Z.of_nat k))) P s g) end.
  simpl wm_random. unfold bib_random. wpure. rewrite Hd. cbn [is_snone is_nil andb]. wpure.
  unfold bib_complete. apply wp_assoc. apply wp_bind. cbn [base_complete_check]. destruct (Z.ltb_spec (Z.of_nat k) 0); [lia|]. wpure.
  cbn [v set_v length Nat.eqb negb]. wpure. eapply wp_int; [reflexivity|]. wpure.
  cbn [v set_v length p]. rewrite E3. destruct (Z.ltb_spec (Z.of_nat 0) (Z.of_nat k)); [|lia].
  replace (Z.to_nat (Z.of_nat k - Z.of_nat 0)) with k by lia. destruct (mid_pos x al (p s) H0 H1 Hal Hp) as [A B].
  apply wp_assoc, wp_bind. apply wp_beta_rep_ok; [exact A|exact B|]. wpure. fold (bib_prior x al (p s)). cbn [v w d p set_v refresh_w set_w app].
  split; [|reflexivity]. unfold drawn. cbn [v w d p set_v refresh_w set_w app]. split; [reflexivity|]. split; [reflexivity|]. split; [reflexivity|]. split; [apply stick_image_stick|symmetry; exact Hd || reflexivity].
Qed.

(* unfitted complete: a new p for the new sticks *)
Lemma c62_complete_proof x al a b pm k o s g : valid_oracle o -> 0 < x -> x < 1 -> 0 < al -> 0 < a -> 0 < b -> d s = [] -> v s <> [] -> (length (v s) < k)%nat ->
  ends_with (wm_complete (CBIB x al a b pm) (SInt (Z.of_nat k)) o s g) (fun r s' g' =>
    let rq := rbeta a b in
    let new := repeat (bib_prior x al (p s')) (k - length (v s)) in
    r = Ok (Some (w s')) /\ beta_answers o g [rq] = [p s'] /\ g' = g ++ rq :: new /\
    v s' = v s ++ beta_answers o (g ++ [rq]) new /\ stick_image (v s') (w s')).
Proof.
  intros V H0 H1 Hal Ha Hb Hd Hv Hk. destruct (mid_facts x H0 H1) as (E1 & E2 & E3 & E4).
  match goal with |- ends_with _ ?P => change (wp o (wm_complete (CBIB x al a b pm) (SInt (Z.of_nat k))) P s g) end.
  simpl wm_complete. unfold bib_complete. apply wp_assoc, wp_bind. cbn [base_complete_check]. destruct (Z.ltb_spec (Z.of_nat k) 0); [lia|]. wpure.
  assert (Hl : (length (v s) <> 0)%nat) by (destruct (v s); [congruence|discriminate]).
  apply Nat.eqb_neq in Hl. rewrite Hl. cbn [negb]. apply wp_assoc. unfold bib_random_p. wpure. rewrite E1, E2, Hd. cbn [is_nil]. wpure.
  apply wp_bind, wp_beta1_ok; [assumption|assumption|]. set (p2 := o_beta o g (Qred a) (Qred b)). wpure. eapply wp_int; [reflexivity|]. wpure. cbn [v set_p p]. rewrite E3.
  assert (R : 0 <= p2 <= 1) by (apply (vo_beta o V); rewrite Qred_correct; assumption). destruct (mid_pos x al p2 H0 H1 Hal R) as [A B].
  destruct (Z.ltb_spec (Z.of_nat (length (v s))) (Z.of_nat k)); [|lia].
  replace (Z.to_nat (Z.of_nat k - Z.of_nat (length (v s)))) with (k - length (v s))%nat by lia.
  apply wp_assoc, wp_bind. apply wp_beta_rep_ok; [exact A|exact B|]. fold (bib_prior x al p2). wpure. cbn [v w d p set_v refresh_w set_w set_p].
  split; [reflexivity|]. split; [reflexivity|]. split; [rewrite <- app_assoc; reflexivity|]. split; [reflexivity|apply stick_image_stick].
Qed.

(* ---- C63 ---- *)
Lemma nth_error_cons_tl {A} (x : A) fresh i : nth_error (x :: fresh) (S i) = nth_error fresh i.
Proof. reflexivity. Qed.
Lemma chain_gather ms : Forall (fun m => m = 0 \/ m = 1)%Z ms -> forall (pre : list Q) x fresh, (ones ms <= length fresh)%nat ->
  gather (pre ++ x :: fresh) (ncumsum_from (length pre) (map Z.to_nat ms)) = Some (chain_sticks x fresh ms).
Proof.
  induction ms as [|m t IH]; intros H pre x fresh L; [reflexivity|]. inversion H; subst. cbn [map ncumsum_from gather chain_sticks].
  destruct H2 as [-> | ->]; [change (0 =? 0)%Z with true|change (1 =? 0)%Z with false]; cbv iota.
  - change (Z.to_nat 0) with 0%nat. rewrite Nat.add_0_r. rewrite nth_error_app2 by lia. rewrite Nat.sub_diag. cbn [nth_error]. rewrite IH; [reflexivity|assumption|exact L].
  - change (ones (1%Z :: t)) with (S (ones t)) in L. destruct fresh as [|y f]; [simpl in L; lia|]. simpl in L.
    change (Z.to_nat 1) with 1%nat. rewrite nth_error_app2 by lia. replace (length pre + 1 - length pre)%nat with 1%nat by lia. cbn [nth_error hd tl].
    specialize (IH H3 (pre ++ [x]) y f ltac:(lia)). rewrite app_length in IH. cbn [length] in IH. rewrite <- app_assoc in IH. cbn [app] in IH. rewrite IH. reflexivity.
Qed.
Lemma last_cumsum ms : Forall (fun m => m = 0 \/ m = 1)%Z ms -> forall a dflt, ms <> [] -> last (ncumsum_from a (map Z.to_nat ms)) dflt = (a + ones ms)%nat.
Proof.
  induction ms as [|m t IH]; intros H a dflt N; [congruence|]. inversion H; subst. cbn [map ncumsum_from].
  destruct t as [|m' t'].
  - cbn [map ncumsum_from last]. destruct H2 as [-> | ->]; reflexivity.
  - match goal with |- last (?u :: ?r) _ = _ => change (last r dflt = (a + ones (m :: m' :: t'))%nat) end.
    rewrite IH by (assumption || discriminate).
    destruct H2 as [-> | ->]; [change (ones (0%Z :: m' :: t')) with (ones (m' :: t')); change (Z.to_nat 0) with 0%nat; lia|].
    change (ones (1%Z :: m' :: t')) with (S (ones (m' :: t'))). change (Z.to_nat 1) with 1%nat. lia.
Qed.

Lemma binom_draws_bits o q k : valid_oracle o -> 0 <= q <= 1 -> forall g, Forall (fun m => m = 0 \/ m = 1)%Z (binom_answers o g (repeat (rbinom 1 q) k)).
Proof.
  intros V Hq. induction k as [|k IH]; intros g; cbn [repeat]; [constructor|]. unfold rbinom at 1. cbn [binom_answers]. constructor; [|apply IH].
  assert (0 <= o_binom o g 1 (Qred q) <= 1)%Z by (apply (vo_binom o V); [lia|rewrite Qred_correct; exact Hq]). lia.
Qed.
Lemma wp_binom_rep_ok o q k (P : post ws (list Z)) s g : 0 <= q <= 1 ->
  P (Ok (binom_answers o g (repeat (rbinom 1 q) k))) s (g ++ repeat (rbinom 1 q) k) -> wp o (binom_rep 1 q k) P s g.
Proof.
  intros Hq HP. apply wp_binom_rep; intros E.
  - rewrite binom_draws_answers, map_repeat. exact HP.
  - rewrite prob_okI in E by apply Hq. discriminate.
Qed.
Lemma binom_answers_len o q k : forall g, length (binom_answers o g (repeat (rbinom 1 q) k)) = k.
Proof. induction k as [|k IH]; intros g; [reflexivity|]. cbn [repeat]. unfold rbinom at 1. cbn [binom_answers length]. rewrite IH. reflexivity. Qed.
Lemma rep_answers_len o a b k g : length (beta_answers o g (repeat (rbeta a b) k)) = k.
Proof. rewrite repeat_breq, answers_len, repeat_length. reflexivity. Qed.
Lemma nonnil_len {A} (l : list A) : (0 < length l)%nat -> l <> [].
Proof. destruct l; simpl; [lia|discriminate]. Qed.
Lemma cumsum_nonnil l a : l <> [] -> is_nil (ncumsum_from a (map Z.to_nat l)) = false.
Proof. destruct l; [congruence|reflexivity]. Qed.

Lemma c63_complete_proof q al k o s g : valid_oracle o -> 0 <= q <= 1 -> 0 < al -> v s <> [] -> (length (v s) < k)%nat ->
  let m := (k - length (v s))%nat in
  let r1 := repeat (rbinom 1 q) m in
  let ms := binom_answers o g r1 in
  let r2 := repeat (rbeta 1 al) (ones ms) in
  ends_with (wm_complete (CBB q al) (SInt (Z.of_nat k)) o s g) (fun r s' g' =>
    r = Ok (Some (w s')) /\ g' = g ++ r1 ++ r2 /\
    v s' = v s ++ chain_sticks (last (v s) 0) (beta_answers o (g ++ r1) r2) ms /\
    bern s' = bern s ++ map Z.to_nat ms /\ stick_image (v s') (w s')).
Proof.
  intros V Hq Hal Hv Hk m r1 ms r2.
  match goal with |- ends_with _ ?P => change (wp o (wm_complete (CBB q al) (SInt (Z.of_nat k))) P s g) end.
  simpl wm_complete. unfold bb_complete. apply wp_assoc, wp_bind. cbn [base_complete_check]. wpure. eapply wp_int; [reflexivity|]. wpure.
  destruct (Z.ltb_spec (Z.of_nat (length (v s))) (Z.of_nat k)); [|lia]. rewrite (snil _ Hv). wpure.
  replace (Z.to_nat (Z.of_nat k - Z.of_nat (length (v s)))) with m by (unfold m; lia).
  apply wp_bind, wp_binom_rep_ok; [exact Hq|]. fold r1. fold ms. wpure.
  assert (Hb : Forall (fun m => m = 0 \/ m = 1)%Z ms) by (apply binom_draws_bits; assumption).
  assert (Hn : ms <> []) by (apply nonnil_len; unfold ms, r1; rewrite binom_answers_len; unfold m; lia).
  unfold ncumsum. rewrite cumsum_nonnil by exact Hn. rewrite last_cumsum by assumption. rewrite Nat.add_0_l.
  apply wp_assoc, wp_bind, wp_beta_rep_ok; [reflexivity|assumption|]. fold r2.
  set (fr := beta_answers o (g ++ r1) r2). assert (Lf : length fr = ones ms) by apply rep_answers_len.
  pose proof (chain_gather ms Hb [] (last (v s) 0) fr ltac:(lia)) as G. cbn [app length] in G. rewrite G. wpure.
  cbn [v w bern set_v set_bern refresh_w set_w]. rewrite <- app_assoc. repeat split; try reflexivity; [apply stick_length|intros j Hj; apply stick_image_stick; exact Hj].
Qed.

Lemma c63_prior_proof q al k o s g : valid_oracle o -> 0 <= q <= 1 -> 0 < al -> d s = [] -> bern s <> [] -> (0 < k)%nat ->
  let r1 := repeat (rbinom 1 q) k in
  let ms := binom_answers o g r1 in
  let r2 := repeat (rbeta 1 al) (S (ones ms)) in
  ends_with (wm_random (CBB q al) (SInt (Z.of_nat k)) o s g) (fun r s' g' =>
    r = Ok (w s') /\ g' = g ++ r1 ++ r2 /\
    (exists x fresh, beta_answers o (g ++ r1) r2 = x :: fresh /\ v s' = chain_sticks x fresh ms) /\
    bern s' = map Z.to_nat ms /\ stick_image (v s') (w s')).
Proof.
  intros V Hq Hal Hd Hbn Hk r1 ms r2.
  match goal with |- ends_with _ ?P => change (wp o (wm_random (CBB q al) (SInt (Z.of_nat k))) P s g) end.
  simpl wm_random. unfold bb_random. wpure. rewrite Hd. cbn [is_snone is_nil andb]. wpure. eapply wp_int; [reflexivity|].
  destruct (Z.ltb_spec (Z.of_nat k) 0); [lia|]. rewrite Nat2Z.id. unfold bb_random_bernoullis. apply wp_assoc, wp_bind, wp_binom_rep_ok; [exact Hq|]. fold r1. fold ms. wpure.
  cbn [bern set_v d]. rewrite (snil _ Hbn), Hd. cbn [is_nil]. wpure. cbn [bern set_bern].
  assert (Hb : Forall (fun m => m = 0 \/ m = 1)%Z ms) by (apply binom_draws_bits; assumption).
  assert (Hn : ms <> []) by (apply nonnil_len; unfold ms, r1; rewrite binom_answers_len; lia).
  unfold ncumsum. rewrite cumsum_nonnil by exact Hn. rewrite last_cumsum by assumption. rewrite Nat.add_0_l, Nat.add_1_r.
  apply wp_bind, wp_beta_rep_ok; [reflexivity|assumption|]. fold r2. wpure.
  assert (Lf : length (beta_answers o (g ++ r1) r2) = S (ones ms)) by apply rep_answers_len.
  destruct (beta_answers o (g ++ r1) r2) as [|x fr] eqn:Ef; [discriminate|]. simpl in Lf.
  pose proof (chain_gather ms Hb [] x fr ltac:(lia)) as G. cbn [app length] in G. rewrite G. wpure.
  cbn [v w bern set_v set_bern refresh_w set_w]. rewrite <- app_assoc. split; [reflexivity|]. split; [reflexivity|]. split; [eauto|]. split; [reflexivity|]. apply stick_image_stick.
Qed.
