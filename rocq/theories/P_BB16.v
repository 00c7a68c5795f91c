(* C16: when BetaBernoulli.random raises. *)
From Coq Require Import Lqa.
From Verif Require Import Prelude Numpy Rng M_Weights S_Weights S_Hist S_Draws S_Oracle P_Lists P_Hoare P_Wp P_Complete P_Random P_Post P_BB.
Open Scope Q_scope.
Open Scope m_scope.

Lemma skipn_last {A} (l : list A) m x : length l = S m -> skipn m l = [nth m l x].
Proof.
  revert m. induction l as [|y l IH]; intros m H; [discriminate|]. simpl in H.
  destruct m; simpl; [destruct l; [reflexivity|discriminate]|]. apply IH. lia.
Qed.
Lemma nth_nset_other {A} j i (y x : A) l : (j < length l)%nat -> i <> j -> nth i (nset j y l) x = nth i l x.
Proof.
  revert i j. induction l as [|z l IH]; intros i j Hj Hi; simpl in Hj; [lia|].
  destruct j; unfold nset; simpl.
  - destruct i; [congruence|reflexivity].
  - destruct i; [reflexivity|]. apply (IH i j); lia.
Qed.
Lemma nth_nset_same {A} j (y x : A) l : (j < length l)%nat -> nth j (nset j y l) x = y.
Proof.
  revert j. induction l as [|z l IH]; intros j Hj; simpl in Hj; [lia|].
  destruct j; unfold nset; simpl; [reflexivity|]. apply (IH j); lia.
Qed.

(* the last but one indicator: inf / inf *)
Lemma bb_prob_nan q al bs ac bc m : 0 < q -> length bs = S m -> length ac = S m -> length bc = S m ->
  (0 < m)%nat -> nth m bs 0%nat = 0%nat -> nth m bc 0%nat = 0%nat ->
  bb_prob q al bs ac bc (m - 1) = XNaN.
Proof.
  intros Hq Lbs La Lb Hm Hb0 Hc0. unfold bb_prob. replace (S (m - 1)) with m by lia.
  rewrite (skipn_last bs m 0%nat Lbs), (skipn_last ac m 0%nat La), (skipn_last bc m 0%nat Lb), Hb0, Hc0.
  assert (E : forall x, bb_up al [0%nat] [x] [0%nat] 0 0 (XFin 1) = (x, 0%nat, XInf)) by (intros x; cbn; destruct x; reflexivity).
  rewrite E. cbv beta iota.
  match goal with |- context [bb_down ?a ?b ?c ?e ?f] => destruct (bb_down a b c e f) as [a2 b2] end.
  assert (T : qltb 0 q = true) by (apply qltb_lt; lra). rewrite T. cbn [xscale].
  destruct (qltb q 1); [|reflexivity]. destruct (betaf_cases a2 b2) as [-> | (x & -> & _)]; reflexivity.
Qed.

Lemma bb_loop_nan o q al ac bc m : 0 < q -> length ac = S m -> length bc = S m -> (0 < m)%nat -> nth m bc 0%nat = 0%nat ->
  forall js bs s g, length bs = S m -> nth m bs 0%nat = 0%nat -> Forall (fun j => j < m)%nat js -> In (m - 1)%nat js ->
  wp o (bb_loop q al ac bc js bs) (fun r s' g' => r = Err ValueError /\ s' = s) s g.
Proof.
  intros Hq La Lb Hm Hc. induction js as [|j js IH]; intros bs s g Lbs Hz Hf Hin; [destruct Hin|].
  cbn [bb_loop]. inversion Hf as [|? ? Hj Hf']; subst. apply wp_bind.
  destruct (Nat.eq_dec j (m - 1)) as [->|Hne].
  - rewrite bb_prob_nan by assumption. unfold bernoulli_x. apply wp_raise. auto.
  - destruct Hin as [E|Hin]; [congruence|].
    destruct (bb_prob q al bs ac bc j) as [x| |]; unfold bernoulli_x; [|apply wp_raise; auto..].
    apply wp_bind, wp_binom1; [|auto]. intros _. apply wp_ret. apply IH; auto.
    + rewrite nset_length; lia.
    + rewrite nth_nset_other; auto; lia.
Qed.

Lemma binom_answers_rep o n q k g : binom_answers o g (repeat (rbinom n q) k) = fst (binom_draws o n (repeat q k) g).
Proof. rewrite binom_draws_answers, map_repeat. reflexivity. Qed.

Lemma nth_last {A} (l : list A) m x : length l = S m -> nth m l x = last l x.
Proof. intros H. revert m H. induction l as [|y l IH]; intros m H; [discriminate|]. simpl in H. destruct l; [destruct m; [reflexivity|discriminate]|]. destruct m; [discriminate|]. change (nth m (a :: l) x = last (a :: l) x). apply IH. simpl in *; lia. Qed.

Lemma n_gt_max dd : n_gt (nmax dd) dd = 0%nat.
Proof.
  unfold n_gt. apply length_zero_iff_nil. pose proof (nmax_ge dd) as H. 
  induction dd as [|x t IH] in H |- *; [reflexivity|].
  generalize dependent (nmax (x :: t)). intros M H. 
  assert (G : forall l, Forall (fun y => (y <= M)%nat) l -> filter (fun y => Nat.ltb M y) l = []).
  { induction l as [|y l IHl]; intros F; [reflexivity|]. inversion F; subst. simpl. destruct (Nat.ltb_spec M y); [lia|auto]. }
  apply G; assumption.
Qed.
Lemma tail_nth dd j : dd <> [] -> (j <= nmax dd)%nat -> nth j (tail_counts (bincount dd)) 0%nat = n_gt j dd.
Proof.
  intros H Hj. rewrite tail_counts_eq by assumption.
  rewrite nth_indep with (d' := n_gt 0 dd) by (rewrite map_length, seq_length; lia).
  rewrite (map_nth (fun j => n_gt j dd)), seq_nth by lia. reflexivity.
Qed.
Lemma binc_nth dd j : dd <> [] -> (j <= nmax dd)%nat -> nth j (bincount dd) 0%nat = n_eq j dd.
Proof.
  intros H Hj. rewrite bincount_eq by assumption.
  rewrite nth_indep with (d' := n_eq 0 dd) by (rewrite map_length, seq_length; lia).
  rewrite (map_nth (fun j => n_eq j dd)), seq_nth by lia. reflexivity.
Qed.

Lemma c16_raises_proof q al size o s g : 0 < q -> q < 1 -> 0 < al -> bern s <> [] -> (2 <= list_max (d s))%nat ->
  positive_size size -> last (bb_proposals o g q (d s)) 1%Z = 0%Z ->
  fst (fst (wm_random (CBB q al) size o s g)) = Err ValueError.
Proof.
  intros Hq Hq1 Hal Hb Hm Hz Hlast.
  assert (Hd : d s <> []) by (intros F; rewrite F in Hm; simpl in Hm; lia).
  enough (W : wp o (bb_random q al size) (fun r _ _ => r = Err ValueError) s g).
  { unfold wp in W. simpl wm_random. destruct (bb_random q al size o s g) as [[r s'] g']. exact W. }
  unfold bb_random. wpure. rewrite (snil _ Hd), andb_false_r. wpure.
  eapply (wp_call _ _ _ (fun r _ _ => r = Err ValueError)); [|intros; discriminate|intros; congruence|intros; discriminate].
  unfold bb_random_bernoullis. apply wp_bind, wp_binom_rep; [|auto]. intros _. wpure.
  cbn [bern set_v d]. rewrite (snil _ Hb), (snil _ Hd). wpure.
  set (bs := map Z.to_nat _).
  assert (Lbs : length bs = S (nmax (d s))) by (unfold bs; rewrite map_length, binom_draws_length, repeat_length; reflexivity).
  change (nmax (d s)) with (list_max (d s)) in *.
  assert (Zl : nth (list_max (d s)) bs 0%nat = 0%nat).
  { unfold bs. change 0%nat with (Z.to_nat 0). rewrite map_nth.
    unfold bb_proposals in Hlast. rewrite binom_answers_rep in Hlast.
    set (l := fst (binom_draws o 1 (repeat q (S (list_max (d s)))) g)) in *.
    assert (Ll : length l = S (list_max (d s))) by (unfold l; rewrite binom_draws_length, repeat_length; reflexivity).
    rewrite nth_indep with (d' := 1%Z) by lia. rewrite (nth_last l _ 1%Z Ll), Hlast. reflexivity. }
  eapply wp_call; [apply (bb_loop_nan o q al _ _ (list_max (d s)) Hq)|..]; cbv beta.
  - rewrite bincount_length by assumption. reflexivity.
  - rewrite tail_counts_length by (apply bincount_nonnil; assumption). rewrite bincount_length by assumption. reflexivity.
  - lia.
  - rewrite tail_nth; [apply n_gt_max|assumption|apply Nat.le_refl].
  - rewrite nset_length; lia.
  - rewrite nth_nset_other; [assumption|lia|lia].
  - apply Forall_forall. intros j Hj. apply in_seq in Hj. lia.
  - apply in_seq. lia.
  - intros a s' g' [F _]; discriminate.
  - intros e s' g' [F _]. congruence.
  - intros s' g' [F _]; discriminate.
Qed.

(* ---- success ---- *)
Lemma bb_up_fin al bs ac : forall bc a b x, 0 < al -> length bs = length ac -> length bs = length bc ->
  bs <> [] -> last bs 0%nat = 1%nat -> Forall (fun y => 0 < y)%nat ac -> Forall (fun y => 0 < y)%nat (removelast bc) -> 0 < x ->
  exists a1 b1 x1, bb_up al bs ac bc a b (XFin x) = (a1, b1, XFin x1) /\ 0 < x1.
Proof.
  revert ac. induction bs as [|b0 bs IH]; intros ac bc a b x Hal La Lb Hn Hl Ha Hb Hx; [congruence|].
  destruct ac as [|a0 ac]; [discriminate|]. destruct bc as [|c0 bc]; [discriminate|]. cbn [bb_up].
  destruct (Nat.eqb_spec b0 1); [repeat eexists; assumption|].
  destruct bs as [|b1 bs]; [simpl in Hl; congruence|].
  destruct bc as [|c1 bc]; [discriminate|].
  inversion Ha; subst. cbn [removelast] in Hb. inversion Hb; subst.
  destruct (betaf_pos (a + a0) (b + c0)) as (y & -> & Hy); [lia|lia|]. cbn [xscale].
  apply IH; auto; try (simpl in *; lia); try discriminate. nra.
Qed.
Lemma bb_down_ge bs : forall ac bc a b, (a <= fst (bb_down bs ac bc a b) /\ b <= snd (bb_down bs ac bc a b))%nat.
Proof.
  induction bs as [|b0 bs IH]; intros [|x ac] [|y bc] a b; simpl; auto.
  destruct (Nat.eqb b0 1); simpl; auto. specialize (IH ac bc (a + x)%nat (b + y)%nat). lia.
Qed.
Lemma skipn_nonnil {A} k (l : list A) : (k < length l)%nat -> skipn k l <> [].
Proof. intros H F. apply (f_equal (@length A)) in F. rewrite skipn_length in F. simpl in F. lia. Qed.
Lemma last_skipn {A} k (l : list A) x : (k < length l)%nat -> last (skipn k l) x = last l x.
Proof.
  revert k. induction l as [|y l IH]; intros k H; simpl in H; [lia|]. destruct k; [reflexivity|].
  cbn [skipn]. destruct l as [|z l]; [simpl in H; lia|]. rewrite IH by (simpl in *; lia). reflexivity.
Qed.
Lemma removelast_skipn {A} k (l : list A) : removelast (skipn k l) = skipn k (removelast l).
Proof.
  revert k. induction l as [|y l IH]; intros [|k]; try reflexivity.
  cbn [skipn]. destruct l as [|z l]; [destruct k; reflexivity|]. rewrite IH. reflexivity.
Qed.

Lemma bb_prob_ok q al bs ac bc m j : 0 < q -> q < 1 -> 0 < al -> length bs = S m -> length ac = S m -> length bc = S m ->
  last bs 0%nat = 1%nat -> Forall (fun y => 0 < y)%nat ac -> Forall (fun y => 0 < y)%nat (removelast bc) -> (j < m)%nat ->
  exists r, bb_prob q al bs ac bc j = XFin r /\ 0 <= r <= 1.
Proof.
  intros Hq Hq1 Hal Lbs La Lb Hl Ha Hb Hj. unfold bb_prob.
  destruct (bb_up_fin al (skipn (S j) bs) (skipn (S j) ac) (skipn (S j) bc) 0 0 1) as (a1 & b1 & x1 & -> & Hx1);
    try assumption; try reflexivity.
  - rewrite !skipn_length; lia.
  - rewrite !skipn_length; lia.
  - apply skipn_nonnil; lia.
  - rewrite last_skipn by lia. assumption.
  - apply Forall_skipn; assumption.
  - rewrite removelast_skipn. apply Forall_skipn; assumption.
  - cbv beta iota.
    match goal with |- context [bb_down ?a ?b ?c ?e ?f] => pose proof (bb_down_ge a b c e f) as G; destruct (bb_down a b c e f) as [a2 b2] end.
    cbn [fst snd] in G.
    assert (A2 : (0 < nth j ac 0)%nat). { rewrite Forall_forall in Ha. apply Ha, nth_In. lia. }
    assert (B2 : (0 < nth j bc 0)%nat).
    { rewrite Forall_forall in Hb. apply Hb. replace (nth j bc 0%nat) with (nth j (removelast bc) 0%nat).
      - apply nth_In. rewrite removelast_length. lia.
      - rewrite (app_removelast_last 0%nat (l:=bc)) at 2 by (destruct bc; [discriminate|discriminate]).
        rewrite app_nth1; [reflexivity|]. rewrite removelast_length; lia. }
    destruct (betaf_pos a2 b2) as (y & -> & Hy); [lia|lia|].
    assert (T : qltb 0 q = true) by (apply qltb_lt; lra). assert (T1 : qltb q 1 = true) by (apply qltb_lt; lra).
    rewrite T, T1. cbn [xscale xadd xdiv].
    assert (P1 : 0 < q * x1) by nra. assert (P2 : 0 < (1 - q) * (al * y)).
    { assert (0 < al * y) by nra. assert (0 < 1 - q) by lra. nra. }
    assert (N : Qeq_bool (q * x1 + (1 - q) * (al * y)) 0 = false).
    { destruct (Qeq_bool _ _) eqn:Z; [|reflexivity]. apply Qeq_bool_iff in Z. lra. }
    rewrite N. eexists. split; [reflexivity|]. split.
    + apply Qle_shift_div_l; lra.
    + apply Qle_shift_div_r; lra.
Qed.

Lemma bb_loop_ok o q al ac bc m : valid_oracle o -> 0 < q -> q < 1 -> 0 < al -> length ac = S m -> length bc = S m ->
  Forall (fun y => 0 < y)%nat ac -> Forall (fun y => 0 < y)%nat (removelast bc) ->
  forall js bs s g, length bs = S m -> last bs 0%nat = 1%nat -> Forall (fun j => j < m)%nat js ->
  wp o (bb_loop q al ac bc js bs) (fun r s' g' => exists x, r = Ok x /\ length x = S m /\ s' = s) s g.
Proof.
  intros V Hq Hq1 Hal La Lb Ha Hb. induction js as [|j js IH]; intros bs s g Lbs Hl Hf; cbn [bb_loop].
  - wpure. eauto.
  - inversion Hf as [|? ? Hj Hf']; subst.
    destruct (bb_prob_ok q al bs ac bc m j) as (r & -> & Hr); auto.
    apply wp_bind. unfold bernoulli_x. apply wp_bind, wp_binom1.
    + intros _. apply wp_ret. apply IH; auto.
      * rewrite nset_length; lia.
      * rewrite <- (nth_last _ m 0%nat); [|rewrite nset_length; lia]. rewrite nth_nset_other by lia. rewrite (nth_last _ m); assumption.
    + intros F. rewrite prob_okI in F by apply Hr. discriminate.
Qed.

Lemma wbincount_length mc x : mc <> [] -> length (wbincount mc x) = S (nmax mc).
Proof. intros H. unfold wbincount. destruct mc; [congruence|]. rewrite map_length, seq_length. reflexivity. Qed.

Lemma bb_complete_ok o q al k s g : 0 <= q <= 1 -> 0 < al -> v s <> [] ->
  wp o (bb_complete q al k) (fun r s' g' => size_val k <> None -> is_ok r = true) s g.
Proof.
  intros Hq Hal Hv. unfold bb_complete. destruct k as [|k|k|]; try (unfold wp; cbn; congruence).
  all: apply wp_bind; cbn [base_complete_check]; wpure; (eapply wp_int; [reflexivity|]); wpure;
    (destruct (Z.ltb_spec (Z.of_nat (length (v s))) k) as [H|H]; [|wpure; reflexivity]);
    rewrite (snil _ Hv); wpure; apply wp_bind, wp_binom_rep; [intros _|intros F; rewrite prob_okI in F by apply Hq; discriminate];
    wpure; set (m := map Z.to_nat _);
    (assert (Lm : length m = Z.to_nat (k - Z.of_nat (length (v s)))) by (unfold m; rewrite map_length, binom_draws_length, repeat_length; reflexivity));
    (assert (Nn : is_nil (ncumsum m) = false) by (destruct (ncumsum m) eqn:E; [apply (f_equal (@length nat)) in E; rewrite ncumsum_length, Lm in E; simpl in E; lia|reflexivity]));
    rewrite Nn; apply wp_bind, wp_beta_rep_ok; [reflexivity|assumption|];
    match goal with |- context [gather ?x ?i] => destruct (gather x i) eqn:E end; [wpure; reflexivity|];
    exfalso; apply gather_none in E; apply Exists_exists in E; destruct E as (i & Hi & Hx);
    cbn [length] in Hx; rewrite repeat_breq, answers_len, repeat_length in Hx.
  all: assert (Mono : forall l a, Forall (fun i => (i <= last (ncumsum_from a l) 0)%nat) (ncumsum_from a l))
    by (clear; induction l as [|y l IH]; intros a; cbn [ncumsum_from]; [constructor|];
        destruct l as [|z l]; [cbn; repeat constructor; lia|];
        specialize (IH (a + y)%nat); constructor; [|exact IH];
        cbn [ncumsum_from] in *; inversion IH; subst; cbn [last] in *; lia);
    pose proof (Mono m 0%nat) as Mn; rewrite Forall_forall in Mn; specialize (Mn i Hi); unfold ncumsum in *; lia.
Qed.

Lemma no_gaps_pos dd : dd <> [] -> no_gaps dd -> Forall (fun y => 0 < y)%nat (bincount dd).
Proof.
  intros H Hg. rewrite bincount_eq by assumption. apply Forall_forall. intros y Hy. apply in_map_iff in Hy.
  destruct Hy as (j & <- & Hj). apply in_seq in Hj. apply Hg. change (list_max dd) with (nmax dd). lia.
Qed.
Lemma n_gt_pos dd j : (j < nmax dd)%nat -> (0 < n_gt j dd)%nat.
Proof.
  intros H. unfold n_gt. assert (dd <> []) by (intros ->; simpl in H; lia).
  pose proof (nmax_in dd H0) as Hi. 
  assert (In (nmax dd) (filter (fun x => Nat.ltb j x) dd)) by (apply filter_In; split; [assumption|apply Nat.ltb_lt; assumption]).
  destruct (filter _ dd); [contradiction|simpl; lia].
Qed.
Lemma tail_pos dd : dd <> [] -> Forall (fun y => 0 < y)%nat (removelast (tail_counts (bincount dd))).
Proof.
  intros H. rewrite tail_counts_eq by assumption. replace (S (nmax dd)) with (nmax dd + 1)%nat by lia.
  rewrite seq_app, map_app. simpl map. rewrite removelast_last. apply Forall_forall. intros y Hy.
  apply in_map_iff in Hy. destruct Hy as (j & <- & Hj). apply in_seq in Hj. apply n_gt_pos. lia.
Qed.

Lemma c16_succeeds_proof q al size o s g : valid_oracle o -> 0 < q -> q < 1 -> 0 < al -> bern s <> [] -> d s <> [] ->
  no_gaps (d s) -> positive_size size ->
  (list_max (d s) <= 1)%nat \/ last (bb_proposals o g q (d s)) 0%Z = 1%Z ->
  is_ok (fst (fst (wm_random (CBB q al) size o s g))) = true.
Proof.
  intros V Hq Hq1 Hal Hb Hd Hg Hz Hlast.
  enough (W : wp o (bb_random q al size) (fun r _ _ => is_ok r = true) s g).
  { unfold wp in W. simpl wm_random. destruct (bb_random q al size o s g) as [[r s'] g']. exact W. }
  unfold bb_random. wpure. rewrite (snil _ Hd), andb_false_r. wpure.
  eapply (wp_call _ _ _ (fun r s' _ => r = Ok tt /\ length (bern s') = S (nmax (d s)))); [|..|intros e s' g' [F _]; discriminate|intros s' g' [F _]; discriminate].
  - unfold bb_random_bernoullis. apply wp_bind, wp_binom_rep; [|intros F; rewrite prob_okI in F by lra; discriminate].
    intros _. wpure. cbn [bern set_v d]. rewrite (snil _ Hb), (snil _ Hd). wpure.
    set (bs := map Z.to_nat _).
    assert (Lbs : length bs = S (nmax (d s))) by (unfold bs; rewrite map_length, binom_draws_length, repeat_length; reflexivity).
    destruct (le_lt_dec (nmax (d s)) 1) as [Hs|Hs].
    + replace (nmax (d s) - 1)%nat with 0%nat by lia. cbn [seq bb_loop]. wpure. cbn [bern set_bern]. split; [reflexivity|].
      rewrite nset_length; lia.
    + destruct Hlast as [F|Hlast]; [exfalso; change (list_max (d s)) with (nmax (d s)) in F; lia|].
      eapply wp_call; [apply (bb_loop_ok o q al _ _ (nmax (d s)) V Hq Hq1 Hal)|..]; cbv beta.
      * apply bincount_length; assumption.
      * rewrite tail_counts_length by (apply bincount_nonnil; assumption). apply bincount_length; assumption.
      * apply no_gaps_pos; assumption.
      * apply tail_pos; assumption.
      * rewrite nset_length; lia.
      * rewrite <- (nth_last _ (nmax (d s)) 0%nat); [|rewrite nset_length; lia]. rewrite nth_nset_other by lia.
        unfold bs. change 0%nat with (Z.to_nat 0). rewrite map_nth.
        unfold bb_proposals in Hlast. rewrite binom_answers_rep in Hlast.
        change (nmax (d s)) with (list_max (d s)).
        set (l := fst (binom_draws o 1 (repeat q (S (list_max (d s)))) g)) in *.
        assert (Ll : length l = S (list_max (d s))) by (unfold l; rewrite binom_draws_length, repeat_length; reflexivity).
        rewrite (nth_last l _ 0%Z Ll), Hlast. reflexivity.
      * apply Forall_forall. intros j Hj. apply in_seq in Hj. lia.
      * intros a s' g' (x & E & Lx & ->). injection E as ->. wpure. cbn [bern set_bern]. auto.
      * intros e s' g' (x & E & _); discriminate.
      * intros s' g' (x & E & _); discriminate.
  - intros [] s' g' [_ Lb]. wpure. apply wp_bind.
    assert (Nm : ncumsum (bern s') <> []).
    { intros F. apply (f_equal (@length nat)) in F. rewrite ncumsum_length, Lb in F. discriminate. }
    apply wp_beta_many_ok.
    { unfold pairs. apply Forall_forall. intros [x y] Hx. cbn [fst snd]. split.
      - apply in_combine_l, in_map_iff in Hx. destruct Hx as (n & <- & _). pose proof (nq_nonneg n). lra.
      - apply in_combine_r, in_map_iff in Hx. destruct Hx as (n & <- & _). pose proof (nq_nonneg n). lra. }
    wpure. match goal with |- context [gather ?x ?i] => destruct (gather x i) as [nv|] eqn:E end.
    + wpure. eapply wp_call; [apply (bb_complete_ok o q al _ _ _ ltac:(lra) Hal)|..]; cbv beta.
      * cbn [v refresh_w set_w set_v]. intros ->. apply gather_length in E. rewrite ncumsum_length, Lb in E. discriminate.
      * intros; wpure. reflexivity.
      * intros e s1 g1 F. destruct size; simpl in *; try contradiction; apply F; discriminate.
      * intros s1 g1 F. destruct size; simpl in *; try contradiction; apply F; discriminate.
    + exfalso. apply gather_none in E. apply Exists_exists in E. destruct E as (i & Hi & Hx).
      rewrite answers_len in Hx. unfold pairs in Hx. rewrite combine_length, !map_length, !wbincount_length in Hx by assumption.
      pose proof (nmax_ge (ncumsum (bern s'))) as G. rewrite Forall_forall in G. specialize (G i Hi). lia.
Qed.

Lemma c16_zero_proof q al o s g : 0 <= q <= 1 -> d s = [] -> bern s <> [] ->
  ends_with (wm_random (CBB q al) (SInt 0) o s g) (fun r s' g' => r = Err IndexError /\ bern s' = [] /\ g' = g).
Proof.
  intros Hq Hd Hb.
  change (wp o (bb_random q al (SInt 0)) (fun r s' g' => r = Err IndexError /\ bern s' = [] /\ g' = g) s g).
  unfold bb_random. wpure. rewrite Hd. cbn [is_snone is_nil andb]. wpure. eapply wp_int; [reflexivity|]. cbn [Z.ltb Z.compare Z.to_nat].
  unfold bb_random_bernoullis. apply wp_assoc, wp_bind, wp_binom_rep; [|intros F; rewrite prob_okI in F by apply Hq; discriminate].
  intros _. wpure. cbn [bern set_v d]. rewrite (snil _ Hb), Hd. cbn [is_nil]. wpure.
  cbn. rewrite app_nil_r. auto.
Qed.

Lemma c16_unusable_proof q al size o s g : bern s = [] -> 
  ends_with (wm_random (CBB q al) size o s g) (fun r s' g' => is_ok r = false /\ bern s' = []).
Proof.
  intros Hb.
  change (wp o (bb_random q al size) (fun r s' g' => is_ok r = false /\ bern s' = []) s g).
  unfold bb_random, bb_random_bernoullis. wpure.
  destruct (is_snone size && is_nil (d s)); [apply wp_raise; auto|]. wpure.
  assert (K : forall n s1 g1 A (k : unit -> M ws A), bern s1 = [] -> wp o (bind (bb_random_bernoullis q al n) k) (fun r s' g' => is_ok r = false /\ bern s' = []) s1 g1).
  { intros n s1 g1 A k H1. unfold bb_random_bernoullis. apply wp_assoc, wp_bind, wp_binom_rep; [|auto]. intros _. wpure. rewrite H1.
    cbn [is_nil]. apply wp_bind, wp_raise. auto. }
  destruct (is_nil (d s)).
  - apply wp_bind, wp_need_int; [|auto]. intros k _. destruct (k <? 0)%Z; [apply wp_raise; auto|]. apply K. assumption.
  - apply K. assumption.
Qed.
