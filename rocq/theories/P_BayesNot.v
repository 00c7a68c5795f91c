(* Fitted draws whose means are not the posterior means. *)
From Coq Require Import Lqa Field QArith.Qfield.
From Verif Require Import Prelude Numpy Rng M_Weights S_Weights S_Hist S_Draws S_More S_Moment S_Bayes P_Lists P_Wp P_Post P_More P_Bib P_MomentLaw P_Moment P_MomentInd P_MomentDep P_MomentBbin P_Bayes.
Open Scope Q_scope.

Lemma off_not N L prior s0 post s1 lik psi : moments N L -> bayes_off (fun y m => ~ y == m) L prior s0 post s1 lik psi -> ~ bayes L prior s0 post s1 lik psi.
Proof.
  intros ML (z & m & y & Hz & A & B & C & D) (z' & m' & Hz' & A' & C' & B'). apply D.
  pose proof (mean_unique N L _ _ _ _ _ ML A A') as E1. pose proof (mean_unique N L _ _ _ _ _ ML B B') as E2. pose proof (mean_unique N L _ _ _ _ _ ML C C') as E3.
  rewrite E3. rewrite <- E1 in E2. apply (Qmult_inj_l m' m z) in E2 || (symmetry in E2; apply (Qmult_inj_l m' m z)); try lra; try (symmetry; exact E2); symmetry; exact E2.
Qed.

Lemma lik_0 s' : length (v s') = 1%nat -> stick_image (v s') (w s') -> label_chance [0%nat] (Ok (w s')) s' == nth 0 (v s') 0.
Proof. intros Hl (_ & Hw). unfold label_chance, qproduct. cbn [map fold_right weight]. rewrite Hw by lia. cbn. ring. Qed.
Lemma wgt_0 s' : length (v s') = 1%nat -> stick_image (v s') (w s') -> weight 0 (Ok (w s')) s' == nth 0 (v s') 0.
Proof. intros Hl (_ & Hw). cbn [weight]. rewrite Hw by lia. cbn. ring. Qed.

Section Law.
Variables (N : nat) (L : law).
Hypothesis ML : moments N L.
Hypothesis HN : (2 <= N)%nat.
Lemma quad_red a b c f : 0 < a -> 0 < b -> (forall x, 0 <= x <= 1 -> f x == quad c x) ->
  e_beta L (Qred a) (Qred b) f == quad c 0 + (let '(_, c1, c2) := c in c1 * (a / (a + b)) + c2 * (a * (a + 1) / ((a + b) * (a + b + 1)))).
Proof.
  intros Ha Hb H. assert (0 < Qred a) by (rewrite Qred_correct; exact Ha). assert (0 < Qred b) by (rewrite Qred_correct; exact Hb).
  rewrite (beta_ext N L ML _ _ f (quad c)) by (intros x Cx; apply H, Cx; assumption).
  rewrite (beta_quad N L ML HN) by assumption. destruct c as [[c0 c1] c2]. rewrite !Qred_correct. reflexivity.
Qed.
Lemma bin_lin n q c0 c1 f : (0 <= n)%Z -> 0 <= q <= 1 -> (forall b, (0 <= b <= n)%Z -> f b == c0 + c1 * zq b) ->
  e_binom L n (Qred q) f == c0 + c1 * (zq n * q).
Proof.
  intros Hn Hq H. assert (Hr : 0 <= Qred q <= 1) by (rewrite Qred_correct; exact Hq).
  rewrite (binom_ext N L ML n (Qred q) f (fun b => c0 * 1 + c1 * zq b)).
  - rewrite (binom_add N L ML n (Qred q) (fun _ => c0 * 1) (fun b => c1 * zq b)) by assumption. rewrite (binom_scale N L ML n (Qred q) c0 (fun _ => 1)), (binom_scale N L ML n (Qred q) c1 zq) by assumption.
    rewrite (binom_one N L ML), (binom_mean N L ML) by assumption. rewrite Qred_correct. ring.
  - intros b C. destruct (C Hn) as (R & _). rewrite (H b (R Hr)). ring.
Qed.

(* ---- BetaInBeta, 0 < x < 1: p ~ Beta(a, b), then the sticks ---- *)
Section Bib.
Variables (x al a b : Q) (pm : pmethod).
Hypothesis Hx0 : 0 < x. Hypothesis Hx1 : x < 1. Hypothesis Hal : 0 < al. Hypothesis Ha : 0 < a. Hypothesis Hb : 0 < b.
Let c := x / (1 - x).
Let St := 1 + al + c.
Definition bib_prior_call : M ws (list Q) := bib_random_p x a b pm ;; wm_random (CBIB x al a b pm) (SInt 1).
Lemma c_pos : 0 < c. Proof. unfold c. apply Qlt_shift_div_l; lra. Qed.
Lemma random_p_prior o s g (P : post ws Q) : d s = [] ->
  (let q := o_beta o g (Qred a) (Qred b) in P (Ok q) (set_p q s) (g ++ [rbeta a b])) -> wp o (bib_random_p x a b pm) P s g.
Proof.
  intros Hd H. destruct (mid_facts x Hx0 Hx1) as (E1 & E2 & _). unfold bib_random_p. wpure. rewrite E1, E2, Hd. cbn [is_nil]. apply wp_bind, wp_beta1_ok; [assumption|assumption|]. apply wp_bind, wp_upd, wp_ret. exact H.
Qed.
Definition prior_tree (F : Q -> Q) : tree := ABeta (Qred a) (Qred b) (fun q => ABeta (Qred (1 + c * q)) (Qred (al + c * (1 - q))) (fun v => Leaf (F v))).
Lemma prior_follow s f F : d s = [] ->
  (forall s', length (v s') = 1%nat -> stick_image (v s') (w s') -> f (Ok (w s')) s' == F (nth 0 (v s') 0)) ->
  forall o g, valid_oracle o -> let '(r, s', g') := bib_prior_call o s g in let '(z, g'') := follow (prior_tree F) o g in g' = g'' /\ f r s' == z.
Proof.
  intros Hd HF o g V.
  assert (X : wp o bib_prior_call (fun r s' g' => let q := o_beta o g (Qred a) (Qred b) in g' = g ++ [rbeta a b; bib_prior x al q] /\ r = Ok (w s') /\ v s' = beta_answers o (g ++ [rbeta a b]) [bib_prior x al q] /\ stick_image (v s') (w s')) s g).
  { unfold bib_prior_call. apply wp_bind. apply random_p_prior; [exact Hd|]. cbv zeta. set (q := o_beta o g (Qred a) (Qred b)).
    assert (Hq : 0 <= q <= 1) by (apply (vo_beta o V); rewrite Qred_correct; assumption).
    pose proof (c62_prior_proof x al a b pm 1 o (set_p q s) (g ++ [rbeta a b]) Hx0 Hx1 Hal Hd Hq ltac:(lia)) as Y. unfold wp. unfold ends_with in Y. cbn [Z.of_nat Pos.of_succ_nat] in Y.
    destruct (wm_random _ _ o _ _) as [[r s'] g']. destruct Y as ((-> & Hg & Hv & Hw & _) & _). cbn [repeat p set_p] in *. rewrite Hg, <- app_assoc. split; [reflexivity|]. split; [reflexivity|]. split; [exact Hv|exact Hw]. }
  unfold wp in X. cbv zeta in X. destruct (bib_prior_call o s g) as [[r s'] g']. destruct X as (-> & -> & Hv & Hw). cbn [prior_tree follow].
  unfold bib_prior, rbeta in *. unfold c. rewrite <- app_assoc. split; [reflexivity|]. cbn [beta_answers] in Hv. rewrite HF; [|rewrite Hv; reflexivity|exact Hw]. rewrite Hv. reflexivity.
Qed.
Definition mm : Q := a / (a + b).
Definition mr : Q := a * (a + 1) / ((a + b) * (a + b + 1)).
Lemma par q : 0 <= q <= 1 -> 0 < 1 + c * q /\ 0 < al + c * (1 - q).
Proof. intros Hq. pose proof c_pos. assert (0 <= c * q) by (apply Qmult_le_0_compat; lra). assert (0 <= c * (1 - q)) by (apply Qmult_le_0_compat; lra). split; lra. Qed.
Lemma St_pos : 0 < St. Proof. pose proof c_pos. unfold St. lra. Qed.
Lemma tree_1 : tmean L (prior_tree (fun v => v)) == (1 + c * mm) / St.
Proof.
  cbn [prior_tree tmean]. pose proof St_pos. pose proof c_pos. rewrite (quad_red a b (1 / St, c / St, 0)); auto.
  - unfold quad, mm. field. split; lra.
  - intros q Hq. destruct (par q Hq) as (P1 & P2). rewrite (quad_red _ _ (0, 1, 0)); auto; [|intros; cbn; ring]. unfold quad. unfold St in *.
    assert (E : 1 + c * q + (al + c * (1 - q)) == 1 + al + c) by ring. rewrite E. field. split; lra.
Qed.
Lemma tree_2 : tmean L (prior_tree (fun v => v * v)) == (2 + 3 * c * mm + c * c * mr) / (St * (St + 1)).
Proof.
  cbn [prior_tree tmean]. pose proof St_pos. pose proof c_pos. rewrite (quad_red a b (2 / (St * (St + 1)), 3 * c / (St * (St + 1)), c * c / (St * (St + 1)))); auto.
  - unfold quad, mm, mr. field. repeat split; lra.
  - intros q Hq. destruct (par q Hq) as (P1 & P2). rewrite (quad_red _ _ (0, 0, 1)); auto; [|intros; cbn; ring]. unfold quad. unfold St in *.
    assert (E : 1 + c * q + (al + c * (1 - q)) == 1 + al + c) by ring. rewrite E. field. repeat split; lra.
Qed.
(* the fitted call on the label 0, when p is renewed from Beta(a + e, b) *)
Variable a' : Q.
Hypothesis Ha' : 0 < a'.
Hypothesis Hreq : p_requests pm a b [0%nat] = [rbeta a' b].
Hypothesis Hm : closed_method pm.
Definition post_tree : tree := ABeta (Qred a') (Qred b) (fun q => ABeta (Qred (1 + c * q + nq 1)) (Qred (al + c * (1 - q) + nq 0)) (fun v => ABeta (Qred a') (Qred b) (fun _ => Leaf v))).
Lemma post_follow size s : d s = [0%nat] -> 0 <= p s <= 1 -> size = SNone \/ size = SInt 1 ->
  forall o g, valid_oracle o -> let '(r, s', g') := wm_random (CBIB x al a b pm) size o s g in let '(z, g'') := follow post_tree o g in g' = g'' /\ weight 0 r s' == z.
Proof.
  intros Hd Hp Hs o g V. assert (Hd' : d s <> []) by (rewrite Hd; discriminate).
  assert (Hs' : size = SNone /\ 1%nat = S (list_max (d s)) \/ size = SInt (Z.of_nat 1)) by (destruct Hs as [->| ->]; [left; rewrite Hd; split; reflexivity|right; reflexivity]).
  pose proof (c62_fitted_proof x al a b pm size 1 o s g V Hx0 Hx1 Hal Ha Hb Hd' Hm Hp ltac:(lia) Hs') as X. unfold ends_with in X. cbv zeta in X.
  destruct (wm_random _ _ o s g) as [[r s'] g']. rewrite Hd, Hreq in X. unfold p_after, rbeta in X. cbn [beta_answers last labels list_max fold_right Nat.max Nat.sub repeat seq firstn map] in X.
  unfold bib_post, rbeta in X. cbn [app beta_answers] in X. destruct X as (-> & Hg & Hv & _ & Hw). cbn [post_tree follow].
  rewrite Hg. unfold c. cbn [app]. split; [rewrite <- !app_assoc; reflexivity|]. rewrite wgt_0; [|rewrite Hv; reflexivity|exact Hw]. rewrite Hv. reflexivity.
Qed.
Lemma tree_post : tmean L post_tree == (2 + c * (a' / (a' + b))) / (St + 1).
Proof.
  cbn [post_tree tmean]. pose proof St_pos. pose proof c_pos. rewrite (quad_red a' b (2 / (St + 1), c / (St + 1), 0)); auto.
  - unfold quad. field. split; lra.
  - intros q Hq. destruct (par q Hq) as (P1 & P2). change (nq 1) with 1. change (nq 0) with 0. rewrite (quad_red _ _ (0, 1, 0)); try lra.
    + unfold quad. unfold St in *. assert (E : 1 + c * q + 1 + (al + c * (1 - q) + 0) == 1 + al + c + 1) by ring. rewrite E. field. repeat split; lra.
    + intros v Hv. rewrite (quad_red a' b (v, 0, 0)); auto; [unfold quad; field; repeat split; lra|intros; unfold quad; ring].
Qed.
Lemma bib_gap (R : Q -> Q -> Prop) size s0 s1 : d s0 = [] -> d s1 = [0%nat] -> 0 <= p s1 <= 1 -> size = SNone \/ size = SInt 1 ->
  R ((2 + c * (a' / (a' + b))) / (St + 1)) ((2 + 3 * c * mm + c * c * mr) / ((1 + c * mm) * (St + 1))) ->
  bayes_off R L bib_prior_call s0 (wm_random (CBIB x al a b pm) size) s1 (label_chance [0%nat]) (weight 0).
Proof.
  intros H0 H1 Hp Hs HR. pose proof St_pos. pose proof c_pos. assert (Hmm : 0 < mm) by (unfold mm; apply Qlt_shift_div_l; lra). assert (0 < c * mm) by (apply Qmult_lt_0_compat; assumption).
  exists ((1 + c * mm) / St), ((2 + 3 * c * mm + c * c * mr) / ((1 + c * mm) * (St + 1))), ((2 + c * (a' / (a' + b))) / (St + 1)).
  split; [apply Qlt_shift_div_l; lra|]. split; [|split; [|split]].
  - exists (prior_tree (fun v => v)). split; [|exact tree_1]. apply prior_follow; [exact H0|]. exact lik_0.
  - exists (prior_tree (fun v => v * v)). split; [|rewrite tree_2; field; repeat split; lra]. apply prior_follow; [exact H0|]. intros s' Hl HI. rewrite lik_0, wgt_0 by assumption. reflexivity.
  - exists post_tree. split; [|exact tree_post]. apply post_follow; assumption.
  - exact HR.
Qed.
End Bib.
End Law.

Lemma bib_independent N L x al a b size s0 s1 : moments N L -> (2 <= N)%nat -> 0 < x -> x < 1 -> 0 < al -> 0 < a -> 0 < b ->
  d s0 = [] -> d s1 = [0%nat] -> 0 <= p s1 <= 1 -> size = SNone \/ size = SInt 1 ->
  bayes_off Qlt L (bib_random_p x a b PIndependent ;; wm_random (CBIB x al a b PIndependent) (SInt 1)) s0 (wm_random (CBIB x al a b PIndependent) size) s1 (label_chance [0%nat]) (weight 0).
Proof.
  intros ML HN Hx0 Hx1 Hal Ha Hb H0 H1 Hp Hs.
  apply (bib_gap N L ML HN x al a b PIndependent Hx0 Hx1 Hal Ha Hb a); auto; [right; left; reflexivity|].
  pose proof (c_pos x Hx0 Hx1) as Hc. set (c := x / (1 - x)) in *. unfold mm, mr.
  assert (0 < c * (a / (a + b))) by (apply Qmult_lt_0_compat; [exact Hc|apply Qlt_shift_div_l; lra]).
  apply Qlt_minus_iff. setoid_replace ((2 + 3 * c * (a / (a + b)) + c * c * (a * (a + 1) / ((a + b) * (a + b + 1)))) / ((1 + c * (a / (a + b))) * (1 + al + c + 1)) + - ((2 + c * (a / (a + b))) / (1 + al + c + 1)))
    with (c * c * (a * b) / ((a + b) * (a + b) * (a + b + 1) * (1 + c * (a / (a + b))) * (1 + al + c + 1))).
  - apply Qlt_shift_div_l; [|rewrite Qmult_0_l; apply Qmult_lt_0_compat; apply Qmult_lt_0_compat; assumption].
    repeat (apply Qmult_lt_0_compat; [|lra]). lra.
  - field. repeat split; try lra. assert (0 < c * a) by (apply Qmult_lt_0_compat; assumption). lra.
Qed.
Lemma bib_geometric N L x al a b size s0 s1 : moments N L -> (2 <= N)%nat -> 0 < x -> x < 1 -> 0 < al -> 0 < a -> 0 < b ->
  d s0 = [] -> d s1 = [0%nat] -> 0 <= p s1 <= 1 -> size = SNone \/ size = SInt 1 ->
  bayes_off (fun y m => m < y) L (bib_random_p x a b PGeometric ;; wm_random (CBIB x al a b PGeometric) (SInt 1)) s0 (wm_random (CBIB x al a b PGeometric) size) s1 (label_chance [0%nat]) (weight 0).
Proof.
  intros ML HN Hx0 Hx1 Hal Ha Hb H0 H1 Hp Hs.
  apply (bib_gap N L ML HN x al a b PGeometric Hx0 Hx1 Hal Ha Hb (a + 1)); auto; [lra| |right; right; reflexivity|].
  { unfold p_requests, bib_req. cbn [length list_sum fold_right Nat.add]. f_equal. apply rbeta_eq; [reflexivity|]. eapply Qeq_trans; [|apply Qplus_0_r]. apply Qplus_comp; reflexivity. }
  pose proof (c_pos x Hx0 Hx1) as Hc. set (c := x / (1 - x)) in *. unfold mm, mr.
  assert (0 < c * (a / (a + b))) by (apply Qmult_lt_0_compat; [exact Hc|apply Qlt_shift_div_l; lra]).
  apply Qlt_minus_iff. setoid_replace ((2 + c * ((a + 1) / (a + 1 + b))) / (1 + al + c + 1) + - ((2 + 3 * c * (a / (a + b)) + c * c * (a * (a + 1) / ((a + b) * (a + b + 1)))) / ((1 + c * (a / (a + b))) * (1 + al + c + 1))))
    with (c * b / ((a + b) * (a + b + 1) * (1 + c * (a / (a + b))) * (1 + al + c + 1))).
  - apply Qlt_shift_div_l; [|rewrite Qmult_0_l; apply Qmult_lt_0_compat; assumption].
    repeat (apply Qmult_lt_0_compat; [|lra]). lra.
  - assert (0 < c * a) by (apply Qmult_lt_0_compat; assumption). field. repeat split; lra.
Qed.

(* ---- BetaBinomial, n >= 1, on the label 0 ---- *)
Definition bbin_tree (n : Z) (al : Q) : tree :=
  ABeta 1 (Qred al) (fun u => ABeta (Qred (1 + nq 1)) (Qred (al + nq 0)) (fun u' =>
    ABinom n (Qred u) (fun b => ABinom n (Qred u') (fun b' =>
      ABeta (Qred (1 + nq 1 + zq (b + b'))) (Qred (al + nq 0 + 2 * zq n - zq (b + b'))) (fun v => Leaf v))))).
Lemma bbin_tree_follow n al size s : (0 <= n)%Z -> 0 < al -> d s = [0%nat] -> size = SNone \/ size = SInt 1 ->
  forall o g, valid_oracle o -> let '(r, s', g') := wm_random (CBBin n al) size o s g in let '(z, g'') := follow (bbin_tree n al) o g in g' = g'' /\ weight 0 r s' == z.
Proof.
  intros Hn Hal Hd Hs o g V. assert (Hd' : d s <> []) by (rewrite Hd; discriminate).
  assert (Hs' : size = SNone /\ 1%nat = 1%nat \/ size = SInt (Z.of_nat 1)) by (destruct Hs as [->| ->]; [left; split; reflexivity|right; reflexivity]).
  pose proof (c12_gen n al size 1 o s g V Hn Hal Hd' Hs') as X. unfold wp, ends_with, bbin_drawn in X. cbv zeta in X.
  destruct (wm_random _ _ o s g) as [[r s'] g']. rewrite Hd in X. unfold bbin_counts, bbin_latent, dp_post, rbeta, rbinom in X.
  cbn [beta_answers last labels list_max fold_right Nat.max Nat.sub repeat seq firstn map binom_answers bbin_chain fst snd] in X.
  unfold bbin_post, rbeta in X. cbn [app beta_answers nth] in X. destruct X as (-> & Hg & Hv & Hw & _). cbn [bbin_tree follow]. change (Qred 1) with 1 in *.
  rewrite Hg. repeat rewrite <- app_assoc in Hv. repeat rewrite <- app_assoc. cbn [app] in *. split; [reflexivity|].
  rewrite wgt_0; [|rewrite Hv; reflexivity|exact Hw]. rewrite Hv. cbn [nth]. reflexivity.
Qed.
Lemma bbin_tree_mean N L n al : moments N L -> (2 <= N)%nat -> (0 <= n)%Z -> 0 < al ->
  tmean L (bbin_tree n al) == (2 + zq n * (1 / (1 + al)) + zq n * (2 / (2 + al))) / (2 + al + 2 * zq n).
Proof.
  intros ML HN Hn Hal. pose proof (zq_n n Hn) as Zn. set (D := 2 + al + 2 * zq n) in *. cbn [bbin_tree tmean]. change 1 with (Qred 1) at 1. change (nq 1) with 1. change (nq 0) with 0.
  rewrite (quad_red N L ML HN 1 al ((2 + zq n * (2 / (2 + al))) / D, zq n / D, 0)); try lra.
  - unfold quad, D. field. repeat split; lra.
  - intros u Hu. rewrite (quad_red N L ML HN (1 + 1) (al + 0) ((2 + zq n * u) / D, zq n / D, 0)); try lra.
    + unfold quad, D. field. repeat split; lra.
    + intros u' Hu'. rewrite (bin_lin N L ML n u ((2 + zq n * u') / D) (1 / D)); auto.
      * unfold quad, D. field. lra.
      * intros b Hb. rewrite (bin_lin N L ML n u' ((2 + zq b) / D) (1 / D)); auto; [unfold D; field; lra|].
        intros b' Hb'. pose proof (zq_b n b Hb). pose proof (zq_b n b' Hb'). assert (E : zq (b + b') == zq b + zq b') by (unfold zq; rewrite inject_Z_plus; reflexivity).
        rewrite (quad_red N L ML HN (1 + 1 + zq (b + b')) (al + 0 + 2 * zq n - zq (b + b')) (0, 1, 0)); try (rewrite E; lra); [|intros; unfold quad; ring].
        unfold quad. rewrite E. unfold D. field. repeat split; lra.
Qed.
Lemma bbin_gap N L n al size s0 s1 : moments N L -> (2 <= N)%nat -> (0 < n)%Z -> 0 < al -> d s0 = [] -> d s1 = [0%nat] -> size = SNone \/ size = SInt 1 ->
  bayes_off Qlt L (wm_random (CBBin n al) (SInt 1)) s0 (wm_random (CBBin n al) size) s1 (label_chance [0%nat]) (weight 0).
Proof.
  intros ML HN Hn Hal H0 H1 Hs. assert (Hn' : (0 <= n)%Z) by lia. pose proof (zq_n n Hn') as Zn.
  assert (Zp : 0 < zq n) by (unfold zq; change 0 with (inject_Z 0); rewrite <- Zlt_Qlt; exact Hn).
  exists (1 / (1 + al)), (2 / (2 + al)), ((2 + zq n * (1 / (1 + al)) + zq n * (2 / (2 + al))) / (2 + al + 2 * zq n)).
  split; [apply Qlt_shift_div_l; lra|]. split; [|split; [|split]].
  - eapply mean_same; [|eapply mean_eq; [apply (bbin_stick N L ML HN n al Hn' Hal 1 s0 (0, 1, 0) 0 H0); lia|unfold start; field; lra]].
    intros o g V. pose proof (c12_prior_gen n al 1 o s0 g V Hn' Hal H0 ltac:(lia)) as X. unfold wp in X. cbv zeta in X. change (SInt (Z.of_nat 1)) with (SInt 1) in X.
    destruct (wm_random _ _ o s0 g) as [[r s'] g']. destruct X as (-> & _ & Hv & Hw & _). rewrite lik_0; [unfold stick_fun, quad; ring|rewrite Hv; reflexivity|exact Hw].
  - eapply mean_same; [|eapply mean_eq; [apply (bbin_stick N L ML HN n al Hn' Hal 1 s0 (0, 0, 1) 0 H0); lia|unfold start; field; lra]].
    intros o g V. pose proof (c12_prior_gen n al 1 o s0 g V Hn' Hal H0 ltac:(lia)) as X. unfold wp in X. cbv zeta in X. change (SInt (Z.of_nat 1)) with (SInt 1) in X.
    destruct (wm_random _ _ o s0 g) as [[r s'] g']. destruct X as (-> & _ & Hv & Hw & _). rewrite lik_0, wgt_0; try (rewrite Hv; reflexivity); try exact Hw. unfold stick_fun, quad. ring.
  - exists (bbin_tree n al). split; [apply bbin_tree_follow; assumption|apply (bbin_tree_mean N L n al ML HN Hn' Hal)].
  - apply Qlt_minus_iff. setoid_replace (2 / (2 + al) + - ((2 + zq n * (1 / (1 + al)) + zq n * (2 / (2 + al))) / (2 + al + 2 * zq n))) with (zq n * al / ((1 + al) * (2 + al) * (2 + al + 2 * zq n))).
    + apply Qlt_shift_div_l; [|rewrite Qmult_0_l; apply Qmult_lt_0_compat; assumption]. repeat (apply Qmult_lt_0_compat; [|lra]). lra.
    + field. repeat split; lra.
Qed.

(* ---- BetaInBeta, x = 1: all sticks are p ---- *)
Lemma repeat_chance q s' n dd : v s' = repeat q n -> stick_image (v s') (w s') -> Forall (fun i => (i < n)%nat) dd ->
  label_chance dd (Ok (w s')) s' == qpow q (length dd) * qpow (1 - q) (list_sum dd).
Proof.
  intros Hv (Hl & Hw) HF. unfold label_chance, qproduct. induction HF as [|i dd Hi HF IH]; [cbn; ring|]. cbn [map fold_right length]. rewrite IH. cbn [weight].
  rewrite Hw by (rewrite Hv, repeat_length; exact Hi). rewrite Hv. assert (R : nth i (repeat q n) 0 = q) by (clear - Hi; revert n Hi; induction i; intros [|n] Hi; try lia; [reflexivity|apply IHi; lia]). rewrite R.
  change (list_sum (i :: dd)) with (i + list_sum dd)%nat. rewrite qpow_plus.
  assert (E : qproduct (map (fun x => 1 - x) (firstn i (repeat q n))) == qpow (1 - q) i).
  { clear - Hi. revert n Hi. induction i; intros n Hi; [reflexivity|]. destruct n; [lia|]. cbn [repeat firstn map]. unfold qproduct in *. cbn [fold_right qpow]. rewrite IHi by lia. reflexivity. }
  rewrite E. cbn [qpow]. ring.
Qed.
Lemma repeat_sticks q s' n e f : v s' = repeat q n -> (0 < n)%nat -> stick_powers [(e, f)] (Ok (w s')) s' == qpow q e * qpow (1 - q) f.
Proof. intros Hv Hn. unfold stick_powers. rewrite Hv. destruct n; [lia|]. cbn [repeat powers]. ring. Qed.
Lemma bib_one_bayes N L x al a b pm n size s0 s1 e f : moments N L -> x == 1 -> 0 < a -> 0 < b -> d s0 = [] -> d s1 <> [] -> (list_max (d s1) < n)%nat -> post_size (d s1) n size ->
  (length (d s1) + list_sum (d s1) + e + f <= N)%nat ->
  bayes L (bib_random_p x a b pm ;; wm_random (CBIB x al a b pm) (SInt (Z.of_nat n))) s0 (wm_random (CBIB x al a b pm) size) s1 (label_chance (d s1)) (stick_powers [(e, f)]).
Proof.
  intros ML Hx Ha Hb H0 H1 Hm Hs HN. set (dd := d s1) in *. pose proof (below dd n Hm) as HF. pose proof (nq_nonneg (length dd)). pose proof (nq_nonneg (list_sum dd)).
  assert (PR : forall E ff, (fst E + snd E <= N)%nat -> (forall q s', v s' = repeat q n -> stick_image (v s') (w s') -> ff (Ok (w s')) s' == mono E q) ->
     mean_of L (bib_random_p x a b pm ;; wm_random (CBIB x al a b pm) (SInt (Z.of_nat n))) s0 ff (beta_moment a b (fst E) (snd E))).
  { intros E ff HE Hff. eapply mean_eq; [apply (mean_independent N L ML _ s0 ff [rbeta a b] [E])|cbn [moments_prod]; rewrite req_moment_rbeta; ring].
    - constructor; [apply rbeta_pos; assumption|constructor].
    - constructor; [exact HE|constructor].
    - intros o g V. apply (wp_bind o). apply (wp_random_p1 x a b pm o s0 g); auto. cbv zeta. set (q := o_beta o g _ _).
      pose proof (c14_unfitted_proof x al a b pm n o (set_p q s0) (g ++ [bib_req a b (d s0)]) Hx H0 ltac:(lia)) as Y. unfold wp. unfold ends_with in Y.
      destruct (wm_random _ _ o _ _) as [[r s'] g']. destruct Y as (-> & -> & Hv & _ & Hw). cbn [p set_p] in Hv.
      assert (EE : bib_req a b (d s0) = rbeta a b) by (rewrite H0; unfold bib_req; apply rbeta_eq; (eapply Qeq_trans; [|apply Qplus_0_r]; apply Qplus_comp; reflexivity)).
      rewrite EE. split; [reflexivity|]. rewrite (Hff q s' Hv Hw). assert (E1 : Qred (a + nq (length (d s0))) = Qred a) by (rewrite H0; apply Qred_complete; apply Qplus_0_r).
      assert (E2 : Qred (b + nq (list_sum (d s0))) = Qred b) by (rewrite H0; apply Qred_complete; apply Qplus_0_r).
      unfold q. rewrite E1, E2. unfold rbeta. cbn [monos beta_answers]. ring. }
  assert (PO : forall E ff, (fst E + snd E <= N)%nat -> (forall q s', v s' = repeat q n -> stick_image (v s') (w s') -> ff (Ok (w s')) s' == mono E q) ->
     mean_of L (wm_random (CBIB x al a b pm) size) s1 ff (beta_moment (a + nq (length dd)) (b + nq (list_sum dd)) (fst E) (snd E))).
  { intros E ff HE Hff. eapply mean_eq; [apply (mean_independent N L ML _ s1 ff [bib_req a b dd; bib_req a b dd] [E])|cbn [moments_prod]; unfold bib_req; rewrite req_moment_rbeta; ring].
    - assert (beta_pos (bib_req a b dd)) by (apply rbeta_pos; lra). constructor; [assumption|constructor; [assumption|constructor]].
    - constructor; [exact HE|constructor].
    - intros o g V. assert (Hs' : size = SNone /\ n = S (list_max (d s1)) \/ size = SInt (Z.of_nat n)) by exact Hs.
      pose proof (c14_fitted_proof x al a b pm size n o s1 g Hx Ha Hb H1 ltac:(lia) Hs') as Y. cbv zeta in Y. unfold ends_with in *.
      destruct (wm_random _ _ o s1 g) as [[r s'] g']. destruct Y as (-> & Hg & _ & (q & Hq & Hv) & Hw). split; [exact Hg|]. fold dd in Hq. rewrite Hq. rewrite (Hff q s' Hv Hw). cbn [monos]. ring. }
  exists (beta_moment a b (length dd) (list_sum dd)), (beta_moment (a + nq (length dd)) (b + nq (list_sum dd)) e f).
  split; [apply moment_pos; assumption|]. split; [|split].
  - apply (PR (length dd, list_sum dd)); [cbn; lia|]. intros q s' Hv Hw. apply (repeat_chance q s' n dd Hv Hw HF).
  - apply (PO (e, f)); [cbn; lia|]. intros q s' Hv Hw. apply (repeat_sticks q s' n e f Hv). lia.
  - eapply mean_eq; [apply (PR (length dd + e, list_sum dd + f)%nat); [cbn; lia|]|apply moment_split; assumption].
    intros q s' Hv Hw. rewrite (repeat_chance q s' n dd Hv Hw HF), (repeat_sticks q s' n e f Hv) by lia. unfold mono. cbn [fst snd]. rewrite !qpow_plus. ring.
Qed.
