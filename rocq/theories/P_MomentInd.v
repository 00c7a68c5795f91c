(* Moments of the weights of the classes with independent sticks or one draw. *)
From Coq Require Import Lqa Field QArith.Qfield.
From Verif Require Import Prelude Numpy Rng M_Weights S_Weights S_Hist S_Draws S_More S_Moment P_Wp P_Post P_More P_Bib P_Moment.
Open Scope Q_scope.

Lemma bm01 a b : 0 < a -> 0 < b -> beta_moment a b 0 1 == b / (a + b). Proof. intros. unfold beta_moment. cbn. field. lra. Qed.
Lemma bm10 a b : 0 < a -> 0 < b -> beta_moment a b 1 0 == a / (a + b). Proof. intros. unfold beta_moment. cbn. field. lra. Qed.
Lemma bm02 a b : 0 < a -> 0 < b -> beta_moment a b 0 2 == b * (b + 1) / ((a + b) * (a + b + 1)). Proof. intros. unfold beta_moment. cbn. field. lra. Qed.
Lemma bm20 a b : 0 < a -> 0 < b -> beta_moment a b 2 0 == a * (a + 1) / ((a + b) * (a + b + 1)). Proof. intros. unfold beta_moment. cbn. field. lra. Qed.
Lemma bm11 a b : 0 < a -> 0 < b -> beta_moment a b 1 1 == a * b / ((a + b) * (a + b + 1)). Proof. intros. unfold beta_moment. cbn. field. lra. Qed.

#[global] Instance qpow_comp : Proper (Qeq ==> eq ==> Qeq) qpow.
Proof. intros x y E n m <-. induction n; cbn; [reflexivity|]. rewrite IHn, E. reflexivity. Qed.

Lemma moments_prod_seq (f : nat -> req) e0 : forall j n b es, (j + length es <= n)%nat -> length es = 1%nat ->
  moments_prod (map f (seq b n)) (repeat e0 j ++ es) ==
  req_moment (f (b + j)%nat) (nth 0 es (0, 0)%nat) * qproduct (map (fun i => req_moment (f i) e0) (seq b j)).
Proof.
  induction j; intros n b es H Hl.
  - destruct es as [|e [|]]; try discriminate. destruct n; [cbn in H; lia|]. cbn. rewrite Nat.add_0_r. destruct (map f (seq (S b) n)); cbn [moments_prod]; ring.
  - destruct n; [lia|]. cbn [seq map repeat app moments_prod qproduct fold_right]. rewrite IHj by (auto; lia). replace (S b + j)%nat with (b + S j)%nat by lia. unfold qproduct. ring.
Qed.
Lemma repeat_seq {X} (x : X) n b : repeat x n = map (fun _ => x) (seq b n).
Proof. revert b. induction n; intros b; cbn; [reflexivity|]. rewrite (IHn (S b)). reflexivity. Qed.
Lemma qproduct_const (c : Q) (f : nat -> Q) : forall n b, (forall i, f i == c) -> qproduct (map f (seq b n)) == qpow c n.
Proof. induction n; intros b H; cbn; [reflexivity|]. unfold qproduct in IHn. rewrite IHn by exact H. rewrite H. reflexivity. Qed.
Lemma qproduct_eq (f h : nat -> Q) l : (forall i, f i == h i) -> qproduct (map f l) == qproduct (map h l).
Proof. intros H. induction l; cbn; [reflexivity|]. unfold qproduct in IHl. rewrite IHl, H. reflexivity. Qed.
Lemma repeat_pos r n : beta_pos r -> Forall beta_pos (repeat r n).
Proof. intros H. apply Forall_forall. intros x Hx. apply repeat_spec in Hx. subst. exact H. Qed.
Lemma moments_prod_rep r : forall n es, (length es <= n)%nat -> moments_prod (repeat r n) es == qproduct (map (req_moment r) es).
Proof. induction n; intros [|e es] H; cbn in *; try reflexivity; try lia. unfold qproduct in IHn. rewrite IHn by lia. reflexivity. Qed.
Lemma qproduct_app l1 l2 : qproduct (l1 ++ l2) == qproduct l1 * qproduct l2.
Proof. unfold qproduct. induction l1; cbn [app fold_right]; [ring|]. rewrite IHl1. ring. Qed.
Lemma qproduct_repeat c n : qproduct (repeat c n) == qpow c n.
Proof. induction n; cbn; [reflexivity|]. unfold qproduct in IHn. rewrite IHn. reflexivity. Qed.
Lemma map_repeat' {X Y} (f : X -> Y) x n : map f (repeat x n) = repeat (f x) n.
Proof. induction n; cbn; congruence. Qed.

(* equal independent sticks Beta(a, b) *)
Definition same_mean (a b : Q) (j : nat) : Q := a / (a + b) * qpow (b / (a + b)) j.
Definition same_mean2 (a b : Q) (i j : nat) : Q :=
  let t := (a + b) * (a + b + 1) in
  qpow (b * (b + 1) / t) i * (if Nat.eqb i j then a * (a + 1) / t else a * b / t * qpow (b / (a + b)) (j - i - 1) * (a / (a + b))).

Lemma same_w1 a b n j : 0 < a -> 0 < b -> (j < n)%nat -> moments_prod (repeat (rbeta a b) n) (w1_exps j) == same_mean a b j.
Proof.
  intros Ha Hb H. unfold w1_exps. rewrite moments_prod_rep by (rewrite app_length, repeat_length; cbn; lia).
  rewrite map_app, qproduct_app, map_repeat', qproduct_repeat. cbn [map qproduct fold_right]. rewrite !req_moment_rbeta. cbn [fst snd].
  rewrite bm01, bm10 by auto. unfold same_mean. ring.
Qed.
Lemma same_w2 a b n i j : 0 < a -> 0 < b -> (i <= j)%nat -> (j < n)%nat -> moments_prod (repeat (rbeta a b) n) (w2_exps i j) == same_mean2 a b i j.
Proof.
  intros Ha Hb Hi H. unfold w2_exps, same_mean2. cbv zeta. destruct (Nat.eqb_spec i j) as [->|Ne].
  - rewrite moments_prod_rep by (rewrite app_length, repeat_length; cbn; lia).
    rewrite map_app, qproduct_app, map_repeat', qproduct_repeat. cbn [map qproduct fold_right]. rewrite !req_moment_rbeta. cbn [fst snd].
    rewrite bm02, bm20 by auto. ring.
  - rewrite moments_prod_rep by (rewrite !app_length, !repeat_length; cbn; lia).
    rewrite !map_app, !qproduct_app, !map_repeat', !qproduct_repeat. cbn [map qproduct fold_right]. rewrite !req_moment_rbeta. cbn [fst snd].
    rewrite bm02, bm11, bm01, bm10 by auto. ring.
Qed.

Lemma dp_mean N L al n s j : moments N L -> (1 <= N)%nat -> 0 < al -> d s = [] -> (j < n)%nat ->
  mean_of L (wm_random (CDP al) (SInt (Z.of_nat n))) s (weight j) (1 / (1 + al) * qpow (al / (1 + al)) j).
Proof.
  intros ML HN Hal Hd Hj. eapply mean_eq.
  - apply (drawn_mean N L _ s (repeat (rbeta 1 al) n) j ML HN); [apply repeat_pos, rbeta_pos; lra|rewrite repeat_length; lia|].
    intros o g _. apply c08_prior; auto; lia.
  - rewrite same_w1 by (auto; lra). reflexivity.
Qed.
Lemma dp_mean2 N L al n s i j : moments N L -> (2 <= N)%nat -> 0 < al -> d s = [] -> (i <= j)%nat -> (j < n)%nat ->
  mean_of L (wm_random (CDP al) (SInt (Z.of_nat n))) s (weights2 i j)
    (qpow (al / (2 + al)) i * (if Nat.eqb i j then 2 / ((1 + al) * (2 + al)) else al / ((1 + al) * (2 + al)) * qpow (al / (1 + al)) (j - i - 1) * (1 / (1 + al)))).
Proof.
  intros ML HN Hal Hd Hi Hj. eapply mean_eq.
  - apply (drawn_mean2 N L _ s (repeat (rbeta 1 al) n) i j ML HN); [apply repeat_pos, rbeta_pos; lra|exact Hi|rewrite repeat_length; lia|].
    intros o g _. apply c08_prior; auto; lia.
  - rewrite same_w2 by (auto; lra). unfold same_mean2.
    assert (E : al * (al + 1) / ((1 + al) * (1 + al + 1)) == al / (2 + al)) by (field; lra). cbv zeta. rewrite E.
    destruct (Nat.eqb i j).
    + assert (E2 : 1 * (1 + 1) / ((1 + al) * (1 + al + 1)) == 2 / ((1 + al) * (2 + al))) by (field; lra). rewrite E2. reflexivity.
    + assert (E2 : 1 * al / ((1 + al) * (1 + al + 1)) == al / ((1 + al) * (2 + al))) by (field; lra). rewrite E2. reflexivity.
Qed.

Lemma post_pos al dd : 0 < al -> forall l, Forall beta_pos (map (dp_post al dd) l).
Proof.
  intros H l. apply Forall_forall. intros r Hr. apply in_map_iff in Hr. destruct Hr as (j & <- & _). apply rbeta_pos.
  - assert (0 <= nq (n_eq j dd)) by (unfold nq; change 0 with (inject_Z 0); rewrite <- Zle_Qle; lia). lra.
  - assert (0 <= nq (n_gt j dd)) by (unfold nq; change 0 with (inject_Z 0); rewrite <- Zle_Qle; lia). lra.
Qed.
Lemma nq_nonneg n : 0 <= nq n. Proof. unfold nq. change 0 with (inject_Z 0). rewrite <- Zle_Qle. lia. Qed.

Lemma dp_post_mean N L al s j : moments N L -> (1 <= N)%nat -> 0 < al -> d s <> [] -> (j <= list_max (d s))%nat ->
  mean_of L (wm_random (CDP al) SNone) s (weight j)
    ((1 + nq (n_eq j (d s))) / (1 + al + nq (n_eq j (d s)) + nq (n_gt j (d s))) *
     qproduct (map (fun i => (al + nq (n_gt i (d s))) / (1 + al + nq (n_eq i (d s)) + nq (n_gt i (d s)))) (seq 0 j))).
Proof.
  intros ML HN Hal Hd Hj. eapply mean_eq.
  - apply (drawn_mean N L _ s (map (dp_post al (d s)) (labels (d s))) j ML HN); [apply post_pos; exact Hal|unfold labels; rewrite map_length, seq_length; lia|].
    intros o g _. apply c08_none; auto.
  - unfold w1_exps, labels. rewrite moments_prod_seq by (cbn; lia). cbn [nth Nat.add].
    assert (P : forall i, 0 < 1 + nq (n_eq i (d s)) /\ 0 < al + nq (n_gt i (d s))).
    { intros i. pose proof (nq_nonneg (n_eq i (d s))). pose proof (nq_nonneg (n_gt i (d s))). lra. }
    rewrite (qproduct_eq _ (fun i => (al + nq (n_gt i (d s))) / (1 + al + nq (n_eq i (d s)) + nq (n_gt i (d s))))).
    + unfold dp_post at 1. rewrite req_moment_rbeta. cbn [fst snd]. rewrite bm10 by apply P.
      assert (E : 1 + nq (n_eq j (d s)) + (al + nq (n_gt j (d s))) == 1 + al + nq (n_eq j (d s)) + nq (n_gt j (d s))) by ring. rewrite E. reflexivity.
    + intros i. unfold dp_post. rewrite req_moment_rbeta. cbn [fst snd]. rewrite bm01 by apply P.
      assert (E : 1 + nq (n_eq i (d s)) + (al + nq (n_gt i (d s))) == 1 + al + nq (n_eq i (d s)) + nq (n_gt i (d s))) by ring. rewrite E. reflexivity.
Qed.

Lemma py_mean N L pd al n s j : moments N L -> (1 <= N)%nat -> py_ok pd al -> d s = [] -> (j < n)%nat ->
  mean_of L (wm_random (CPY pd al) (SInt (Z.of_nat n))) s (weight j)
    ((1 - pd) / (1 - pd + (al + nq j * pd)) * qproduct (map (fun i => (al + nq i * pd) / (1 - pd + (al + nq i * pd))) (seq 0 j))).
Proof.
  intros ML HN (H0 & H1 & Hal) Hd Hj.
  assert (P : forall i, 0 < 1 - pd /\ 0 < al + nq i * pd). { intros i. pose proof (nq_nonneg i). split; [lra|]. assert (0 <= nq i * pd) by (apply Qmult_le_0_compat; auto). lra. }
  eapply mean_eq.
  - apply (drawn_mean N L _ s (map (py_prior pd al) (seq 0 n)) j ML HN); [|rewrite map_length, seq_length; lia|].
    + apply Forall_forall. intros r Hr. apply in_map_iff in Hr. destruct Hr as (i & <- & _). apply rbeta_pos; apply (P i).
    + intros o g _. apply c09_prior; auto; [repeat split; auto|lia].
  - unfold w1_exps. rewrite moments_prod_seq by (cbn; lia). cbn [nth Nat.add].
    rewrite (qproduct_eq _ (fun i => (al + nq i * pd) / (1 - pd + (al + nq i * pd)))).
    + unfold py_prior at 1. rewrite req_moment_rbeta. cbn [fst snd]. rewrite bm10 by apply (P j). reflexivity.
    + intros i. unfold py_prior. rewrite req_moment_rbeta. cbn [fst snd]. rewrite bm01 by apply (P i). reflexivity.
Qed.

Lemma bib_mean N L x al a b pm n s j : moments N L -> (1 <= N)%nat -> 0 < x -> x < 1 -> 0 < al -> 0 <= p s <= 1 -> d s = [] -> (j < n)%nat ->
  let c := x / (1 - x) in
  mean_of L (wm_random (CBIB x al a b pm) (SInt (Z.of_nat n))) s (weight j)
    ((1 + c * p s) / (1 + al + c) * qpow ((al + c * (1 - p s)) / (1 + al + c)) j).
Proof.
  intros ML HN H0 H1 Hal Hp Hd Hj c.
  assert (Hc : 0 < c) by (unfold c; apply Qlt_shift_div_l; lra).
  assert (P1 : 0 < 1 + c * p s) by (assert (0 <= c * p s) by (apply Qmult_le_0_compat; lra); lra).
  assert (P2 : 0 < al + c * (1 - p s)) by (assert (0 <= c * (1 - p s)) by (apply Qmult_le_0_compat; lra); lra).
  eapply mean_eq.
  - apply (drawn_mean N L _ s (repeat (bib_prior x al (p s)) n) j ML HN); [apply repeat_pos, rbeta_pos; auto|rewrite repeat_length; lia|].
    intros o g _. pose proof (c62_prior_proof x al a b pm n o s g H0 H1 Hal Hd Hp ltac:(lia)) as X. unfold P_Wp.wp, ends_with in *.
    destruct (wm_random _ _ o s g) as [[r s'] g']. apply X.
  - unfold bib_prior. fold c. rewrite same_w1 by auto. unfold same_mean.
    assert (E : 1 + c * p s + (al + c * (1 - p s)) == 1 + al + c) by ring. rewrite E. reflexivity.
Qed.

(* ---- GeometricProcess ---- *)
Lemma geom_post N L a b n s j : moments N L -> (S j <= N)%nat -> 0 < a -> 0 < b -> (j < n)%nat ->
  mean_of L (wm_random (CGeom a b) (SInt (Z.of_nat n))) s (weight j)
    (beta_moment (a + nq (length (d s))) (b + nq (list_sum (d s))) 1 j).
Proof.
  intros ML HN Ha Hb Hj. pose proof (nq_nonneg (length (d s))). pose proof (nq_nonneg (list_sum (d s))).
  set (rq := rbeta (a + nq (length (d s))) (b + nq (list_sum (d s)))). assert (P : beta_pos rq) by (apply rbeta_pos; lra).
  eapply mean_eq.
  - apply (mean_independent N L ML) with (rs := [rq]) (es := [(1, j)]%nat); [constructor; [exact P|constructor]|constructor; [cbn; lia|constructor]|].
    intros o g _. pose proof (c10_gen a b (SInt (Z.of_nat n)) n o s g Ha Hb ltac:(lia) ltac:(right; reflexivity)) as X. unfold P_Wp.wp, ends_with, geom_drawn in X. cbv zeta in X. unfold ends_with.
    destruct (wm_random _ _ o s g) as [[r s'] g']. destruct X as (-> & Hg & Hp & _ & _ & Hw). split; [exact Hg|]. fold rq in Hp. rewrite <- Hp. cbn [weight monos mono fst snd]. rewrite (Hw j Hj). unfold mono. cbn. ring.
  - cbn [moments_prod]. unfold rq. rewrite req_moment_rbeta. cbn [fst snd]. ring.
Qed.
Lemma qpow_add x i j : qpow x (i + j) == qpow x i * qpow x j.
Proof. induction i; cbn; [ring|]. rewrite IHi. ring. Qed.
Lemma geom_post2 N L a b n s i j : moments N L -> (2 + i + j <= N)%nat -> 0 < a -> 0 < b -> (i < n)%nat -> (j < n)%nat ->
  mean_of L (wm_random (CGeom a b) (SInt (Z.of_nat n))) s (weights2 i j)
    (beta_moment (a + nq (length (d s))) (b + nq (list_sum (d s))) 2 (i + j)).
Proof.
  intros ML HN Ha Hb Hi Hj. pose proof (nq_nonneg (length (d s))). pose proof (nq_nonneg (list_sum (d s))).
  set (rq := rbeta (a + nq (length (d s))) (b + nq (list_sum (d s)))). assert (P : beta_pos rq) by (apply rbeta_pos; lra).
  eapply mean_eq.
  - apply (mean_independent N L ML) with (rs := [rq]) (es := [(2, i + j)]%nat); [constructor; [exact P|constructor]|constructor; [cbn; lia|constructor]|].
    intros o g _. pose proof (c10_gen a b (SInt (Z.of_nat n)) n o s g Ha Hb ltac:(lia) ltac:(right; reflexivity)) as X. unfold P_Wp.wp, ends_with, geom_drawn in X. cbv zeta in X. unfold ends_with.
    destruct (wm_random _ _ o s g) as [[r s'] g']. destruct X as (-> & Hg & Hp & _ & _ & Hw). split; [exact Hg|]. fold rq in Hp. rewrite <- Hp. unfold weights2. cbn [weight monos fst snd]. rewrite (Hw j Hj), (Hw i Hi). unfold mono. cbn [fst snd]. rewrite qpow_add. cbn. ring.
  - cbn [moments_prod]. unfold rq. rewrite req_moment_rbeta. cbn [fst snd]. ring.
Qed.

(* ---- DirichletDistribution ---- *)
Lemma map_pos al : pos al -> pos (map Qred al).
Proof. induction 1; constructor; [rewrite Qred_correct; auto|auto]. Qed.
Lemma qsum_red al : qsum (map Qred al) == qsum al.
Proof. induction al; cbn; [reflexivity|]. rewrite Qred_correct, IHal. reflexivity. Qed.
Lemma nth_red al j : nth j (map Qred al) 0 == nth j al 0.
Proof. change 0 with (Qred 0) at 1. rewrite map_nth. apply Qred_correct. Qed.

Lemma dir_mean_of L m s f al (F : list Q -> Q) y : 
  (forall o g, valid_oracle o -> exists x s', m o s g = (Ok x, s', g ++ [RDirichlet al]) /\ f (Ok x) s' == F (o_dirichlet o g al)) ->
  e_dir L al F == y -> @mean_of ws (list Q) L m s f y.
Proof.
  intros H E. exists (ADir al (fun x => Leaf (F x))). split; [|exact E].
  intros o g V. destruct (H o g V) as (x & s' & -> & Ef). cbn [follow]. split; [reflexivity|exact Ef].
Qed.

Lemma dd_prior_mean N L n al size s j : moments N L -> al <> [] -> pos al -> d s = [] ->
  mean_of L (wm_random (CDirDist n al) size) s (weight j) (nth j al 0 / qsum al).
Proof.
  intros ML Ne P Hd. apply dir_mean_of with (al := map Qred al) (F := fun x => nth j x 0).
  - intros o g V. eexists _, _. split; [apply c11_prior_proof; auto|reflexivity].
  - eapply Qeq_trans; [apply (dir_mean N L ML); [destruct al; [congruence|discriminate]|apply map_pos; exact P]|]. rewrite nth_red, qsum_red. reflexivity.
Qed.
Lemma dd_prior_mean2 N L n al size s i j : moments N L -> pos al -> d s = [] -> (i < length al)%nat -> (j < length al)%nat ->
  mean_of L (wm_random (CDirDist n al) size) s (weights2 i j)
    (nth i al 0 * (nth j al 0 + (if Nat.eqb i j then 1 else 0)) / (qsum al * (qsum al + 1))).
Proof.
  intros ML P Hd Hi Hj. apply dir_mean_of with (al := map Qred al) (F := fun x => nth i x 0 * nth j x 0).
  - intros o g V. eexists _, _. split; [apply c11_prior_proof; auto|reflexivity].
  - eapply Qeq_trans; [apply (dir_two N L ML); [destruct al; [cbn in Hi; lia|discriminate]|apply map_pos; exact P|rewrite map_length; exact Hi|rewrite map_length; exact Hj]|]. rewrite !nth_red, !qsum_red. reflexivity.
Qed.
Lemma n_eq_total dd : forall k, (forall x, In x dd -> (x < k)%nat) -> qsum (map (fun j => nq (n_eq j dd)) (seq 0 k)) == nq (length dd).
Proof.
  intros k. induction dd as [|x dd IH]; intros H.
  - cbn. induction (seq 0 k); cbn; [reflexivity|]. rewrite IHl. reflexivity.
  - assert (E : qsum (map (fun j => nq (n_eq j (x :: dd))) (seq 0 k)) == qsum (map (fun j => nq (n_eq j dd)) (seq 0 k)) + qsum (map (fun j => if Nat.eqb j x then 1 else 0) (seq 0 k))).
    { clear IH H. induction (seq 0 k) as [|j l IHl]; [reflexivity|]. cbn [map qsum]. rewrite IHl.
      assert (F : nq (n_eq j (x :: dd)) == nq (n_eq j dd) + (if Nat.eqb j x then 1 else 0)).
      { unfold n_eq. cbn [count_occ]. destruct (Nat.eq_dec x j) as [->|Nx].
        - rewrite Nat.eqb_refl. unfold nq. rewrite Nat2Z.inj_succ. unfold Z.succ. rewrite inject_Z_plus. reflexivity.
        - destruct (Nat.eqb_spec j x); [congruence|]. ring. }
      rewrite F. ring. }
    rewrite E, IH by (intros; apply H; right; auto).
    assert (G : forall n b, (b <= x < b + n)%nat -> qsum (map (fun j => if Nat.eqb j x then 1 else 0) (seq b n)) == 1).
    { clear. assert (Z : forall n b, (x < b)%nat -> qsum (map (fun j => if Nat.eqb j x then 1 else 0) (seq b n)) == 0).
      { induction n; intros b Hb; [reflexivity|]. cbn [seq map qsum]. destruct (Nat.eqb_spec b x); [lia|]. rewrite IHn by lia. reflexivity. }
      induction n; intros b Hb; [lia|]. cbn [seq map qsum]. destruct (Nat.eqb_spec b x) as [->|]; [rewrite Z by lia; reflexivity|]. rewrite IHn by lia. reflexivity. }
    rewrite (G k 0%nat) by (split; [lia|apply H; left; reflexivity]). cbn [length]. unfold nq. replace (Z.of_nat (S (length dd))) with (Z.of_nat (length dd) + 1)%Z by lia. rewrite inject_Z_plus. reflexivity.
Qed.
Lemma list_max_in dd x : In x dd -> (x <= list_max dd)%nat.
Proof. intros H. pose proof (proj1 (list_max_le dd (list_max dd)) (Nat.le_refl _)) as F. rewrite Forall_forall in F. auto. Qed.
Lemma dd_post_mean N L n al size s j : moments N L -> pos al -> d s <> [] -> (list_max (d s) < length al)%nat ->
  mean_of L (wm_random (CDirDist n al) size) s (weight j)
    (if (j <? length al)%nat then (nth j al 0 + nq (n_eq j (d s))) / (qsum al + nq (length (d s))) else 0).
Proof.
  intros ML P Hd Hm. set (post := map (fun j => nth j al 0 + nq (n_eq j (d s))) (seq 0 (length al))).
  assert (PP : pos post). { unfold post, pos. apply Forall_forall. intros y Hy. apply in_map_iff in Hy. destruct Hy as (i & <- & Hi). apply in_seq in Hi. pose proof (nq_nonneg (n_eq i (d s))). assert (0 < nth i al 0) by (unfold pos in P; rewrite Forall_forall in P; apply P, nth_In; lia). lra. }
  apply dir_mean_of with (al := map Qred post) (F := fun x => nth j x 0).
  - intros o g V. eexists _, _. split; [apply c11_proof; auto|reflexivity].
  - assert (NE : map Qred post <> []) by (unfold post; destruct al; [cbn in Hm; lia|discriminate]).
    eapply Qeq_trans; [apply (dir_mean N L ML); [exact NE|apply map_pos; exact PP]|]. rewrite nth_red, qsum_red.
    assert (E : qsum post == qsum al + nq (length (d s))).
    { unfold post. rewrite <- (n_eq_total (d s) (length al)) by (intros x Hx; apply list_max_in in Hx; lia).
      assert (G : qsum al == qsum (map (fun i => nth i al 0) (seq 0 (length al)))).
      { clear. induction al as [|a al IH]; [reflexivity|]. cbn [length seq map qsum]. rewrite <- seq_shift, map_map. cbn [nth]. rewrite IH at 1. reflexivity. }
      rewrite G at 1. clear. induction (seq 0 (length al)); cbn; [reflexivity|]. rewrite IHl. ring. }
    rewrite E. destruct (Nat.ltb_spec j (length al)).
    + unfold post. rewrite nth_indep with (d' := (fun j => nth j al 0 + nq (n_eq j (d s))) 0%nat) by (rewrite map_length, seq_length; lia).
      rewrite (map_nth (fun j => nth j al 0 + nq (n_eq j (d s)))), seq_nth by lia. reflexivity.
    + rewrite nth_overflow by (unfold post; rewrite map_length, seq_length; lia). unfold Qdiv. ring.
Qed.
