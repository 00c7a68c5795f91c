(* Proofs for C76. *)
From Coq Require Import Reals Qreals Lra Lqa.
From Verif Require Import Prelude Numpy Rng M_Weights M_Ext M_Var S_Weights S_Draws S_More S_Var S_Opt S_Cond P_Wp P_Post P_More P_Var P_Var27 P_Opt.
Open Scope R_scope.

Lemma q2r_nq n : Q2R (nq n) = INR n.
Proof. unfold nq, Q2R. cbn [Qnum Qden inject_Z]. rewrite INR_IZR_INZ. Lra.lra. Qed.
Lemma q2r_zq n : Q2R (inject_Z n) = IZR n.
Proof. unfold Q2R. cbn [Qnum Qden inject_Z]. Lra.lra. Qed.
Lemma q2r_1 : Q2R 1 = 1.
Proof. unfold Q2R. simpl. Lra.lra. Qed.
Lemma q2r_red q : Q2R (Qred q) = Q2R q.
Proof. apply Qeq_eqR, Qred_correct. Qed.
Lemma kernel_rbeta a b x : req_kernel (rbeta a b) x = beta_kernel (Q2R a) (Q2R b) x.
Proof. unfold rbeta. cbn [req_kernel]. rewrite !q2r_red. reflexivity. Qed.

Lemma eq_sum k i f : (i < k)%nat -> sumn (fun j => INR (if Nat.eqb i j then 1 else 0) * f j) k = f i.
Proof.
  induction k as [|k IH]; intros H; [lia|]. rewrite sumn_S. destruct (Nat.eqb_spec i k) as [<-|N].
  - rewrite (sumn_ext _ (fun _ => 0)); [rewrite sumn_const; simpl; ring|]. intros j Hj. destruct (Nat.eqb_spec i j); [lia|simpl; ring].
  - rewrite IH by lia. simpl. ring.
Qed.
Lemma lt_sum k i f : (i <= k)%nat -> sumn (fun j => INR (if Nat.ltb j i then 1 else 0) * f j) k = sumn f i.
Proof.
  induction k as [|k IH]; intros H.
  - replace i with 0%nat by lia. reflexivity.
  - rewrite sumn_S. destruct (Nat.ltb_spec k i) as [L|L].
    + replace i with (S k) by lia. rewrite sumn_S. rewrite (sumn_ext _ f); [simpl; ring|]. intros j Hj. destruct (Nat.ltb_spec j (S k)); [simpl; ring|lia].
    + rewrite IH by lia. simpl. ring.
Qed.
Lemma sumn_plus2 f g n : sumn (fun j => f j + g j) n = sumn f n + sumn g n.
Proof. unfold sumn. apply rsum_map_plus. Qed.

(* likelihood of the labels in terms of the counts *)
Lemma lik_counts k x dd : sticks_in k x -> Forall (fun i => (i < k)%nat) dd ->
  log_lik (stick_weight x) dd = sumn (fun j => INR (n_eq j dd) * ln (x j) + INR (n_gt j dd) * ln (1 - x j)) k.
Proof.
  intros Hx H. induction H as [|i t Hi H IH].
  - unfold log_lik, sumn. simpl. induction (seq 0 k) as [|a l IHl]; [reflexivity|]. simpl. unfold rsum in *. simpl. rewrite <- IHl. unfold n_eq, n_gt. simpl. ring.
  - unfold log_lik in *. cbn [map]. rewrite rsum_cons, IH, (ln_stick k x i Hx Hi), <- (eq_sum k i (fun j => ln (x j)) Hi), <- (lt_sum k i (fun j => ln (1 - x j))) by lia.
    rewrite <- !sumn_plus2. apply sumn_ext. intros j Hj. unfold n_eq, n_gt. cbn [count_occ filter].
    destruct (Nat.eq_dec i j) as [->|N]; [rewrite Nat.eqb_refl|rewrite (proj2 (Nat.eqb_neq i j) N)]; destruct (j <? _)%nat; cbn [length]; rewrite ?S_INR; simpl; ring.
Qed.
Lemma below_max dd k : (S (list_max dd) <= k)%nat -> Forall (fun i => (i < k)%nat) dd.
Proof. intros H. pose proof (proj1 (list_max_le dd (list_max dd)) (le_n _)) as F. eapply Forall_impl; [|exact F]. simpl. intros. lia. Qed.

(* prior Beta(a j, b j), draws Beta(a j + n_eq, b j + n_gt) *)
Lemma exact_gen k dd a b prior : Forall (fun i => (i < k)%nat) dd -> (forall j x, (j < k)%nat -> prior j x = beta_kernel (Q2R (a j)) (Q2R (b j)) x) ->
  exact_sticks prior dd (map (fun j => rbeta (a j + nq (n_eq j dd)) (b j + nq (n_gt j dd))) (seq 0 k)).
Proof.
  intros F HP. set (rs := map _ _). assert (L : length rs = k) by (unfold rs; rewrite map_length, seq_length; reflexivity). split.
  - apply Forall_forall. intros r Hr. apply in_map_iff in Hr as (j & <- & _). unfold rbeta, beta_req. eauto.
  - exists 0. rewrite L. intros x Hx. rewrite (lik_counts k x dd Hx F), Rplus_0_l. unfold sticks_kernel. rewrite L, <- sumn_plus2. apply sumn_ext. intros j Hj.
    unfold rs. rewrite (nth_indep _ _ ((fun j => rbeta (a j + nq (n_eq j dd)) (b j + nq (n_gt j dd))) 0%nat)) by (rewrite map_length, seq_length; lia).
    rewrite (map_nth (fun j => rbeta (a j + nq (n_eq j dd)) (b j + nq (n_gt j dd)))), seq_nth by lia. cbn [plus]. rewrite kernel_rbeta, HP by exact Hj. unfold beta_kernel.
    rewrite !Q2R_plus, !q2r_nq. ring.
Qed.
Lemma count_above dd j : (list_max dd < j)%nat -> n_eq j dd = 0%nat /\ n_gt j dd = 0%nat.
Proof.
  intros H. pose proof (proj1 (list_max_le dd (list_max dd)) (le_n _)) as F. split.
  - apply count_occ_not_In. intros I. rewrite Forall_forall in F. apply F in I. lia.
  - unfold n_gt. induction F as [|x l Hx F IH]; [reflexivity|]. simpl in H. cbn [filter]. destruct (Nat.ltb_spec j x); [lia|]. apply IH.
Qed.
Lemma exact_beyond k dd prior (post pri : nat -> req) : (S (list_max dd) <= k)%nat ->
  (forall j, (list_max dd < j)%nat -> post j = pri j) ->
  exact_sticks prior dd (map post (seq 0 k)) -> exact_sticks prior dd (map post (labels dd) ++ map pri (seq (S (list_max dd)) (k - S (list_max dd)))).
Proof.
  intros H E X. replace k with (S (list_max dd) + (k - S (list_max dd)))%nat in X by lia. rewrite seq_app, map_app in X. cbn [plus] in X.
  rewrite (map_ext_in pri post) by (intros j Hj; symmetry; apply E; apply in_seq in Hj; lia). exact X.
Qed.
Lemma rbeta_eq a b a' b' : (a == a')%Q -> (b == b')%Q -> rbeta a b = rbeta a' b'.
Proof. intros A B. unfold rbeta. rewrite (Qred_complete _ _ A), (Qred_complete _ _ B). reflexivity. Qed.
Lemma nq0 : nq 0 = 0%Q. Proof. reflexivity. Qed.

Lemma rep_map {A} (x : A) m n : repeat x n = map (fun _ => x) (seq m n).
Proof. revert m. induction n as [|n IH]; intros m; [reflexivity|]. simpl. rewrite (IH (S m)). reflexivity. Qed.

Lemma c76_dp_proof al size k o s g : (0 < al)%Q -> asks size (d s) k ->
  exists rs, length rs = k /\ ends_with (wm_random (CDP al) size o s g) (drawn s rs o g) /\ exact_sticks (fun _ => beta_kernel 1 (Q2R al)) (d s) rs.
Proof.
  intros Ha H.
  assert (X : forall k, (S (list_max (d s)) <= k)%nat -> exact_sticks (fun _ => beta_kernel 1 (Q2R al)) (d s) (map (dp_post al (d s)) (seq 0 k))).
  { intros k0 Hk. apply (exact_gen k0 (d s) (fun _ => 1%Q) (fun _ => al)); [apply below_max, Hk|]. intros. rewrite q2r_1. reflexivity. }
  destruct H as [(-> & H & ->)|(-> & H)].
  - exists (map (dp_post al (d s)) (labels (d s))). split; [rewrite map_length; apply seq_length|]. split; [apply c08_none; assumption|]. apply X, le_n.
  - destruct (d s) as [|i t] eqn:E.
    + exists (repeat (rbeta 1 al) k). split; [apply repeat_length|]. split; [apply c08_prior; [assumption|assumption|simpl in H; lia]|].
      rewrite (rep_map _ 0), (map_ext _ (dp_post al [])); [exact (X k H)|]. intros j. unfold dp_post. apply rbeta_eq; cbn [n_eq n_gt count_occ filter length]; rewrite nq0; ring.
    + assert (N : d s <> []) by (rewrite E; discriminate). rewrite <- E in *. pose proof (c08_some al k o s g N Ha ltac:(lia)) as W.
      rewrite Nat.min_r in W by lia. eexists. split; [|split; [exact W|]].
      * rewrite app_length, map_length, seq_length, repeat_length. lia.
      * rewrite (rep_map _ (S (list_max (d s)))). apply (exact_beyond k (d s)); [exact H| |apply X, H].
        intros j Hj. destruct (count_above _ _ Hj) as [A B]. unfold dp_post. rewrite A, B. apply rbeta_eq; rewrite nq0; ring.
Qed.

Lemma c76_py_proof pyd al size k o s g : py_ok pyd al -> asks size (d s) k ->
  exists rs, length rs = k /\ ends_with (wm_random (CPY pyd al) size o s g) (drawn s rs o g) /\
    exact_sticks (fun j => beta_kernel (1 - Q2R pyd) (Q2R al + INR j * Q2R pyd)) (d s) rs.
Proof.
  intros Ha H.
  assert (X : forall k, (S (list_max (d s)) <= k)%nat -> exact_sticks (fun j => beta_kernel (1 - Q2R pyd) (Q2R al + INR j * Q2R pyd)) (d s) (map (py_post pyd al (d s)) (seq 0 k))).
  { intros k0 Hk. apply (exact_gen k0 (d s) (fun _ => 1 - pyd)%Q (fun j => al + nq j * pyd)%Q); [apply below_max, Hk|]. intros. rewrite Q2R_minus, Q2R_plus, Q2R_mult, q2r_nq, q2r_1. reflexivity. }
  destruct H as [(-> & H & ->)|(-> & H)].
  - exists (map (py_post pyd al (d s)) (labels (d s))). split; [rewrite map_length; apply seq_length|]. split; [apply c09_none; assumption|]. apply X, le_n.
  - assert (PP : forall j, (list_max (d s) < j)%nat -> py_post pyd al (d s) j = py_prior pyd al j).
    { intros j Hj. destruct (count_above _ _ Hj) as [A B]. unfold py_post, py_prior. rewrite A, B. apply rbeta_eq; rewrite nq0; ring. }
    destruct (d s) as [|i t] eqn:E.
    + exists (map (py_prior pyd al) (seq 0 k)). split; [rewrite map_length; apply seq_length|]. split; [apply c09_prior; [assumption|assumption|simpl in H; lia]|].
      rewrite (map_ext _ (py_post pyd al [])); [exact (X k H)|]. intros j. unfold py_post, py_prior. apply rbeta_eq; cbn [n_eq n_gt count_occ filter length]; rewrite nq0; ring.
    + assert (N : d s <> []) by (rewrite E; discriminate). rewrite <- E in *. pose proof (c09_some pyd al k o s g N Ha ltac:(lia)) as W.
      rewrite Nat.min_r in W by lia. eexists. split; [|split; [exact W|]].
      * rewrite app_length, !map_length, !seq_length. lia.
      * apply (exact_beyond k (d s)); [exact H|exact PP|apply X, H].
Qed.

Lemma ln_pow_sum p dd : 0 < p < 1 -> log_lik (fun j => p * (1 - p) ^ j) dd = INR (length dd) * ln p + INR (list_sum dd) * ln (1 - p).
Proof.
  intros H. unfold log_lik. induction dd as [|i t IH]; [simpl; unfold rsum; simpl; ring|]. cbn [map length]. rewrite rsum_cons, IH, S_INR. change (list_sum (i :: t)) with (i + list_sum t)%nat. rewrite plus_INR.
  rewrite ln_mult; [|Lra.lra|apply pow_lt; Lra.lra]. rewrite ln_pow by Lra.lra. ring.
Qed.
Lemma c76_geom_proof a b size n o s g : (0 < a)%Q -> (0 < b)%Q -> (0 < n)%nat -> (size = SNone /\ d s <> [] /\ n = S (list_max (d s)) \/ size = SInt (Z.of_nat n)) ->
  exists rq, ends_with (wm_random (CGeom a b) size o s g) (fun r s' g' => r = Ok (w s') /\ g' = g ++ [rq] /\ [p s'] = beta_answers o g [rq]) /\
    forall x, 0 < x < 1 -> log_lik (fun j => x * (1 - x) ^ j) (d s) + beta_kernel (Q2R a) (Q2R b) x = req_kernel rq x.
Proof.
  intros Ha Hb Hn H. exists (rbeta (a + nq (length (d s))) (b + nq (list_sum (d s)))). split.
  - pose proof (c10_gen a b size n o s g Ha Hb Hn H) as W. unfold wp in W. destruct (wm_random _ _ _ _ _) as [[r s'] g']. destruct W as (A & B & C & _). cbv zeta in *. split; [exact A|]. split; [exact B|exact C].
  - intros x Hx. rewrite ln_pow_sum, kernel_rbeta, !Q2R_plus, !q2r_nq by exact Hx. unfold beta_kernel. ring.
Qed.

Lemma lik_eq k w dd : Forall (fun i => (i < k)%nat) dd -> log_lik w dd = sumn (fun j => INR (n_eq j dd) * ln (w j)) k.
Proof.
  intros H. induction H as [|i t Hi H IH].
  - unfold log_lik, sumn. simpl. induction (seq 0 k) as [|a l IHl]; [reflexivity|]. simpl. unfold rsum in *. simpl. rewrite <- IHl. ring.
  - unfold log_lik in *. cbn [map]. rewrite rsum_cons, IH, <- (eq_sum k i (fun j => ln (w j)) Hi), <- sumn_plus2. apply sumn_ext. intros j Hj. unfold n_eq. cbn [count_occ].
    destruct (Nat.eq_dec i j) as [->|N]; [rewrite Nat.eqb_refl|rewrite (proj2 (Nat.eqb_neq i j) N)]; rewrite ?S_INR; simpl; ring.
Qed.
Lemma c76_dir_proof n al size o s g : d s <> [] -> Forall (fun x => 0 < x)%Q al -> (list_max (d s) < length al)%nat ->
  exists l, length l = length al /\ wm_random (CDirDist n al) size o s g = (Ok (o_dirichlet o g l), set_w (o_dirichlet o g l) s, g ++ [RDirichlet l]) /\
    forall x, log_lik x (d s) + dirichlet_kernel (map Q2R al) x = dirichlet_kernel (map Q2R l) x.
Proof.
  intros Hd Ha Hm. eexists. split; [|split; [apply (c11_proof n al size o s g Hd Ha Hm)|]].
  - rewrite !map_length. apply seq_length.
  - intros x. rewrite (lik_eq (length al) x (d s)) by (apply below_max; lia). unfold dirichlet_kernel. rewrite !map_length, seq_length, <- sumn_plus2. apply sumn_ext. intros j Hj.
    rewrite (nth_indep (map Q2R al) 0 (Q2R 0%Q)) by (rewrite map_length; exact Hj). rewrite map_nth, !map_map.
    set (f := fun j => Q2R (Qred (nth j al 0 + nq (n_eq j (d s)))%Q)). rewrite (nth_indep _ 0 (f 0%nat)) by (rewrite map_length, seq_length; exact Hj).
    rewrite (map_nth f), seq_nth by exact Hj. unfold f. cbn [plus]. rewrite q2r_red, Q2R_plus, q2r_nq. ring.
Qed.

(* beta-binomial sticks given the counts *)
Lemma c76_bbin_proof n al size k o s g : valid_oracle o -> (0 <= n)%Z -> (0 < al)%Q -> d s <> [] -> (size = SNone /\ k = 1%nat \/ size = SInt (Z.of_nat k)) ->
  exists g1 bs rs more, length rs = S (list_max (d s)) /\ length bs = S (S (list_max (d s))) /\ 
    ends_with (wm_random (CBBin n al) size o s g) (fun r s' g' => r = Ok (w s') /\ g' = g1 ++ rs ++ more /\ firstn (S (list_max (d s))) (v s') = beta_answers o g1 rs) /\
    (exists lat cnt, g1 = g ++ lat ++ cnt /\ bs = binom_answers o (g ++ lat) cnt) /\
    exact_sticks (fun j x => beta_kernel (1 + IZR (nth j bs 0%Z)) (Q2R al + IZR n - IZR (nth j bs 0%Z)) x + binom_kernel n (nth (S j) bs 0%Z) x) (d s) rs.
Proof.
  intros V Hn Ha Hd H. pose proof (c12_gen n al size k o s g V Hn Ha Hd H) as W. unfold wp, bbin_drawn in W. cbv zeta in W.
  set (lat := bbin_latent al (d s)) in *. set (cnt := bbin_counts o n al (d s) g) in *. set (bs := binom_answers o (g ++ lat) cnt) in *.
  set (rs := map (bbin_post n al (d s) bs) (labels (d s))) in *.
  exists ((g ++ lat) ++ cnt), bs, rs, (fst (bbin_chain o n al (k - S (list_max (d s))) (((g ++ lat) ++ cnt) ++ rs) (last (beta_answers o ((g ++ lat) ++ cnt) rs) 0%Q))).
  assert (BA : forall l g0 (f : nat -> Q * Q), length (beta_answers o g0 (map (fun j => rbeta (fst (f j)) (snd (f j))) l)) = length l).
  { induction l as [|j l IH]; intros g0 f; [reflexivity|]. cbn [map beta_answers rbeta]. unfold rbeta at 1. cbn [beta_answers length]. f_equal. apply IH. }
  assert (L : length rs = S (list_max (d s))) by (unfold rs; rewrite map_length; apply seq_length).
  split; [exact L|]. split.
  { unfold bs, cnt, bbin_counts. assert (BB : forall l g0, length (binom_answers o g0 (map (rbinom n) l)) = length l) by (induction l as [|q l IH]; intros g0; [reflexivity|]; cbn [map]; unfold rbinom at 1; cbn [binom_answers length]; f_equal; apply IH).
    rewrite BB. unfold bbin_latent. cbn [beta_answers]. unfold rbeta at 1. cbn [beta_answers length]. f_equal. unfold dp_post. rewrite (BA (labels (d s)) _ (fun j => (1 + nq (n_eq j (d s)), al + nq (n_gt j (d s)))%Q)). apply seq_length. }
  split.
  { destruct (wm_random _ _ _ _ _) as [[r s'] g']. destruct W as (A & B & C & _). split; [exact A|]. split; [exact B|]. rewrite C.
    rewrite firstn_app. assert (L2 : length (beta_answers o ((g ++ lat) ++ cnt) rs) = S (list_max (d s))).
    { unfold rs, bbin_post. match goal with |- context [map ?f _] => rewrite (BA (labels (d s)) _ (fun j => (1 + nq (n_eq j (d s)) + zq (nth j bs 0 + nth (S j) bs 0)%Z, al + nq (n_gt j (d s)) + 2 * zq n - zq (nth j bs 0 + nth (S j) bs 0)%Z)%Q)) end. apply seq_length. }
    rewrite L2, Nat.sub_diag, firstn_all2 by lia. cbn [firstn]. apply app_nil_r. }
  split; [exists lat, cnt; split; [symmetry; apply app_assoc|reflexivity]|].
  unfold rs, labels. unfold exact_sticks. rewrite map_length, seq_length.
  split; [apply Forall_forall; intros r Hr; apply in_map_iff in Hr as (j & <- & _); unfold bbin_post, rbeta, beta_req; eauto|].
  exists 0. intros x Hx. rewrite (lik_counts (S (list_max (d s))) x (d s) Hx) by (apply below_max, le_n). unfold sticks_kernel. rewrite map_length, seq_length, Rplus_0_l, <- sumn_plus2. apply sumn_ext. intros j Hj.
  rewrite (nth_indep _ _ (bbin_post n al (d s) bs 0%nat)) by (rewrite map_length, seq_length; lia). rewrite map_nth, seq_nth by lia. cbn [plus]. unfold bbin_post. rewrite kernel_rbeta. unfold beta_kernel, binom_kernel, zq.
  rewrite Q2R_minus, !Q2R_plus, Q2R_mult, !q2r_nq, !q2r_zq, q2r_1, plus_IZR, minus_IZR. replace (Q2R 2) with 2 by (unfold Q2R; simpl; Lra.lra). ring.
Qed.

(* beta-in-beta sticks given p *)
Lemma c76_bib_proof x al a b pm size k o s g : valid_oracle o -> (0 < x)%Q -> (x < 1)%Q -> (0 < al)%Q -> (0 < a)%Q -> (0 < b)%Q ->
  closed_method pm -> (0 <= p s <= 1)%Q -> d s <> [] -> asks size (d s) k ->
  exists rp p1 rs more, length rs = S (list_max (d s)) /\ p1 = last (beta_answers o g rp) (p s) /\ 
    ends_with (wm_random (CBIB x al a b pm) size o s g) (fun r s' g' => r = Ok (w s') /\ g' = g ++ rp ++ rs ++ more /\ firstn (S (list_max (d s))) (v s') = beta_answers o (g ++ rp) rs) /\
    let c := Q2R x / (1 - Q2R x) in
    exact_sticks (fun _ => beta_kernel (1 + c * Q2R p1) (Q2R al + c * (1 - Q2R p1))) (d s) rs.
Proof.
  intros V Hx Hx1 Hal Ha Hb Hp Hps Hd H.
  assert (H' : (size = SNone /\ k = S (list_max (d s)) \/ size = SInt (Z.of_nat k)) /\ (S (list_max (d s)) <= k)%nat) by (destruct H as [(? & _ & ->)|(? & ?)]; split; auto).
  destruct H' as [H' Hk]. pose proof (c62_fitted_proof x al a b pm size k o s g V Hx Hx1 Hal Ha Hb Hd Hp Hps ltac:(lia) H') as W.
  set (rp := p_requests pm a b (d s)) in *. cbv zeta in W. set (p1 := p_after o g rp (p s)) in *.
  rewrite firstn_all2 in W by (unfold labels; rewrite seq_length; exact Hk). set (rs := map _ (labels (d s))) in W.
  exists rp, p1, rs. eexists. split; [unfold rs; rewrite map_length; apply seq_length|]. split; [reflexivity|]. split.
  - destruct (wm_random _ _ _ _ _) as [[r s'] g']. destruct W as (A & B & C & _). split; [exact A|]. split; [rewrite B, <- !app_assoc; reflexivity|]. rewrite C.
    assert (BA : forall l g0, length (beta_answers o g0 (map (bib_post x al p1 (d s)) l)) = length l) by (induction l as [|j l IH]; intros g0; [reflexivity|]; cbn [map]; unfold bib_post at 1, rbeta at 1; cbn [beta_answers length]; f_equal; apply IH).
    rewrite firstn_app. unfold rs. rewrite BA. unfold labels. rewrite seq_length, Nat.sub_diag, firstn_all2 by (rewrite BA, seq_length; lia). cbn [firstn]. apply app_nil_r.
  - apply (exact_gen (S (list_max (d s))) (d s) (fun _ => 1 + x / (1 - x) * p1)%Q (fun _ => al + x / (1 - x) * (1 - p1))%Q); [apply below_max, le_n|].
    intros j y _. rewrite !Q2R_plus, !Q2R_mult, Q2R_minus, Q2R_div by (intros E; Lqa.lra). rewrite Q2R_minus, q2r_1. reflexivity.
Qed.
