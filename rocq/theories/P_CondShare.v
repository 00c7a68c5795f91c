(* Proofs for C76: shared sticks (BetaBernoulli, BetaInDirichlet). *)
From Coq Require Import Reals Qreals Lra Lqa.
From Verif Require Import Prelude Numpy Rng M_Weights M_Ext M_Var S_Weights S_Draws S_More S_Var S_Opt S_Cond P_Lists P_Wp P_Post P_BB P_Loglik P_Bid P_More P_Var P_Var27 P_Opt P_Cond.
Open Scope R_scope.

Lemma sumn_front f n : sumn f (S n) = f 0%nat + sumn (fun j => f (S j)) n.
Proof. unfold sumn. cbn [seq map]. rewrite rsum_cons, <- seq_shift, map_map. reflexivity. Qed.
Lemma sumn_swap f n m : sumn (fun i => sumn (fun j => f i j) m) n = sumn (fun j => sumn (fun i => f i j) n) m.
Proof.
  induction n as [|n IH].
  - unfold sumn at 1. simpl. rewrite (sumn_ext _ (fun _ => 0)) by (intros; reflexivity). rewrite sumn_const. unfold rsum; simpl; ring.
  - rewrite sumn_S, IH, <- sumn_plus2. apply sumn_ext. intros j _. rewrite sumn_S. reflexivity.
Qed.
Lemma by_group f m k n : (forall j, (j < k)%nat -> (m j < n)%nat) ->
  sumn (fun j => f j (m j)) k = sumn (fun g => sumn (fun j => if Nat.eqb (m j) g then f j g else 0) k) n.
Proof.
  intros H. rewrite <- sumn_swap. apply sumn_ext. intros j Hj. rewrite <- (eq_sum n (m j) (f j)) by auto.
  apply sumn_ext. intros g Hg. destruct (Nat.eqb (m j) g); simpl; ring.
Qed.
Lemma wsum_at_R g : forall mask x, length mask = length x ->
  INR (wsum_at g mask x) = sumn (fun j => if Nat.eqb (nth j mask 0%nat) g then INR (nth j x 0%nat) else 0) (length x).
Proof.
  induction mask as [|a mask IH]; intros [|b x] H; try discriminate; [unfold sumn, rsum; reflexivity|].
  injection H as H. cbn [length]. rewrite sumn_front. cbn [nth]. rewrite <- IH by exact H. unfold wsum_at. cbn [combine map fst snd nsum]. 
  rewrite plus_INR. destruct (Nat.eqb a g); simpl; ring.
Qed.
Lemma sel_sum_R g : forall x mask, length mask = length x ->
  INR (sel_sum x mask g) = sumn (fun j => if Nat.eqb (nth j mask 0%nat) g then INR (nth j x 0%nat) else 0) (length x).
Proof.
  induction x as [|b x IH]; intros [|a mask] H; try discriminate; [unfold sumn, rsum; reflexivity|].
  injection H as H. cbn [length]. rewrite sumn_front. cbn [nth]. rewrite <- IH by exact H. unfold sel_sum. cbn [combine filter snd]. 
  destruct (Nat.eqb a g); cbn [map fst nsum]; rewrite ?plus_INR; ring.
Qed.
Lemma nth_map_seq {A} (f : nat -> A) k j (x : A) : (j < k)%nat -> nth j (map f (seq 0 k)) x = f j.
Proof. intros H. rewrite (nth_indep _ _ (f 0%nat)) by (rewrite map_length, seq_length; exact H). rewrite map_nth, seq_nth by exact H. reflexivity. Qed.

(* requests with the counts added up per group *)
Lemma exact_shared_gen al mask dd n (A B : nat -> nat) : dd <> [] -> length mask = S (list_max dd) -> Forall (fun i => (i < n)%nat) mask ->
  (forall g, INR (A g) = sumn (fun j => if Nat.eqb (nth j mask 0%nat) g then INR (n_eq j dd) else 0) (length mask)) ->
  (forall g, INR (B g) = sumn (fun j => if Nat.eqb (nth j mask 0%nat) g then INR (n_gt j dd) else 0) (length mask)) ->
  exact_shared (beta_kernel 1 (Q2R al)) (fun j => nth j mask 0%nat) dd (map (fun g => rbeta (1 + nq (A g)) (al + nq (B g))) (seq 0 n)).
Proof.
  intros Hd L F HA HB. unfold exact_shared. rewrite map_length, seq_length.
  assert (Hm : forall j, (j < length mask)%nat -> (nth j mask 0 < n)%nat) by (intros j Hj; rewrite Forall_forall in F; apply F, nth_In, Hj).
  split; [apply Forall_forall; intros r Hr; apply in_map_iff in Hr as (j & <- & _); unfold rbeta, beta_req; eauto|].
  split; [intros j Hj; apply Hm; lia|]. intros x Hx.
  rewrite (lik_counts (length mask) (fun j => x (nth j mask 0%nat)) dd) by first [intros j Hj; apply Hx, Hm, Hj|apply below_max; lia].
  rewrite (by_group (fun j g => INR (n_eq j dd) * ln (x g) + INR (n_gt j dd) * ln (1 - x g)) (fun j => nth j mask 0%nat) (length mask) n Hm).
  unfold sticks_kernel. rewrite map_length, seq_length, <- sumn_plus2. apply sumn_ext. intros g Hg. rewrite nth_map_seq by exact Hg. rewrite kernel_rbeta. unfold beta_kernel.
  rewrite !Q2R_plus, !q2r_nq, q2r_1, HA, HB.
  rewrite (sumn_ext _ (fun j => ln (x g) * (if Nat.eqb (nth j mask 0%nat) g then INR (n_eq j dd) else 0) + ln (1 - x g) * (if Nat.eqb (nth j mask 0%nat) g then INR (n_gt j dd) else 0))) by (intros j _; destruct (Nat.eqb _ g); ring).
  rewrite sumn_plus2, !sumn_scale. ring.
Qed.

Lemma list_sum_nsum l : nsum l = list_sum l.
Proof. induction l as [|x l IH]; [reflexivity|]. simpl. rewrite IH. reflexivity. Qed.

Open Scope Q_scope.
(* ---- BetaBernoulli ---- *)
Lemma bb_complete_grow o q al z s g : v s <> [] -> wp o (bb_complete q al z) (fun r s' g' => is_ok r = true ->
  (exists e, v s' = v s ++ e) /\ (exists e, bern s' = bern s ++ e) /\ exists e, g' = g ++ e) s g.
Proof.
  intros H. unfold bb_complete. wstep; [|discriminate]. wstep; [|discriminate]. wstep.
  assert (E0 : forall A (l : list A), exists e, l = l ++ e) by (intros A l; exists []; rewrite app_nil_r; reflexivity).
  wstep; [|wstep; intros _; split; [apply E0|split; apply E0]].
  destruct (v s) as [|x t] eqn:Ev; [congruence|]. cbn [is_nil]. wstep. wsteps; try discriminate.
  intros _. cbn [v bern refresh_w set_v set_w set_bern]. rewrite Ev. split; [eexists; reflexivity|]. split; [eexists; reflexivity|]. rewrite <- app_assoc. eexists; reflexivity.
Qed.

Definition shared_by (mask : list nat) (xs vs : list Q) : Prop := forall j, (j < length mask)%nat -> nth_error vs j = nth_error xs (nth j mask 0%nat).
Lemma gather_shared (xs : list Q) mask r : gather xs mask = Some r -> forall e, shared_by mask xs (r ++ e).
Proof.
  intros H e. revert r H. induction mask as [|i t IH]; intros r H j Hj; [simpl in Hj; lia|]. cbn [gather] in H. destruct (nth_error xs i) eqn:E1; [|discriminate]. destruct (gather xs t) eqn:E2; [|discriminate].
  injection H as <-. destruct j as [|j]; cbn [nth app nth_error]; [congruence|]. apply (IH _ eq_refl). simpl in Hj. lia.
Qed.

Lemma nmax_forall l : Forall (fun i => (i < S (nmax l))%nat) l.
Proof. apply Forall_forall. intros i Hi. rewrite nmax_list_max. pose proof (proj1 (list_max_le l (list_max l)) (le_n _)) as F. rewrite Forall_forall in F. apply F in Hi. lia. Qed.

Lemma combine_map2 (f h : nat -> Q) (A B : nat -> nat) l : pairs (map (fun n => f n) (map A l)) (map (fun n => h n) (map B l)) = map (fun g => (f (A g), h (B g))) l.
Proof. unfold pairs. induction l as [|x l IH]; [reflexivity|]. cbn [map combine]. f_equal. exact IH. Qed.

Lemma c76_bb_wp q al size o s g : d s <> [] -> wp o (bb_random q al size) (fun r s' g' => is_ok r = true ->
  let bs := firstn (S (list_max (d s))) (bern s') in let m := fun j => list_sum (firstn (S j) bs) in
  exists g1 rs more, g' = g1 ++ rs ++ more /\ length bs = S (list_max (d s)) /\
    (forall j, (j <= list_max (d s))%nat -> nth_error (v s') j = nth_error (beta_answers o g1 rs) (m j)) /\
    exact_shared (beta_kernel 1 (Q2R al)) m (d s) rs) s g.
Proof.
  intros Hd. unfold bb_random. wstep. rewrite (snil _ Hd), andb_false_r. cbv iota. wstep. eapply wp_call; [apply bb_bern_len; right; reflexivity|..]; cbv beta; try discriminate.
  intros [] sA gA X. destruct (X eq_refl) as (_ & Dd & Lb). cbn [d set_v] in Dd. wstep. set (mc := ncumsum (bern sA)).
  assert (Lm : length mc = S (list_max (d s))) by (unfold mc, ncumsum; rewrite ncumsum_from_length, Lb, nmax_list_max; reflexivity).
  set (WA := fun g => wsum_at g mc (bincount (d s))). set (WB := fun g => wsum_at g mc (tail_counts (bincount (d s)))).
  assert (EW : pairs (map (fun n => 1 + nq n) (wbincount mc (bincount (d s)))) (map (fun n => al + nq n) (wbincount mc (tail_counts (bincount (d s))))) = map (fun g => (1 + nq (WA g), al + nq (WB g))) (seq 0 (S (nmax mc)))).
  { assert (EWB : forall x, wbincount mc x = map (fun j => wsum_at j mc x) (seq 0 (S (nmax mc)))) by (intros x; unfold wbincount; destruct mc; [discriminate Lm|reflexivity]). rewrite !EWB. apply (combine_map2 (fun n => 1 + nq n) (fun n => al + nq n)). }
  wstep; [|discriminate]. rewrite EW. wstep. wstep; [|wstep; discriminate]. wstep. wstep.
  rewrite beta_draws_answers in Heqo0.
  set (rs := map breq (map (fun g => (1 + nq (WA g), al + nq (WB g))) (seq 0 (S (nmax mc))))) in *.
  eapply wp_call; [apply bb_complete_grow|..]; cbv beta; try discriminate.
  { cbn [v refresh_w set_v set_w]. intros Z. apply gather_length in Heqo0. rewrite Z, Lm in Heqo0. discriminate. }
  intros a sB gB X2. destruct (X2 eq_refl) as ((e1 & V1) & (e2 & B1) & (e3 & G1)). wstep. wstep. intros _. cbn [v bern refresh_w set_v set_w] in V1, B1.
  assert (Eb : firstn (S (list_max (d s))) (bern sB) = bern sA) by (rewrite B1, <- (nmax_list_max (d s)), <- Lb, firstn_app, Nat.sub_diag, firstn_all; apply app_nil_r).
  rewrite Eb. cbv zeta. exists gA, rs, e3.
  assert (Em : forall j, (j < length mc)%nat -> list_sum (firstn (S j) (bern sA)) = nth j mc 0%nat).
  { intros j Hj. unfold mc, ncumsum in *. rewrite ncumsum_from_nth by (rewrite ncumsum_from_length in Hj; exact Hj). rewrite <- list_sum_nsum. reflexivity. }
  split; [rewrite G1, <- app_assoc; unfold rs, breq; reflexivity|]. split; [rewrite Lb, nmax_list_max; reflexivity|]. split.
  - intros j Hj. rewrite Em, V1 by lia. apply (gather_shared _ _ _ Heqo0). lia.
  - assert (ER : rs = map (fun g => rbeta (1 + nq (WA g)) (al + nq (WB g))) (seq 0 (S (nmax mc)))) by (unfold rs; rewrite map_map; reflexivity).
    assert (Y : exact_shared (beta_kernel 1 (Q2R al)) (fun j => nth j mc 0%nat) (d s) rs).
    { rewrite ER. apply exact_shared_gen; [exact Hd|exact Lm|apply nmax_forall|..]; intros g0.
      - unfold WA. rewrite wsum_at_R by (rewrite Lm, bincount_length by exact Hd; reflexivity). rewrite bincount_length, Lm by exact Hd. change (nmax (d s)) with (list_max (d s)). apply sumn_ext. intros j Hj.
        rewrite bincount_eq by exact Hd. rewrite nth_map_seq by exact Hj. reflexivity.
      - unfold WB. assert (LT : length (tail_counts (bincount (d s))) = S (list_max (d s))) by (rewrite tail_counts_eq, map_length, seq_length by exact Hd; reflexivity).
        rewrite wsum_at_R by congruence. rewrite LT, Lm. apply sumn_ext. intros j Hj. rewrite tail_counts_eq by exact Hd. rewrite nth_map_seq by exact Hj. reflexivity. }
    destruct Y as (Y1 & Y2 & Y3). split; [exact Y1|]. split; [intros j Hj; rewrite Em by lia; apply Y2, Hj|].
    intros x Hx. rewrite <- (Y3 x Hx). f_equal. unfold log_lik. f_equal. apply map_ext_in. intros i Hi.
    assert (Hi' : (i < length mc)%nat) by (rewrite Lm; pose proof (below_max (d s) _ (le_n _)) as F; rewrite Forall_forall in F; apply F, Hi).
    f_equal. unfold stick_weight. rewrite Em by exact Hi'. f_equal. clear -Hi' Em. induction i as [|i IH]; [reflexivity|]. cbn [prodn]. rewrite IH, Em by lia. reflexivity.
Qed.
Lemma c76_bb_proof q al size o s g r s' g' : d s <> [] -> wm_random (CBB q al) size o s g = (Ok r, s', g') ->
  let bs := firstn (S (list_max (d s))) (bern s') in let m := fun j => list_sum (firstn (S j) bs) in
  exists g1 rs more, g' = g1 ++ rs ++ more /\ length bs = S (list_max (d s)) /\
    (forall j, (j <= list_max (d s))%nat -> nth_error (v s') j = nth_error (beta_answers o g1 rs) (m j)) /\
    exact_shared (beta_kernel 1 (Q2R al)) m (d s) rs.
Proof. intros Hd H. pose proof (c76_bb_wp q al size o s g Hd) as W. unfold wp in W. simpl wm_random in H. rewrite H in W. exact (W eq_refl). Qed.

(* ---- BetaInDirichlet ---- *)
Lemma bid_draw_log o al ac bc dbs : forall js s g, wp o (bid_draw_vbase al ac bc dbs js) (fun r s' g' =>
  let rs := map (fun j => rbeta (1 + nq (sel_sum ac dbs j)) (al + nq (sel_sum bc dbs j))) js in
  forall x, r = Ok x -> s' = s /\ g' = g ++ rs /\ x = beta_answers o g rs) s g.
Proof.
  induction js as [|j js IH]; intros s g; cbn [bid_draw_vbase].
  - wstep. intros x [= <-]. rewrite app_nil_r. split; [reflexivity|]. split; reflexivity.
  - wstep; [|discriminate]. eapply wp_call; [apply IH|..]; cbv beta zeta; try discriminate.
    intros a s' g' X. destruct (X a eq_refl) as (-> & -> & ->). wstep. intros x [= <-]. split; [reflexivity|]. split; [rewrite <- app_assoc; reflexivity|]. reflexivity.
Qed.
Lemma bid_update_grow o al a : forall js s g, wp o (bid_update_all al a js) (fun r s' g' => is_ok r = true ->
  (exists e, vbase s' = vbase s ++ e) /\ exists e, g' = g ++ e) s g.
Proof.
  assert (E0 : forall A (l : list A), exists e, l = l ++ e) by (intros A l; exists []; rewrite app_nil_r; reflexivity).
  assert (ST : forall j s g, wp o (bid_update_j al a j) (fun r s' g' => is_ok r = true -> (exists e, vbase s' = vbase s ++ e) /\ exists e, g' = g ++ e) s g).
  { intros j s g. unfold bid_update_j. wsteps; try discriminate; intros _; cbn [vbase set_dbase set_vbase]; rewrite <- ?app_assoc; (split; [first [apply E0|eexists; reflexivity]|first [apply E0|eexists; reflexivity]]). }
  induction js as [|j js IH]; intros s g; cbn [bid_update_all].
  - wstep. intros _. split; apply E0.
  - eapply wp_call; [apply ST|..]; cbv beta; try discriminate. intros [] s1 g1 X. destruct (X eq_refl) as ((e1 & A1) & (e2 & A2)).
    eapply wp_mono; [apply IH|]. cbv beta. intros r s2 g2 Y Z. destruct (Y Z) as ((e3 & B1) & (e4 & B2)). rewrite B1, A1, B2, A2, <- !app_assoc. split; eexists; reflexivity.
Qed.
Lemma c76_bid_proof al a size o s g r s' g' : d s <> [] -> wm_random (CBID al a) size o s g = (Ok r, s', g') ->
  let n := S (list_max (d s)) in let old := firstn n (dbase s ++ repeat 0%nat (n - length (dbase s))) in
  exists rs more, g' = g ++ rs ++ more /\ firstn (length rs) (vbase s') = beta_answers o g rs /\
    exact_shared (beta_kernel 1 (Q2R al)) (fun j => nth j old 0%nat) (d s) rs.
Proof.
  intros Hd H n old. enough (W : wp o (bid_random al a size) (fun r s' g' => is_ok r = true -> exists rs more, g' = g ++ rs ++ more /\ firstn (length rs) (vbase s') = beta_answers o g rs /\
    exact_shared (beta_kernel 1 (Q2R al)) (fun j => nth j old 0%nat) (d s) rs) s g).
  { unfold wp in W. simpl wm_random in H. rewrite H in W. exact (W eq_refl). }
  unfold bid_random. wstep. rewrite (snil _ Hd), andb_false_r. cbv iota.
  assert (Lo : length old = n). { unfold old. rewrite firstn_length, app_length, repeat_length. lia. }
  wstep; try (wstep; discriminate);
  (wstep; wstep; wstep; wstep; cbn [dbase set_dbase set_v set_vbase] in *; change (nmax (d s)) with (list_max (d s)) in *; fold n; fold old;
   eapply wp_call; [apply bid_draw_log|..]; cbv beta zeta; try discriminate;
   intros x sA gA X; destruct (X x eq_refl) as (-> & -> & ->); clear X; set (rs := map _ (seq 0 _)); wstep;
   eapply wp_call; [apply bid_update_grow|..]; cbv beta; try discriminate; intros [] sB gB X; destruct (X eq_refl) as ((e1 & A1) & (e2 & A2)); clear X;
   cbn [vbase set_vbase] in A1; wsteps; try discriminate; intros _; cbn [vbase set_v refresh_w set_w set_cbase]; exists rs, e2;
   split; [rewrite A2, <- app_assoc; reflexivity|];
   split; [rewrite A1, firstn_app; replace (length (beta_answers o g rs)) with (length rs);
     [rewrite Nat.sub_diag, firstn_all2; [apply app_nil_r|]|]; unfold rs; rewrite ?map_length, ?seq_length; clear; generalize (S (nmax old)); intros k; generalize 0%nat; revert g; induction k as [|k IH]; intros g0 m; cbn [seq map]; try (cbn; lia); unfold rbeta at 1; cbn [beta_answers length]; specialize (IH (g0 ++ [RBeta (Qred (1 + nq (sel_sum (bincount (d s)) old m))) (Qred (al + nq (sel_sum (tail_counts (bincount (d s))) old m)))]) (S m)); lia|];
   apply exact_shared_gen; [exact Hd|exact Lo|apply nmax_forall|intros g0|intros g0];
   [assert (LT : length (bincount (d s)) = n) by (apply bincount_length, Hd)|assert (LT : length (tail_counts (bincount (d s))) = n) by (rewrite tail_counts_eq, map_length, seq_length by exact Hd; reflexivity)];
   (rewrite sel_sum_R by congruence); rewrite LT, Lo; apply sumn_ext; intros j Hj; [rewrite bincount_eq by exact Hd|rewrite tail_counts_eq by exact Hd]; rewrite nth_map_seq by exact Hj; reflexivity).
Qed.
