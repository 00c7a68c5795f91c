(* Optimality of the responsibilities. *)
From Coq Require Import Reals Lra.
From Verif Require Import Prelude M_Ext M_Sample M_VarNum M_Weights M_Var S_Var S_Sample S_VarNum S_Opt P_Var P_Var27 P_Var31 P_Eppf P_Sample P_VarNum P_Opt.
Open Scope R_scope.

Lemma ln_le_sub x : 0 < x -> ln x <= x - 1.
Proof. intros H. pose proof (exp_ineq1_le (ln x)) as I. rewrite exp_ln in I by exact H. lra. Qed.
Definition lse (xs : list R) : R := ln (rsum (map exp xs)).
Lemma sum_exp_pos xs : xs <> [] -> 0 < rsum (map exp xs).
Proof.
  destruct xs as [|x t]; [congruence|]. intros _. cbn [map]. rewrite rsum_cons. pose proof (exp_pos x).
  assert (0 <= rsum (map exp t)) by (apply rsum_nonneg, Forall_map, Forall_forall; intros; left; apply exp_pos). lra.
Qed.
Lemma c71_bound_proof xs rs : distribution rs -> length rs = length xs -> label_bound xs rs <= ln (rsum (map exp xs)).
Proof.
  intros [P T] L. assert (NE : xs <> []) by (intros ->; destruct rs; [simpl in T; lra|discriminate]). pose proof (sum_exp_pos xs NE) as Z. set (Zs := rsum (map exp xs)) in *.
  assert (B : forall j, (j < length xs)%nat -> nth j rs 0 * nth j xs 0 - nth j rs 0 * ln (nth j rs 0) <= (exp (nth j xs 0) / Zs - nth j rs 0) + nth j rs 0 * ln Zs).
  { intros j Hj. rewrite Forall_forall in P. pose proof (P (nth j rs 0) ltac:(apply nth_In; lia)) as Pj. pose proof (exp_pos (nth j xs 0)) as X.
    destruct (Req_dec (nth j rs 0) 0) as [E|E]; [rewrite E; assert (0 < exp (nth j xs 0) / Zs) by (apply Rdiv_lt_0_compat; assumption); lra|].
    set (r := nth j rs 0) in *. set (x := nth j xs 0) in *. assert (Pr : 0 < r) by lra.
    assert (Q : 0 < exp x / (Zs * r)) by (apply Rdiv_lt_0_compat; nra). pose proof (ln_le_sub _ Q) as I.
    assert (E1 : ln (exp x / (Zs * r)) = x - ln Zs - ln r).
    { unfold Rdiv. rewrite ln_mult, ln_exp, ln_Rinv, ln_mult; try lra; try nra. }
    rewrite E1 in I. apply Rmult_le_compat_l with (r := r) in I; [|lra].
    assert (E2 : r * (exp x / (Zs * r) - 1) = exp x / Zs - r) by (field; lra). lra. }
  eapply Rle_trans; [unfold label_bound; apply sumn_le; exact B|]. rewrite sumn_plus, <- sumn_minus.
  assert (S1 : sumn (fun j => nth j rs 0) (length xs) = 1).
  { rewrite <- L, <- T. pose proof (sumn_rsum (fun z => z) rs 0) as E. rewrite map_id in E. symmetry. exact E. }
  assert (S2 : sumn (fun j => exp (nth j xs 0) / Zs) (length xs) = 1).
  { rewrite (sumn_ext _ (fun j => / Zs * exp (nth j xs 0))) by (intros; unfold Rdiv; ring). rewrite sumn_scale, <- (sumn_rsum exp xs 0). fold Zs. field. lra. }
  rewrite (sumn_ext (fun j => nth j rs 0 * ln Zs) (fun j => ln Zs * nth j rs 0)) by (intros; ring). rewrite sumn_scale, S1, S2. lra.
Qed.
Lemma c71_attained_proof xs : xs <> [] -> let rs := map (fun x => exp x / rsum (map exp xs)) xs in
  distribution rs /\ label_bound xs rs = ln (rsum (map exp xs)).
Proof.
  intros NE rs. pose proof (sum_exp_pos xs NE) as Z. set (Zs := rsum (map exp xs)) in *. assert (L : length rs = length xs) by apply map_length.
  assert (N : forall j, (j < length xs)%nat -> nth j rs 0 = exp (nth j xs 0) / Zs).
  { intros j Hj. unfold rs. rewrite (nth_indep _ 0 ((fun x => exp x / Zs) 0)) by (rewrite map_length; exact Hj). rewrite (map_nth (fun x => exp x / Zs)). reflexivity. }
  assert (T : rsum rs = 1).
  { unfold rs. rewrite (rsum_ext _ (fun x => / Zs * exp x)) by (intros; unfold Rdiv; ring). rewrite rsum_map_scale. fold Zs. field. lra. }
  split; [split; [|exact T]|].
  - apply Forall_map, Forall_forall. intros x _. left. apply Rdiv_lt_0_compat; [apply exp_pos|exact Z].
  - unfold label_bound. rewrite (sumn_ext _ (fun j => ln Zs * nth j rs 0)).
    + rewrite sumn_scale, <- L. pose proof (sumn_rsum (fun z => z) rs 0) as E. rewrite map_id in E. rewrite <- E, T. ring.
    + intros j Hj. rewrite (N j Hj). unfold Rdiv at 3. rewrite ln_mult, ln_exp, ln_Rinv; [ring|exact Z|apply exp_pos|apply Rinv_0_lt_compat; exact Z].
Qed.
Lemma total_EF xs : total (map EF xs) = rsum (map exp xs).
Proof. unfold total. rewrite map_map. reflexivity. Qed.
Lemma near eps ovf xs B : 0 < eps -> 0 <= ovf -> xs <> [] -> (forall x x', In x xs -> In x' xs -> x - x' <= B) ->
  exists rs, resp_col eps ovf (map EF xs) = map EF rs /\ length rs = length xs /\ distribution rs /\
    ln (rsum (map exp xs)) - INR (length xs) * (eps * (1 + eps * exp B)) <= label_bound xs rs.
Proof.
  intros He Ho NE HB. assert (X : exists r, In (EF r) (map EF xs)) by (destruct xs as [|x t]; [congruence|exists x; left; reflexivity]).
  destruct (col_max_spec (map EF xs) (proper_EF xs) X) as (m & E & I & Bm). exists (map (share eps m (map EF xs)) (map EF xs)).
  assert (NE' : map EF xs <> []) by (destruct xs; [congruence|discriminate]). destruct (share_facts eps m (map EF xs) He NE') as ((F1 & F1') & F2 & F3). rewrite !map_length in *.
  unfold resp_col. rewrite E. split; [apply norm_form; [exact He|apply proper_EF|intros r Hr; specialize (Bm r Hr); lra]|]. split; [reflexivity|].
  split; [split; [|exact F1']; eapply Forall_impl; [|exact F1]; cbv beta; intros; lra|].
  apply in_map_iff in I as (m' & [= ->] & I). set (rs := map (share eps m (map EF xs)) (map EF xs)) in *.
  pose proof (sum_exp_pos xs NE) as Z. set (Zs := rsum (map exp xs)) in *.
  assert (N : forall j, (j < length xs)%nat -> nth j rs 0 = (exp (nth j xs 0 - m) + eps) / (exp (- m) * Zs + INR (length xs) * eps)).
  { intros j Hj. unfold rs. rewrite share_nth by (rewrite map_length; exact Hj). unfold share. rewrite total_EF, map_length. fold Zs.
    rewrite (nth_indep _ ENI (EF 0)) by (rewrite map_length; exact Hj). rewrite map_nth. cbn [weight]. rewrite <- exp_plus. do 3 f_equal. ring. }
  set (W := exp (- m) * Zs + INR (length xs) * eps) in *. assert (K : 1 <= INR (length xs)) by (apply (le_INR 1); destruct xs; [congruence|simpl; lia]).
  assert (E1 : 1 <= exp (- m) * Zs).
  { pose proof (elem_le_total (map EF xs) (EF m) ltac:(apply in_map; exact I)) as Q. rewrite total_EF in Q. fold Zs in Q. cbn [weight] in Q. pose proof (exp_pos (- m)).
    assert (exp (- m) * exp m = 1) by (rewrite <- exp_plus, Rplus_opp_l; apply exp_0). nra. }
  assert (LZ : ln Zs = m + ln (exp (- m) * Zs)) by (rewrite ln_mult, ln_exp by (try apply exp_pos; lra); ring).
  assert (LW : ln (exp (- m) * Zs) <= ln W).
  { destruct (Rle_lt_or_eq_dec (exp (- m) * Zs) W ltac:(unfold W; nra)) as [Q|Q]; [left; apply ln_increasing; lra|rewrite Q; lra]. }
  assert (W1 : 1 <= W) by (unfold W; nra).
  assert (T : sumn (fun j => nth j rs 0) (length xs) = 1).
  { rewrite <- F1'. pose proof (sumn_rsum (fun z => z) rs 0) as S0. rewrite map_id in S0. rewrite S0. unfold rs. rewrite !map_length. reflexivity. }
  apply Rle_trans with (sumn (fun j => nth j rs 0 * ln Zs - eps * (1 + eps * exp B)) (length xs)).
  - rewrite <- sumn_minus, sumn_const. rewrite (sumn_ext (fun j => nth j rs 0 * ln Zs) (fun j => ln Zs * nth j rs 0)) by (intros; ring). rewrite sumn_scale, T. lra.
  - unfold label_bound. apply sumn_le. intros j Hj. rewrite (N j Hj). set (x := nth j xs 0) in *. set (e := exp (x - m)). assert (Pe : 0 < e) by apply exp_pos.
    set (r := (e + eps) / W). assert (Pr : 0 < r) by (unfold r; apply Rdiv_lt_0_compat; lra).
    assert (Lr : ln r = ln e + ln (1 + eps / e) - ln W).
    { unfold r, Rdiv. rewrite ln_mult, ln_Rinv by (try apply Rinv_0_lt_compat; lra). rewrite <- ln_mult; [|exact Pe|pose proof (Rinv_0_lt_compat e Pe); nra].
      replace (e * (1 + eps * / e)) with (e + eps) by (field; lra). ring. }
    assert (Le : ln e = x - m) by (unfold e; apply ln_exp). assert (Pq : 0 < eps / e) by (apply Rdiv_lt_0_compat; lra).
    pose proof (ln_le_sub (1 + eps / e) ltac:(lra)) as I1. rewrite Lr, Le.
    assert (G : r * (eps / e) <= eps * (1 + eps * exp B)).
    { assert (G1 : r <= e + eps). { unfold r. apply (Rmult_le_reg_r W); [lra|]. unfold Rdiv. rewrite Rmult_assoc, Rinv_l by lra. nra. }
      assert (G2 : / e <= exp B). { unfold e. rewrite <- exp_Ropp. destruct (Rle_lt_or_eq_dec (- (x - m)) B) as [Q|Q]; [pose proof (HB m x I ltac:(apply nth_In; exact Hj)); lra|left; apply exp_increasing; exact Q|rewrite Q; lra]. }
      apply Rle_trans with ((e + eps) * (eps / e)); [apply Rmult_le_compat_r; lra|]. replace ((e + eps) * (eps / e)) with (eps * (1 + eps * / e)) by (field; lra).
      apply Rmult_le_compat_l; [lra|]. apply Rplus_le_compat_l, Rmult_le_compat_l; lra. }
    assert (G3 : r * ln (1 + eps / e) <= r * (eps / e)) by (apply Rmult_le_compat_l; lra). assert (G4 : r * ln Zs <= r * (m + ln W)) by (apply Rmult_le_compat_l; lra).
    replace (r * x - r * (x - m + ln (1 + eps / e) - ln W)) with (r * (m + ln W) - r * ln (1 + eps / e)) by ring. lra.
Qed.
Lemma c71_update_proof dg eps ovf mlw theta y i x xs B : 0 < eps -> 0 <= ovf -> nth_error y i = Some x -> xs <> [] ->
  map (fun ma => score dg (fst ma) (snd ma) x) (combine mlw theta) = map EF xs ->
  (forall s s', In s xs -> In s' xs -> s - s' <= B) ->
  exists rs, nth_error (update_d dg eps ovf mlw theta y) i = Some (map EF rs) /\ length rs = length xs /\ distribution rs /\
    forall rs', distribution rs' -> length rs' = length xs -> label_bound xs rs' <= label_bound xs rs + INR (length xs) * (eps * (1 + eps * exp B)).
Proof.
  intros He Ho Hy NE Hs HB. destruct (near eps ovf xs B He Ho NE HB) as (rs & R1 & R2 & R3 & R4). exists rs. split; [|split; [exact R2|split; [exact R3|]]].
  - unfold update_d. rewrite nth_error_map, Hy. cbn [option_map]. rewrite Hs, R1. reflexivity.
  - intros rs' D L. pose proof (c71_bound_proof xs rs' D L). lra.
Qed.
