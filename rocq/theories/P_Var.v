(* Proofs about the variational half of the weight models: parameters. *)
From Coq Require Import Reals Qreals Lra.
From Verif Require Import Prelude Numpy Rng M_Weights M_Ext M_Var S_Weights S_Draws S_Var P_Lists.
Open Scope R_scope.

Lemma rsum_cons x l : rsum (x :: l) = x + rsum l.
Proof. reflexivity. Qed.
Lemma rsum_app a b : rsum (a ++ b) = rsum a + rsum b.
Proof. induction a as [|x t IH]; simpl; [lra|]. rewrite IH. lra. Qed.
Lemma rsum_rev l : rsum (rev l) = rsum l.
Proof. induction l as [|x t IH]; [reflexivity|]. simpl. rewrite rsum_app, IH. simpl. lra. Qed.
Lemma rsum_nonneg l : Forall (fun x => 0 <= x) l -> 0 <= rsum l.
Proof. induction 1; simpl; lra. Qed.

Lemma rcumsum_len l : forall a, length (rcumsum_from a l) = length l.
Proof. induction l as [|x t IH]; intros a; simpl; [reflexivity|]. f_equal. apply IH. Qed.
Lemma rcumsum_nth l : forall a j, (j < length l)%nat -> nth j (rcumsum_from a l) 0 = a + rsum (firstn (S j) l).
Proof.
  induction l as [|x t IH]; intros a j H; [simpl in H; lia|]. destruct j; [simpl; lra|].
  cbn [rcumsum_from nth]. rewrite IH by (simpl in H; lia). cbn [firstn rsum fold_right]. fold (rsum (firstn (S j) t)).
  change (match t with [] => [] | a1 :: l => a1 :: firstn j l end) with (firstn (S j) t). lra.
Qed.
Lemma removelast_len {A} (l : list A) : length (removelast l) = (length l - 1)%nat.
Proof. induction l as [|x t IH]; [reflexivity|]. destruct t; [reflexivity|]. cbn [removelast length] in *. rewrite IH. lia. Qed.
Lemma removelast_nth {A} (l : list A) j dflt : (j < length l - 1)%nat -> nth j (removelast l) dflt = nth j l dflt.
Proof.
  revert j. induction l as [|x t IH]; intros j H; [reflexivity|]. destruct t as [|y t]; [simpl in H; lia|].
  cbn [removelast]. destruct j; [reflexivity|]. cbn [nth]. apply IH. simpl in *. lia.
Qed.
Lemma rtail_len a : a <> [] -> length (rtail a) = length a.
Proof.
  intros H. unfold rtail. rewrite app_length, rev_length, removelast_len, rcumsum_len, rev_length. destruct a; [congruence|]. simpl. lia.
Qed.
Lemma rsum_firstn_rev a n : (n <= length a)%nat -> rsum (firstn n (rev a)) = rsum (skipn (length a - n) a).
Proof.
  intros H. rewrite <- rsum_rev. f_equal. rewrite firstn_rev, rev_involutive. reflexivity.
Qed.
Lemma rtail_nth a j : (j < length a)%nat -> nth j (rtail a) 0 = rsum (skipn (S j) a).
Proof.
  intros H. unfold rtail. assert (L : length (rev (removelast (rcumsum_from 0 (rev a)))) = (length a - 1)%nat) by (rewrite rev_length, removelast_len, rcumsum_len, rev_length; reflexivity).
  destruct (Nat.eq_dec j (length a - 1)) as [->|N].
  - rewrite app_nth2, L, Nat.sub_diag by lia. rewrite skipn_all2 by lia. reflexivity.
  - rewrite app_nth1 by lia. rewrite rev_nth; rewrite rev_length in L; [|lia]. rewrite L.
    rewrite removelast_nth by (rewrite rcumsum_len, rev_length; lia).
    rewrite rcumsum_nth by (rewrite rev_length; lia). rewrite Rplus_0_l, rsum_firstn_rev by lia. f_equal. f_equal. lia.
Qed.
Lemma nth_ext_list {A} (l : list A) dflt : l = map (fun j => nth j l dflt) (seq 0 (length l)).
Proof. induction l as [|x t IH]; [reflexivity|]. cbn [length seq map nth]. f_equal. rewrite <- seq_shift, map_map. exact IH. Qed.

Lemma pair2_map {A} (f g : A -> R) l : pair2 (map f l) (map g l) = map (fun x => (f x, g x)) l.
Proof. induction l; simpl; [reflexivity|]. f_equal. assumption. Qed.
Lemma combine_map {A B C} (f : A -> B) (g : A -> C) l : combine (map f l) (map g l) = map (fun x => (f x, g x)) l.
Proof. induction l; simpl; [reflexivity|]. f_equal. assumption. Qed.

(* the two columns of the parameter array *)
Lemma rows_seq D : map rsum (rows D) = map (mass D) (seq 0 (length (rows D))).
Proof. rewrite (nth_ext_list (map rsum (rows D)) 0), map_length. apply map_ext. intros j. unfold mass. rewrite (map_nth rsum _ []). reflexivity. Qed.
Lemma rtail_seq D : rows D <> [] -> rtail (row_sums D) = map (mass_after D) (seq 0 (length (rows D))).
Proof.
  intros H. assert (N : row_sums D <> []) by (unfold row_sums; destruct (rows D); [congruence|discriminate]).
  rewrite (nth_ext_list (rtail (row_sums D)) 0), rtail_len by exact N. unfold row_sums. rewrite map_length.
  apply map_ext_in. intros j Hj. apply in_seq in Hj. rewrite rtail_nth by (rewrite map_length; lia). rewrite skipn_map. reflexivity.
Qed.
Lemma rtail_nil : pair2 [] (map (fun y => 0 + y) (rtail [])) = [].
Proof. reflexivity. Qed.
Lemma dp_params al D s : fit_var (CDP al) D s =
  (Ok tt, VS (Some D) (Some (Z.of_nat (length (rows D))))
     (PBeta (map (fun j => (1 + mass D j, Q2R al + mass_after D j)) (seq 0 (length (rows D))))) (vn s)).
Proof.
  unfold fit_var. destruct (rows D) as [|r t] eqn:E; [unfold row_sums; rewrite E; reflexivity|]. rewrite <- E in *.
  assert (N : rows D <> []) by congruence. rewrite (rtail_seq D N). unfold row_sums. rewrite rows_seq, !map_map, pair2_map. reflexivity.
Qed.
Lemma py_params pyd al D s : fit_var (CPY pyd al) D s =
  (Ok tt, VS (Some D) (Some (Z.of_nat (length (rows D))))
     (PBeta (map (fun j => (1 - Q2R pyd + mass D j, Q2R al + (1 + INR j) * Q2R pyd + mass_after D j)) (seq 0 (length (rows D))))) (vn s)).
Proof.
  unfold fit_var. destruct (rows D) as [|r t] eqn:E; [unfold row_sums; rewrite E; reflexivity|]. rewrite <- E in *.
  assert (N : rows D <> []) by congruence. rewrite (rtail_seq D N). unfold row_sums. rewrite rows_seq.
  rewrite <- (map_id (seq 0 (length (rows D)))) at 2. rewrite combine_map, !map_map, pair2_map. reflexivity.
Qed.
Lemma seq_weighted D : forall n, rsum (map (fun jn => INR (fst jn) * snd jn) (combine (seq n (length (tl (rows D)))) (tl (row_sums D)))) =
  rsum (map (fun j => INR (n + j) * mass D (S j)) (seq 0 (length (tl (rows D))))).
Proof.
  unfold row_sums, mass. destruct (rows D) as [|r t]; [reflexivity|]. cbn [tl map nth]. clear r.
  induction t as [|r t IH]; intros n; [reflexivity|]. cbn [length seq combine map nth fst snd].
  rewrite !rsum_cons, (IH (S n)), Nat.add_0_r. f_equal.
  rewrite <- seq_shift, map_map. f_equal. apply map_ext. intros a. rewrite Nat.add_succ_r. reflexivity.
Qed.
Lemma geom_params a b D s : rows D <> [] -> fit_var (CGeom a b) D s =
  (Ok tt, VS (Some D) (Some (Z.of_nat (length (rows D))))
     (PPair (Q2R a + INR (Nat.max (cols D) 1) - 1) (Q2R b + sumn (fun j => INR j * mass D j) (length (rows D)))) (vn s)).
Proof.
  intros H. unfold fit_var. destruct (rows D) as [|r t] eqn:E; [congruence|]. rewrite <- E.
  replace (length (rows D) - 1)%nat with (length (tl (rows D))) by (rewrite E; simpl; lia).
  rewrite seq_weighted. unfold sumn. replace (seq 0 (length (rows D))) with (0%nat :: seq 1 (length (tl (rows D)))) by (rewrite E; reflexivity).
  cbn [map]. rewrite rsum_cons, <- seq_shift, map_map. change (INR 0) with 0. rewrite Rmult_0_l, Rplus_0_l. reflexivity.
Qed.

(* ---- one-hot arrays ---- *)
Lemma hot_row j dd : rsum (map (fun i => if Nat.eqb i j then 1 else 0) dd) = INR (n_eq j dd).
Proof.
  induction dd as [|x t IH]; [reflexivity|]. cbn [map]. rewrite rsum_cons, IH, n_eq_cons, plus_INR.
  destruct (Nat.eqb x j); simpl; lra.
Qed.
Lemma hot_mass k dd j : (j < k)%nat -> mass (one_hot k dd) j = INR (n_eq j dd).
Proof.
  intros H. unfold mass, one_hot. cbn [rows]. rewrite (nth_indep _ _ (map (fun i => if Nat.eqb i 0 then 1 else 0) dd)) by (rewrite map_length, seq_length; exact H).
  rewrite (map_nth (fun j => map (fun i => if Nat.eqb i j then 1 else 0) dd)), seq_nth by exact H. apply hot_row.
Qed.
Lemma rsum_map_plus {A} (f g : A -> R) l : rsum (map (fun x => f x + g x) l) = rsum (map f l) + rsum (map g l).
Proof. induction l; cbn [map]; rewrite ?rsum_cons; [simpl; lra|]. lra. Qed.
Lemma rsum_map_scale {A} c (f : A -> R) l : rsum (map (fun x => c * f x) l) = c * rsum (map f l).
Proof. induction l; cbn [map]; rewrite ?rsum_cons; [simpl; lra|]. lra. Qed.
Lemma rsum_indicator x : forall n m, rsum (map (fun i => INR (if Nat.eqb x i then 1 else 0)) (seq m n)) = INR (if (m <=? x)%nat && (x <? m + n)%nat then 1 else 0).
Proof.
  induction n as [|n IH]; intros m; cbn [seq map].
  - destruct (m <=? x)%nat eqn:A; [|reflexivity]. apply Nat.leb_le in A. destruct (Nat.ltb_spec x (m + 0)); [lia|reflexivity].
  - rewrite rsum_cons, IH. destruct (Nat.eqb_spec x m), (Nat.leb_spec (S m) x), (Nat.ltb_spec x (S m + n)), (Nat.leb_spec m x), (Nat.ltb_spec x (m + S n)); simpl; try lia; lra.
Qed.
Lemma count_after dd k j : Forall (fun i => (i < k)%nat) dd -> (j < k)%nat ->
  rsum (map (fun i => INR (n_eq i dd)) (seq (S j) (k - S j))) = INR (n_gt j dd).
Proof.
  intros H Hj. induction H as [|x t Hx Ht IH].
  - unfold n_gt, n_eq; simpl. induction (seq (S j) (k - S j)); simpl; [reflexivity|]. lra.
  - rewrite n_gt_cons, plus_INR, <- IH.
    rewrite (map_ext _ (fun i => INR (if Nat.eqb x i then 1 else 0) + INR (n_eq i t))) by (intros a; rewrite n_eq_cons, plus_INR; reflexivity).
    rewrite rsum_map_plus. f_equal. rewrite rsum_indicator. f_equal.
    destruct (Nat.leb_spec (S j) x), (Nat.ltb_spec x (S j + (k - S j))), (Nat.ltb_spec j x); simpl; lia.
Qed.
Lemma skipn_seq : forall n m k, skipn n (seq m k) = seq (m + n) (k - n).
Proof.
  induction n as [|n IH]; intros m k; [rewrite Nat.add_0_r, Nat.sub_0_r; reflexivity|].
  destruct k; [reflexivity|]. cbn [seq skipn]. rewrite IH. f_equal; lia.
Qed.
Lemma hot_after k dd j : Forall (fun i => (i < k)%nat) dd -> (j < k)%nat -> mass_after (one_hot k dd) j = INR (n_gt j dd).
Proof.
  intros H Hj. unfold mass_after, one_hot. cbn [rows]. rewrite skipn_map, skipn_seq, map_map.
  rewrite (map_ext _ (fun i => INR (n_eq i dd))) by (intros; apply hot_row). apply count_after; assumption.
Qed.
Lemma hot_rows k dd : length (rows (one_hot k dd)) = k.
Proof. unfold one_hot. cbn [rows]. rewrite map_length, seq_length. reflexivity. Qed.

Lemma Q2R_nq n : Q2R (nq n) = INR n.
Proof. unfold nq, Q2R. simpl. rewrite INR_IZR_INZ. field. Qed.
Lemma Q2R_1 : Q2R 1 = 1.
Proof. unfold Q2R. simpl. field. Qed.
Lemma Q2R_Qred x : Q2R (Qred x) = Q2R x.
Proof. apply Qeq_eqR. apply Qred_correct. Qed.
