(* Variational parameters on hard assignments against the Gibbs requests. *)
From Coq Require Import Reals Qreals Lra.
From Verif Require Import Prelude Numpy Rng M_Weights M_Ext M_Var S_Weights S_Hist S_Draws S_Var P_Lists T_Post P_Var.
Open Scope R_scope.

Lemma Forall2_map_same {A B C} (R : B -> C -> Prop) (f : A -> B) (g : A -> C) l :
  (forall x, In x l -> R (f x) (g x)) -> Forall2 R (map f l) (map g l).
Proof. induction l as [|x t IH]; intros H; constructor; [apply H; left; reflexivity|]. apply IH. intros; apply H; right; assumption. Qed.
Lemma repeat_map {A} (x : A) n m : repeat x n = map (fun _ => x) (seq m n).
Proof. revert m. induction n as [|n IH]; intros m; [reflexivity|]. cbn [repeat seq map]. f_equal. apply IH. Qed.
Lemma seq_split n k : (n <= k)%nat -> seq 0 k = seq 0 n ++ seq n (k - n).
Proof. intros H. replace k with (n + (k - n))%nat at 1 by lia. rewrite seq_app. reflexivity. Qed.

Lemma all_lt dd k : (list_max dd < k)%nat -> Forall (fun i => (i < k)%nat) dd.
Proof. intros H. pose proof (nmax_ge dd) as M. eapply Forall_impl; [|exact M]. change (nmax dd) with (list_max dd). simpl. intros; lia. Qed.
Lemma n_eq_beyond dd j : (list_max dd < j)%nat -> n_eq j dd = 0%nat.
Proof. intros H. apply count_occ_not_In. intros K. apply all_lt in H. rewrite Forall_forall in H. specialize (H j K). simpl in H. lia. Qed.
Lemma n_gt_beyond dd j : (list_max dd <= j)%nat -> n_gt j dd = 0%nat.
Proof.
  intros H. unfold n_gt. assert (F : Forall (fun i => (i < S j)%nat) dd) by (apply all_lt; lia).
  induction F as [|x t Hx _ IH]; [reflexivity|]. cbn [filter]. destruct (Nat.ltb_spec j x); [lia|].
  apply IH. simpl in H. lia.
Qed.

Ltac q2r := rewrite ?Q2R_plus, ?Q2R_mult, ?Q2R_minus, ?Q2R_nq, ?Q2R_1.


Lemma c26_dp_proof al o s g k sv : d s <> [] -> (0 < al)%Q -> (list_max (d s) < k)%nat ->
  exists l sv', fit_var (CDP al) (one_hot k (d s)) sv = (Ok tt, sv') /\ vpar sv' = PBeta l /\
  ends_with (wm_random (CDP al) (SInt (Z.of_nat k)) o s g) (fun r s' g' =>
    r = Ok (w s') /\ exists rs, g' = g ++ rs /\ Forall2 beta_is rs l).
Proof.
  intros Hd Ha Hk. eexists _, _. split; [apply dp_params|]. cbn [vpar]. split; [reflexivity|]. rewrite hot_rows.
  pose proof (c08_dp_random_size_fitted al k o s g Hd Ha ltac:(lia)) as H. unfold ends_with in *.
  destruct (wm_random _ _ _ _ _) as [[r s'] g']. destruct H as (H1 & H2 & _). split; [exact H1|]. eexists. split; [exact H2|].
  rewrite Nat.min_r by lia. rewrite (seq_split (S (list_max (d s))) k) by lia. rewrite map_app. apply Forall2_app.
  - apply Forall2_map_same. intros j Hj. apply in_seq in Hj. unfold beta_is, dp_post. eexists _, _. split; [reflexivity|]. cbn [fst snd].
    rewrite hot_mass, hot_after by (try apply all_lt; lia). q2r. split; reflexivity.
  - rewrite (repeat_map _ _ (S (list_max (d s)))). apply Forall2_map_same. intros j Hj. apply in_seq in Hj. eexists _, _. split; [reflexivity|]. cbn [fst snd].
    rewrite hot_mass, hot_after by (try apply all_lt; lia). rewrite n_eq_beyond, n_gt_beyond by lia. q2r. simpl. lra.
Qed.

Lemma c26_py_proof pyd al o s g k sv : d s <> [] -> py_ok pyd al -> (list_max (d s) < k)%nat ->
  exists l sv', fit_var (CPY pyd al) (one_hot k (d s)) sv = (Ok tt, sv') /\ vpar sv' = PBeta l /\
  ends_with (wm_random (CPY pyd al) (SInt (Z.of_nat k)) o s g) (fun r s' g' =>
    r = Ok (w s') /\ exists rs, g' = g ++ rs /\ Forall2 (fun rq ab => beta_is rq (fst ab, snd ab - Q2R pyd)) rs l).
Proof.
  intros Hd Ha Hk. eexists _, _. split; [apply py_params|]. cbn [vpar]. split; [reflexivity|]. rewrite hot_rows.
  pose proof (c09_py_random_size_fitted pyd al k o s g Hd Ha ltac:(lia)) as H. unfold ends_with in *.
  destruct (wm_random _ _ _ _ _) as [[r s'] g']. destruct H as (H1 & H2 & _). split; [exact H1|]. eexists. split; [exact H2|].
  rewrite Nat.min_r by lia. rewrite (seq_split (S (list_max (d s))) k) by lia. rewrite map_app. apply Forall2_app.
  - apply Forall2_map_same. intros j Hj. apply in_seq in Hj. unfold beta_is, py_post. eexists _, _. split; [reflexivity|]. cbn [fst snd].
    rewrite hot_mass, hot_after by (try apply all_lt; lia). q2r. split; lra.
  - apply Forall2_map_same. intros j Hj. apply in_seq in Hj. eexists _, _. split; [reflexivity|]. cbn [fst snd].
    rewrite hot_mass, hot_after by (try apply all_lt; lia). rewrite n_eq_beyond, n_gt_beyond by lia. q2r. simpl. lra.
Qed.

Lemma weighted_counts dd : forall k, Forall (fun i => (i < k)%nat) dd -> sumn (fun j => INR j * INR (n_eq j dd)) k = INR (list_sum dd).
Proof.
  intros k H. unfold sumn. induction H as [|x t Hx Ht IH].
  - change (list_sum []) with 0%nat. unfold n_eq. simpl. induction (seq 0 k) as [|y u IHu]; [reflexivity|]. cbn [map]. rewrite rsum_cons, IHu. simpl. lra.
  - cbn [list_sum fold_right]. fold (list_sum t). rewrite plus_INR, <- IH.
    rewrite (map_ext _ (fun i => INR x * INR (if Nat.eqb x i then 1 else 0) + INR i * INR (n_eq i t))).
    + rewrite rsum_map_plus, rsum_map_scale, rsum_indicator. replace ((0 <=? x)%nat && (x <? 0 + k)%nat)%bool with true; [simpl; lra|].
      symmetry. apply andb_true_intro. split; [apply Nat.leb_le; lia|apply Nat.ltb_lt; lia].
    + intros a. rewrite n_eq_cons, plus_INR. destruct (Nat.eqb_spec x a); [subst|]; simpl; lra.
Qed.
Lemma c26_geom_proof a b o s g k sv : d s <> [] -> (0 < a)%Q -> (0 < b)%Q -> (list_max (d s) < k)%nat ->
  exists x y sv', fit_var (CGeom a b) (one_hot k (d s)) sv = (Ok tt, sv') /\ vpar sv' = PPair x y /\
  ends_with (wm_random (CGeom a b) SNone o s g) (fun r s' g' =>
    r = Ok (w s') /\ exists rq, g' = g ++ [rq] /\ beta_is rq (x + 1, y)).
Proof.
  intros Hd Ha Hb Hk. eexists _, _, _. split; [apply geom_params; intros E; apply (f_equal (@length _)) in E; rewrite hot_rows in E; simpl in E; lia|].
  cbn [vpar]. split; [reflexivity|].
  pose proof (c10_geometric_random a b SNone (S (list_max (d s))) o s g Ha Hb ltac:(lia) (or_introl (conj eq_refl (conj Hd eq_refl)))) as H. unfold ends_with in *.
  destruct (wm_random _ _ _ _ _) as [[r s'] g']. destruct H as (H1 & H2 & _). split; [exact H1|]. eexists. split; [exact H2|].
  eexists _, _. split; [reflexivity|]. cbn [fst snd]. q2r. unfold one_hot at 1. cbn [cols]. rewrite hot_rows.
  assert (L : (1 <= length (d s))%nat) by (destruct (d s); [congruence|simpl; lia]). rewrite Nat.max_l by exact L. split; [lra|]. f_equal.
  rewrite <- (weighted_counts (d s) k) by (apply all_lt; lia). unfold sumn. f_equal. apply map_ext_in. intros j Hj. apply in_seq in Hj. rewrite hot_mass by lia. reflexivity.
Qed.

Lemma radd2_same a b : length a = length b -> radd2 a b = Some (map (fun p => fst p + snd p) (pair2 a b)).
Proof.
  intros H. unfold radd2. rewrite H, Nat.eqb_refl.
  destruct a as [|x [|x' a]], b as [|y [|y' b]]; try discriminate; reflexivity.
Qed.
Lemma dir_params n al D s : length al = length (rows D) -> n = Z.of_nat (length (rows D)) ->
  fit_var (CDirDist n al) D s = (Ok tt, VS (Some D) (Some n) (PDir (map (fun j => Q2R (nth j al 0%Q) + mass D j) (seq 0 (length al)))) (vn s)).
Proof.
  intros H ->. unfold fit_var. rewrite Z.eqb_refl. unfold row_sums. rewrite radd2_same by (rewrite !map_length; exact H).
  do 3 f_equal. rewrite rows_seq. rewrite (nth_ext_list al 0%Q) at 1. rewrite map_map. rewrite <- H, pair2_map, map_map. reflexivity.
Qed.
Lemma c26_dir_proof al o s g sv : d s <> [] -> Forall (fun x => (0 < x)%Q) al -> (list_max (d s) < length al)%nat ->
  let n := Z.of_nat (length al) in
  exists l sv', fit_var (CDirDist n al) (one_hot (length al) (d s)) sv = (Ok tt, sv') /\ vpar sv' = PDir l /\
  ends_with (wm_random (CDirDist n al) SNone o s g) (fun r s' g' =>
    r = Ok (w s') /\ exists q, g' = g ++ [RDirichlet q] /\ map Q2R q = l).
Proof.
  intros Hd Ha Hk n. eexists _, _. split; [apply dir_params; rewrite hot_rows; reflexivity|]. cbn [vpar]. split; [reflexivity|].
  rewrite (c11_dirichlet_random n al SNone o s g Hd Ha Hk). cbn [ends_with w set_w]. split; [reflexivity|]. eexists. split; [reflexivity|].
  rewrite !map_map. apply map_ext_in. intros j Hj. apply in_seq in Hj. rewrite Q2R_Qred. q2r. rewrite hot_mass by lia. reflexivity.
Qed.
