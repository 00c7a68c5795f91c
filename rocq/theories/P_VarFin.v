From Coq Require Import Reals Lra Permutation.
From Verif Require Import Prelude Numpy Rng M_Weights M_Ext M_Var M_VarNum M_VarLoop S_VarNum S_Affine S_VarFin P_Affine P_Affine2 P_Var P_Var26 P_Density.
Open Scope R_scope.

(* ---- quadratic forms ---- *)
Definition bil (d : nat) (f : nat -> nat -> R) (u : nat -> R) : R := rsum (map (fun i => rsum (map (fun j => u i * f i j * u j) (seq 0 d))) (seq 0 d)).
Lemma bil_ext d f g u : (forall i j, (i < d)%nat -> (j < d)%nat -> f i j = g i j) -> bil d f u = bil d g u.
Proof. intro H. unfold bil. apply rsum_ext. intros i Hi. apply rsum_ext. intros j Hj. apply in_seq in Hi, Hj. rewrite H by lia. reflexivity. Qed.
Lemma bil_add d f g u : bil d (fun i j => f i j + g i j) u = bil d f u + bil d g u.
Proof.
  unfold bil. rewrite <- rsum_add. apply rsum_ext. intros i _. rewrite <- rsum_add. apply rsum_ext. intros j _. lra.
Qed.
Lemma bil_mult d f b u : bil d (fun i j => b * f i j) u = b * bil d f u.
Proof. unfold bil. rewrite <- rsum_mult. apply rsum_ext. intros i _. rewrite <- rsum_mult. apply rsum_ext. intros j _. lra. Qed.
Lemma bil_rank1 d v u : bil d (fun i j => v i * v j) u = rsum (map (fun i => u i * v i) (seq 0 d)) * rsum (map (fun i => u i * v i) (seq 0 d)).
Proof.
  unfold bil. set (s := rsum (map (fun i => u i * v i) (seq 0 d))) at 2. rewrite (rsum_ext _ (fun i => s * (u i * v i))).
  - rewrite rsum_mult. reflexivity.
  - intros i _. rewrite (rsum_ext _ (fun j => (u i * v i) * (u j * v j))) by (intros; lra). rewrite rsum_mult. fold s. lra.
Qed.
Lemma bil_sum {A} d (f : A -> nat -> nat -> R) l u : bil d (fun i j => rsum (map (fun x => f x i j) l)) u = rsum (map (fun x => bil d (f x) u) l).
Proof.
  induction l as [|x l IH]; simpl.
  - unfold bil. rewrite (rsum_ext _ (fun _ => 0 * 0)). { rewrite rsum_mult. lra. } intros i _. rewrite (rsum_ext _ (fun j => 0 * u j)) by (intros; lra). rewrite rsum_mult. lra.
  - rewrite bil_add, IH. reflexivity.
Qed.
Lemma nth_tab (f : nat -> R) d i : (i < d)%nat -> nth i (map f (seq 0 d)) 0 = f i.
Proof. intro H. rewrite (nth_indep _ 0 (f 0%nat)) by (rewrite map_length, seq_length; exact H). rewrite map_nth, seq_nth by exact H. reflexivity. Qed.
Lemma mentry_tab (f : nat -> nat -> R) d i j : (i < d)%nat -> (j < d)%nat -> mentry (map (fun i => map (fun j => f i j) (seq 0 d)) (seq 0 d)) i j = f i j.
Proof.
  intros H1 H2. unfold mentry. rewrite (nth_indep _ [] (map (fun j => f 0%nat j) (seq 0 d))) by (rewrite map_length, seq_length; exact H1).
  rewrite (map_nth (fun i => map (fun j => f i j) (seq 0 d))), seq_nth by exact H1. apply nth_tab. exact H2.
Qed.
Lemma matrix_pd d y h vd : length (p_mu h) = d -> positive_definite d (p_psi h) -> 0 < p_lam h -> Forall (fun r => 0 <= r) vd -> 0 < rsum vd ->
  positive_definite d (theta_matrix y h vd).
Proof.
  intros Hm [Sq PD] Hl Hv Hn. split; [apply square_theta; exact Hm|]. intros u Hu. specialize (PD u Hu).
  change (0 < bil d (mentry (p_psi h)) u) in PD. change (0 < bil d (mentry (theta_matrix y h vd)) u).
  set (n := rsum vd) in *.
  set (cst := rsum (map (fun l => p_lam h * n / (p_lam h + n) * (xbar vd y l - nth l (p_mu h) 0) * (xbar vd y l - nth l (p_mu h) 0)) (seq 0 d))).
  set (ax := fun (x : list R) i => nth i x 0 - xbar vd y i).
  rewrite (bil_ext d _ (fun i j => (mentry (p_psi h) i j + / n * rsum (map (fun p => fst p * (ax (snd p) i * ax (snd p) j)) (combine vd y))) + cst * (1 * 1))).
  - rewrite bil_add, bil_add, bil_mult, bil_mult, bil_sum. rewrite (bil_rank1 d (fun _ => 1) u).
    assert (C0 : 0 <= cst).
    { apply rsum_ge0. intros z Hz. apply in_map_iff in Hz. destruct Hz as [l [<- _]]. rewrite Rmult_assoc. apply Rmult_le_pos; [|apply Rle_0_sqr].
      unfold Rdiv. apply Rmult_le_pos; [apply Rmult_le_pos; lra|]. left. apply Rinv_0_lt_compat. lra. }
    assert (S0 : 0 <= rsum (map (fun p => bil d (fun i j => fst p * (ax (snd p) i * ax (snd p) j)) u) (combine vd y))).
    { apply rsum_ge0. intros z Hz. apply in_map_iff in Hz. destruct Hz as [[r x] [<- Hp]]. simpl. rewrite bil_mult, bil_rank1. apply Rmult_le_pos; [|apply Rle_0_sqr].
      rewrite Forall_forall in Hv. apply Hv. eapply in_combine_l. exact Hp. }
    assert (I0 : 0 < / n) by (apply Rinv_0_lt_compat; exact Hn).
    set (q := rsum (map (fun i => u i * 1) (seq 0 d))).
    pose proof (Rmult_le_pos _ _ (Rlt_le _ _ I0) S0). pose proof (Rmult_le_pos _ _ C0 (Rle_0_sqr q)). unfold Rsqr in *. lra.
  - intros i j Hi Hj. unfold theta_matrix. rewrite Hm. cbv zeta. fold n. rewrite mentry_tab by assumption. fold cst. unfold wsum, ax, Rdiv. rewrite Rmult_1_r, Rmult_1_r. rewrite (Rmult_comm (/ n)). reflexivity.
Qed.
Lemma rsum_zero {A} (f : A -> R) l : (forall x, In x l -> f x = 0) -> rsum (map f l) = 0.
Proof. intro H. rewrite (rsum_ext _ (fun _ => 0 * 0)) by (intros x Hx; rewrite (H x Hx); lra). rewrite rsum_mult. lra. Qed.
Lemma rsum_nonneg_zero l : (forall x, In x l -> 0 <= x) -> rsum l = 0 -> forall x, In x l -> x = 0.
Proof.
  induction l as [|a l IH]; intros H Z x Hx; [contradiction|]. simpl in Z. assert (0 <= a) by (apply H; left; reflexivity).
  assert (0 <= rsum l) by (apply rsum_ge0; intros; apply H; right; assumption). destruct Hx as [<-|Hx]; [lra|]. apply IH; [intros; apply H; right; assumption|lra|exact Hx].
Qed.
Lemma inverse_norm d m p : (0 < d)%nat -> square_mat d p -> product_is_one d m p -> 0 < norm2 p.
Proof.
  intros Hd [S1 S2] Q.
  assert (G : 0 <= norm2 p).
  { apply rsum_ge0. intros z Hz. apply in_map_iff in Hz. destruct Hz as [r [<- _]]. apply rsum_ge0. intros q Hq. apply in_map_iff in Hq. destruct Hq as [x [<- _]]. apply Rle_0_sqr. }
  destruct (Req_dec (norm2 p) 0) as [E|E]; [exfalso|lra].
  assert (Z : forall r, In r p -> forall x, In x r -> x = 0).
  { intros r Hr x Hx. assert (R0 : rsum (map (fun x => x * x) r) = 0).
    { apply (rsum_nonneg_zero (map (fun r => rsum (map (fun x => x * x) r)) p)); [|exact E|apply in_map_iff; exists r; split; [reflexivity|exact Hr]].
      intros z Hz. apply in_map_iff in Hz. destruct Hz as [r0 [<- _]]. apply rsum_ge0. intros q Hq. apply in_map_iff in Hq. destruct Hq as [x0 [<- _]]. apply Rle_0_sqr. }
    assert (x * x = 0).
    { apply (rsum_nonneg_zero (map (fun x => x * x) r)); [|exact R0|apply in_map_iff; exists x; split; [reflexivity|exact Hx]].
      intros q Hq. apply in_map_iff in Hq. destruct Hq as [x0 [<- _]]. apply Rle_0_sqr. }
    nra. }
  specialize (Q 0%nat 0%nat Hd Hd). simpl in Q. rewrite rsum_zero in Q; [lra|]. intros l Hl. apply in_seq in Hl.
  assert (Il : In (nth l p []) p) by (apply nth_In; rewrite S1; lia).
  rewrite (Z (nth l p []) Il (nth 0 (nth l p []) 0)); [lra|]. apply nth_In. rewrite Forall_forall in S2. rewrite (S2 _ Il). exact Hd.
Qed.

(* ---- one-hot rows ---- *)
Lemma hot_mass l j : In j l -> 0 < rsum (map (fun b => if Nat.eqb b j then 1 else 0) l).
Proof.
  intro H. assert (G : forall q, 0 <= rsum (map (fun b => if Nat.eqb b j then 1 else 0) q)).
  { intro q. apply rsum_ge0. intros z Hz. apply in_map_iff in Hz. destruct Hz as [b [<- _]]. destruct (Nat.eqb b j); lra. }
  induction l as [|b l IH]; [contradiction|]. simpl. pose proof (G l). destruct H as [->|H]; [rewrite Nat.eqb_refl; lra|]. specialize (IH H). destruct (Nat.eqb b j); lra.
Qed.
Lemma hot_empty l j : ~ In j l -> rsum (map (fun b => if Nat.eqb b j then 1 else 0) l) = 0.
Proof.
  intro H. apply rsum_zero. intros b Hb. destruct (Nat.eqb_spec b j); [subst; contradiction|reflexivity].
Qed.
Lemma collect_all {A} (l : list (outcome A)) : (forall x, In x l -> exists u, x = Fin u) -> exists r, collect l = Fin r.
Proof.
  induction l as [|x l IH]; intro H; [exists []; reflexivity|]. destruct (H x (or_introl eq_refl)) as [u ->]. destruct IH as [r E]; [intros; apply H; right; assumption|].
  exists (u :: r). simpl. rewrite E. reflexivity.
Qed.
Lemma collect_nan {A} (l : list (outcome A)) : (forall x, In x l -> forall e, x <> Raise e) -> In NotANumber l -> collect l = NotANumber.
Proof.
  induction l as [|x l IH]; intros H Hn; [contradiction|].
  assert (N : forall e, collect l <> Raise e).
  { clear IH Hn. assert (H' : forall x, In x l -> forall e, x <> Raise e) by (intros; apply H; right; assumption). clear H. induction l as [|z l IH]; [discriminate|].
    intros e. simpl. destruct z as [b|e0|]; [|exfalso; apply (H' (Raise e0) (or_introl eq_refl) e0); reflexivity|].
    - specialize (IH (fun x Hx => H' x (or_intror Hx))). destruct (collect l) as [q|e0|]; try discriminate. intro Q. apply (IH e0). reflexivity.
    - specialize (IH (fun x Hx => H' x (or_intror Hx))). destruct (collect l) as [q|e0|]; try discriminate. intro Q. apply (IH e0). reflexivity. }
  simpl. destruct x as [b|e0|].
  - destruct Hn as [Hn|Hn]; [discriminate|]. rewrite IH; [reflexivity|intros; apply H; right; assumption|exact Hn].
  - exfalso. apply (H (Raise e0) (or_introl eq_refl) e0). reflexivity.
  - destruct (collect l) as [q|e0|] eqn:E; try reflexivity. exfalso. apply (N e0). reflexivity.
Qed.

(* ---- the weight model ---- *)
Definition wst (c : cls) (k : nat) (w : vs) : Prop :=
  match c with
  | CDP _ => vd w <> None /\ vk w = Some (Z.of_nat k) /\ exists l, vpar w = PBeta l /\ length l = k
  | CPY _ _ => vd w <> None /\ exists l, vpar w = PBeta l /\ length l = k
  | CGeom _ _ => vd w <> None /\ exists a b, vpar w = PPair a b
  | CDirDist n al => n = Z.of_nat k /\ length al = k /\ vd w <> None /\ exists l, vpar w = PDir l /\ length l = k
  | CEqual => vn w = Z.of_nat k
  | CFreq _ => vn w = Z.of_nat k /\ exists D q, vd w = Some D /\ vk w = Some q /\ (Z.of_nat k <= q)%Z /\ (cols D = 0%nat \/ length (rows D) = k /\ mat_sum D <> 0)
  | _ => False
  end.
Lemma pair2_len a b : length (pair2 a b) = Nat.min (length a) (length b).
Proof. revert b. induction a as [|x a IH]; intros [|z b]; try reflexivity. simpl. f_equal. apply IH. Qed.
Lemma new_w_ok c k D w : (0 < k)%nat -> length (rows D) = k -> fits_groups k w c -> (cols D = 0%nat \/ (k <= cols D)%nat /\ mat_sum D <> 0) ->
  exists w1, new_w c D w = Fin w1 /\ wst c k w1.
Proof.
  intros Hk Hr Hc Hd. unfold new_w, fit_var. cbv zeta. assert (L : length (row_sums D) = k) by (unfold row_sums; rewrite map_length; exact Hr).
  assert (Lt : length (rtail (row_sums D)) = k) by (rewrite rtail_len; [exact L|]; intro E; rewrite E in L; simpl in L; lia).
  destruct c; simpl in Hc; try contradiction; rewrite ?Hr.
  - destruct Hc as [-> Ha]. rewrite Z.eqb_refl. rewrite radd2_same by (rewrite map_length; congruence).
    eexists. split; [reflexivity|]. simpl. split; [reflexivity|]. split; [exact Ha|]. split; [discriminate|]. eexists. split; [reflexivity|]. rewrite map_length, pair2_len, map_length, Ha, L. apply Nat.min_id.
  - eexists. split; [reflexivity|]. simpl. split; [discriminate|]. split; [reflexivity|]. eexists. split; [reflexivity|]. rewrite pair2_len, !map_length, L, Lt. apply Nat.min_id.
  - eexists. split; [reflexivity|]. simpl. split; [discriminate|]. eexists. split; [reflexivity|]. rewrite pair2_len, !map_length, combine_length, L, Lt, seq_length, !Nat.min_id. reflexivity.
  - destruct (rows D) as [|r rs] eqn:E; [simpl in Hr; lia|]. eexists. split; [reflexivity|]. simpl. split; [discriminate|]. eexists _, _. reflexivity.
  - eexists. split; [reflexivity|]. reflexivity.
  - eexists. split; [reflexivity|]. simpl. split; [exact Hc|]. eexists D, _. split; [reflexivity|]. split; [reflexivity|]. destruct Hd as [Hd|[Hd1 Hd2]].
    + rewrite Hd. simpl. split; [lia|]. left. reflexivity.
    + destruct (Nat.eqb_spec (cols D) 0); [lia|]. split; [lia|]. right. split; [exact Hr|exact Hd2].
Qed.
Lemma wst_fits c k w : wst c k w -> fits_groups k w c.
Proof. destruct c; simpl; try tauto. Qed.
Lemma log_rest_ok dg w l j : vpar w = PBeta l -> (j <= length l)%nat -> exists x, log_rest dg w j = Some x.
Proof.
  intros V. induction j as [|j IH]; intro H; [exists 0; reflexivity|]. destruct IH as [x E]; [lia|]. simpl. rewrite E. unfold beta_at. rewrite V.
  destruct (nth_error l j) as [[a b]|] eqn:N; [eexists; reflexivity|]. apply nth_error_None in N. lia.
Qed.
Lemma mlw_ok dg c k w j : (0 < k)%nat -> wst c k w -> (j < k)%nat -> exists m, mean_log_w dg c j w = Ok (EF m).
Proof.
  intros Hk H Hj. destruct c; simpl in H; try contradiction; unfold mean_log_w.
  - destruct H as (_ & _ & H1 & l & V & Ll). destruct (vd w); [|contradiction]. rewrite V. destruct (nth_error l j) eqn:N; [eexists; reflexivity|]. apply nth_error_None in N. lia.
  - destruct H as (H1 & K & l & V & Ll). destruct (vd w); [|contradiction]. rewrite K. destruct (Z.leb_spec (Z.of_nat k) (Z.of_nat j)); [lia|].
    destruct (log_rest_ok dg w l j V) as [x ->]; [lia|]. destruct (Z.of_nat j <? Z.of_nat k - 1)%Z; [|eexists; reflexivity].
    unfold beta_at. rewrite V. destruct (nth_error l j) eqn:N; [eexists; reflexivity|]. apply nth_error_None in N. lia.
  - destruct H as (H1 & l & V & Ll). destruct (vd w); [|contradiction]. destruct (log_rest_ok dg w l j V) as [x ->]; [lia|].
    unfold beta_at. rewrite V. destruct (nth_error l j) as [[a b]|] eqn:N; [eexists; reflexivity|]. apply nth_error_None in N. lia.
  - destruct H as (H1 & a0 & b0 & V). destruct (vd w); [|contradiction]. rewrite V. eexists. reflexivity.
  - rewrite H. destruct (Z.eqb_spec (Z.of_nat k) 0); [lia|]. destruct (Z.ltb_spec (Z.of_nat j) (Z.of_nat k)); [|lia].
    assert (P : 0 < 1 / IZR (Z.of_nat k)) by (apply Rdiv_lt_0_compat; [lra|apply IZR_lt; lia]). unfold ext_log. rewrite rltb_true by exact P. eexists. reflexivity.
  - destruct H as (Vn & D & q & V & K & Q & Hd). rewrite V, K. destruct (Z.leb_spec q (Z.of_nat j)); [lia|].
    destruct (Nat.eqb_spec (cols D) 0) as [E|E].
    + destruct (Z.eqb_spec q 0); [lia|]. assert (P : 0 < 1 / IZR q) by (apply Rdiv_lt_0_compat; [lra|apply IZR_lt; lia]). unfold ext_log. rewrite rltb_true by exact P. eexists. reflexivity.
    + destruct Hd as [Hd|[Hd1 Hd2]]; [contradiction|]. destruct (nth_error (row_sums D) j) as [x|] eqn:N.
      * simpl. unfold ext_div, reqb. destruct (Req_EM_T (mat_sum D) 0); [contradiction|]. eexists. reflexivity.
      * apply nth_error_None in N. unfold row_sums in N. rewrite map_length in N. lia.
Qed.
Lemma weigh_ok f l : forall j acc, (forall i, (j <= i < j + length l)%nat -> exists x, f i = Ok x) -> exists e, weigh_logs f j l acc = Ok e.
Proof.
  induction l as [|x l IH]; intros j acc H; [eexists; reflexivity|]. simpl. destruct (H j) as [v ->]; [simpl; lia|]. apply IH. intros i Hi. apply H. simpl. lia.
Qed.
Lemma pd_ok dg c k D w : (0 < k)%nat -> wst c k w -> length (rows D) = k -> (k <= cols D)%nat -> mat_sum D <> 0 ->
  exists e w1, mean_log_pd dg c (Some D) w = (Ok e, w1) /\ wst c k w1.
Proof.
  intros Hk H Hr Hcol Hsum. unfold mean_log_pd. cbv zeta.
  assert (W : exists e, weigh_logs (fun j => mean_log_w dg c j w) 0 (row_sums D) (EF 0) = Ok e).
  { apply weigh_ok. intros i Hi. unfold row_sums in Hi. rewrite map_length, Hr in Hi. destruct (mlw_ok dg c k w i Hk H) as [m E]; [lia|]. eexists. exact E. }
  destruct c; try (exfalso; exact H).
  - destruct W as [e ->]. eexists _, _. split; [reflexivity|exact H].
  - destruct W as [e ->]. eexists _, _. split; [reflexivity|exact H].
  - destruct W as [e ->]. eexists _, _. split; [reflexivity|exact H].
  - destruct H as (H1 & a0 & b0 & V). rewrite V. destruct (rows D) eqn:E; [simpl in Hr; lia|]. eexists _, _. split; [reflexivity|]. simpl. split; [exact H1|]. eexists _, _. exact V.
  - eexists _, _. split; [reflexivity|exact H].
  - destruct H as (Vn & B & q & V & K & Q & Hd). eexists _, _. split; [reflexivity|]. simpl. split; [exact Vn|]. eexists D, q. split; [reflexivity|]. split; [exact K|]. split; [exact Q|]. right. split; assumption.
Qed.
Lemma p_ok dg lg c k w : wst c k w -> exists e, mean_log_p dg lg c w = Ok e.
Proof.
  intro H. unfold mean_log_p. destruct c; simpl in H; try contradiction.
  - destruct H as (-> & _ & H1 & l & V & Ll). destruct (vd w); [|contradiction]. rewrite V, Ll. rewrite Z.leb_refl. eexists. reflexivity.
  - destruct H as (H1 & K & l & V & Ll). destruct (vd w); [|contradiction]. rewrite V, K. eexists. reflexivity.
  - destruct H as (H1 & l & V & Ll). destruct (vd w); [|contradiction]. rewrite V. eexists. reflexivity.
  - destruct H as (H1 & a0 & b0 & V). destruct (vd w); [|contradiction]. rewrite V. eexists. reflexivity.
  - eexists. reflexivity.
  - destruct H as (Vn & B & q & V & _). rewrite V. eexists. reflexivity.
Qed.

(* ---- the fit ---- *)
Section F.
Variables (dg lg : R -> R) (eps ovf : R) (inv : list (list R) -> option (list (list R))) (c : cls).
Variables (d k : nat) (y : list (list R)) (h : vprior).
Hypothesis He : 0 < eps.
Hypothesis Ho : 0 <= ovf.
Hypothesis Hd : (0 < d)%nat.
Hypothesis Hk : (0 < k)%nat.
Hypothesis Hky : (k <= length y)%nat.
Hypothesis Hm : length (p_mu h) = d.
Hypothesis Hpsi : positive_definite d (p_psi h).
Hypothesis Hl : 0 < p_lam h.
Hypothesis Hi : inverts_positive d inv.
Notation n := (length y).

Lemma theta_ok D : length (rows D) = k -> Forall (fun v => Forall (fun r => 0 <= r) v /\ 0 < rsum v) (rows D) ->
  exists th, new_theta inv y h D = Fin th /\ length th = k /\ Forall (fun r => 0 < norm2 (ra_prec r)) th.
Proof.
  intros Lr HD. rewrite Forall_forall in HD.
  assert (A : forall v, In v (rows D) -> exists r, theta_row inv y h v = Fin r /\ 0 < norm2 (ra_prec r)).
  { intros v Hv. destruct (HD v Hv) as [V0 V1]. unfold theta_row. cbv zeta. unfold reqb. destruct (Req_EM_T (rsum v) 0); [lra|]. destruct (Req_EM_T (p_lam h + rsum v) 0); [lra|]. simpl.
    destruct (Hi _ (matrix_pd d y h v Hm Hpsi Hl V0 V1)) as (p & E & Sp & Q). rewrite E. eexists. split; [reflexivity|]. simpl. eapply inverse_norm; [exact Hd|exact Sp|exact Q]. }
  unfold new_theta. destruct (collect_all (map (theta_row inv y h) (rows D))) as [th E].
  { intros x Hx. apply in_map_iff in Hx. destruct Hx as [v [<- Hv]]. destruct (A v Hv) as (r & Er & _). exists r. exact Er. }
  exists th. split; [exact E|]. split; [rewrite (collect_len _ _ E), map_length; exact Lr|]. rewrite Forall_forall. intros r Hr. apply (collect_out _ _ E) in Hr.
  apply in_map_iff in Hr. destruct Hr as [v [Ev Hv]]. destruct (A v Hv) as (r0 & Er & Nr). congruence.
Qed.
Lemma finite_map rs : finite (map EF rs) = Some rs.
Proof. induction rs as [|x rs IH]; [reflexivity|]. simpl. rewrite IH. reflexivity. Qed.
Lemma col_of_cols q cs i : (i < length cs)%nat -> length (nth i cs []) = q -> col_at (rows (of_cols q cs)) i = nth i cs [].
Proof.
  intros L1 L2. unfold col_at, of_cols. simpl. rewrite map_map. rewrite <- L2. rewrite <- (map_nth_seq 0 (nth i cs [])) at 2. apply map_ext_in. intros j Hj.
  rewrite (nth_indep _ 0 ((fun c => nth j c 0) [])) by (rewrite map_length; exact L1). rewrite (map_nth (fun c => nth j c 0)). reflexivity.
Qed.
Lemma row_positive D : probabilities k n D -> forall v, In v (rows D) -> Forall (fun r => 0 <= r) v /\ 0 < rsum v.
Proof.
  intros (Lr & Lc & W & P) v Hv. rewrite Forall_forall in W. pose proof (W v Hv) as Lv.
  assert (A : forall i, (i < n)%nat -> 0 < nth i v 0).
  { intros i Hlt. destruct (P i Hlt) as [P1 _]. rewrite Forall_forall in P1. apply P1. unfold col_at. apply in_map_iff. exists v. split; [reflexivity|exact Hv]. }
  assert (B : Forall (fun r => 0 <= r) v). { rewrite Forall_forall. intros r Hr. destruct (In_nth _ _ 0 Hr) as [i [Hlt <-]]. left. apply A. lia. }
  split; [exact B|]. destruct v as [|x v]; [simpl in Lv; lia|]. pose proof (A 0%nat ltac:(lia)) as A0. simpl in A0 |- *.
  assert (0 <= rsum v) by (apply rsum_ge0; intros z Hz; rewrite Forall_forall in B; apply B; right; exact Hz). lra.
Qed.
Lemma sum_positive D : probabilities k n D -> mat_sum D <> 0.
Proof.
  intro P. pose proof (row_positive D P) as A. destruct P as (Lr & _). unfold mat_sum, row_sums. destruct (rows D) as [|v rs]; [simpl in Lr; lia|]. simpl.
  destruct (A v (or_introl eq_refl)) as [_ V]. assert (0 <= rsum (map rsum rs)); [|lra]. apply rsum_ge0. intros z Hz. apply in_map_iff in Hz. destruct Hz as [q [<- Hq]].
  left. apply (A q). right. exact Hq.
Qed.
Lemma new_d_ok w th : wst c k w -> length th = k -> Forall (fun r => 0 < norm2 (ra_prec r)) th -> exists D, new_d dg eps ovf c y w th = Fin D /\ probabilities k n D.
Proof.
  intros Hw Lt Nt. unfold new_d. rewrite Lt.
  destruct (collect_all (map (fun j => of_result (mean_log_w dg c j w)) (seq 0 k))) as [mlw E].
  { intros x Hx. apply in_map_iff in Hx. destruct Hx as [j [<- Hj]]. apply in_seq in Hj. destruct (mlw_ok dg c k w j Hk Hw) as [m ->]; [lia|]. eexists. reflexivity. }
  rewrite E. simpl.
  assert (Fm : Forall (fun e => exists m, e = EF m) mlw).
  { rewrite Forall_forall. intros e Hee. apply (collect_out _ _ E) in Hee. apply in_map_iff in Hee. destruct Hee as [j [Ej Hj]]. apply in_seq in Hj.
    destruct (mlw_ok dg c k w j Hk Hw) as [m Em]; [lia|]. rewrite Em in Ej. simpl in Ej. injection Ej as <-. eexists. reflexivity. }
  assert (Lm : length mlw = length th) by (rewrite (collect_len _ _ E), map_length, seq_length; congruence).
  assert (Tn : th <> []) by (intro X; rewrite X in Lt; simpl in Lt; lia).
  destruct (c50_update_d_proof dg eps ovf mlw th y He Ho Lm Tn Fm Nt) as [Lu Fu]. rewrite Forall_forall in Fu.
  destruct (finite_cols_all (update_d dg eps ovf mlw th y)) as [cs Ec].
  { intros x Hx. destruct (Fu x Hx) as (rs & -> & _). rewrite finite_map. discriminate. }
  rewrite Ec. eexists. split; [reflexivity|]. destruct (finite_cols_in (p_mu h) d h Hm Hm _ _ Ec) as [Lc Nc].
  assert (Ci : forall i, (i < length cs)%nat -> length (nth i cs []) = k /\ prob_vector (nth i cs [])).
  { intros i Hlt. rewrite Lc in Hlt. specialize (Nc i Hlt). destruct (Fu _ (nth_In _ [] Hlt)) as (rs & Er & Lrs & Pv & _). rewrite Er, finite_map in Nc. injection Nc as <-. split; [congruence|exact Pv]. }
  split; [simpl; rewrite map_length; apply seq_length|]. split; [simpl; congruence|]. split.
  - apply (of_cols_wide y k cs). congruence.
  - intros i Hlt. assert (Hlt2 : (i < length cs)%nat) by congruence. destruct (Ci i Hlt2) as [C1 C2]. rewrite col_of_cols by assumption. exact C2.
Qed.
Definition fine (s : vfit) : Prop := probabilities k n (f_d s) /\ wst c k (f_w s) /\ length (f_theta s) = k /\ Forall (fun r => 0 < norm2 (ra_prec r)) (f_theta s).
Lemma prob_w D w : probabilities k n D -> fits_groups k w c -> exists w1, new_w c D w = Fin w1 /\ wst c k w1.
Proof.
  intros P Fw. apply new_w_ok; [exact Hk|apply P|exact Fw|]. right. destruct P as (P1 & P2 & P3) eqn:E. split; [rewrite P2; exact Hky|]. apply sum_positive. exact P.
Qed.
Lemma maximize_fine s : fine s -> exists s1, maximize dg eps ovf inv c y h s = Fin s1 /\ fine s1.
Proof.
  intros (F1 & F2 & F3 & F4). unfold maximize. destruct (new_d_ok _ _ F2 F3 F4) as [D [-> PD]]. simpl.
  destruct (prob_w D (f_w s) PD (wst_fits _ _ _ F2)) as [w1 [-> W1]]. simpl.
  destruct (theta_ok D) as (th & -> & T1 & T2); [apply PD|rewrite Forall_forall; apply row_positive; exact PD|]. simpl. eexists. split; [reflexivity|]. split; [exact PD|]. split; [exact W1|]. split; assumption.
Qed.
Lemma elbo_fine s : fine s -> exists e w, elbo_of dg lg inv c d y h s = Fin (e, w) /\ wst c k w.
Proof.
  intros (F1 & F2 & F3 & F4). unfold elbo_of. pose proof F1 as (P1 & P2 & P3).
  destruct (pd_ok dg c k (f_d s) (f_w s) Hk F2 P1) as (e & w1 & -> & W1); [rewrite P2; exact Hky|apply sum_positive; exact F1|].
  destruct (p_ok dg lg c k w1 W1) as [pw ->]. simpl. destruct (Hi _ Hpsi) as (p & -> & _). eexists _, _. split; [reflexivity|exact W1].
Qed.
Lemma loop_fine tol m : forall it el df s, fine s -> exists s1 it1 e1, loop dg lg eps ovf inv c d y h tol m it el df s = Fin (s1, it1, e1) /\ fine s1.
Proof.
  induction m as [|m IH]; intros it el df s F; cbn [loop]; [eexists _, _, _; split; [reflexivity|exact F]|].
  destruct (ext_ltb (EF tol) df); [|eexists _, _, _; split; [reflexivity|exact F]].
  destruct (maximize_fine s F) as [s1 [-> F1]]. simpl. destruct (elbo_fine s1 F1) as (e & w1 & -> & W1). simpl. apply IH. destruct F1 as (A & B & C & D). split; [exact A|]. split; [exact W1|]. split; assumption.
Qed.
Lemma empty_rows : length (rows (Mat (repeat [] k) 0)) = k.
Proof. simpl. apply repeat_length. Qed.
Lemma hot_rows l : length (rows (hot k l)) = k.
Proof. simpl. rewrite map_length. apply seq_length. Qed.
Lemma init_fine l w : labels_ok k n l -> every_group_used k l -> fits_groups k w c -> exists s, init dg eps ovf inv c y h (Labels k l) w = Fin s /\ fine s.
Proof.
  intros [L1 L2] U Fw. unfold init. destruct (new_w_ok c k (Mat (repeat [] k) 0) w Hk empty_rows Fw (or_introl eq_refl)) as [w0 [-> W0]]. simpl.
  destruct (theta_ok (hot k l)) as (th & -> & T1 & T2); [apply hot_rows| |].
  { unfold hot. simpl. rewrite Forall_forall. intros v Hv. apply in_map_iff in Hv. destruct Hv as [j [<- Hj]]. apply in_seq in Hj. split; [|apply hot_mass, U; lia].
    rewrite Forall_forall. intros r Hr. apply in_map_iff in Hr. destruct Hr as [b [<- _]]. destruct (Nat.eqb b j); lra. }
  simpl. destruct (new_d_ok w0 th W0 T1 T2) as [D [-> PD]]. simpl. destruct (prob_w D w0 PD (wst_fits _ _ _ W0)) as [w1 [-> W1]]. simpl.
  eexists. split; [reflexivity|]. split; [exact PD|]. split; [exact W1|]. split; assumption.
Qed.
Lemma init_nan l w j : labels_ok k n l -> (j < k)%nat -> ~ In j l -> fits_groups k w c -> init dg eps ovf inv c y h (Labels k l) w = NotANumber.
Proof.
  clear He Ho Hd Hky. intros [L1 L2] Hj Nj Fw. unfold init. destruct (new_w_ok c k (Mat (repeat [] k) 0) w Hk empty_rows Fw (or_introl eq_refl)) as [w0 [-> W0]]. simpl.
  unfold new_theta. rewrite collect_nan; [reflexivity| |].
  - intros x Hx e. apply in_map_iff in Hx. destruct Hx as [v [<- Hv]]. simpl in Hv. apply in_map_iff in Hv. destruct Hv as [i [<- _]].
    set (v := map (fun b => if Nat.eqb b i then 1 else 0) l). unfold theta_row. cbv zeta.
    assert (V0 : Forall (fun r => 0 <= r) v). { rewrite Forall_forall. intros r Hr. apply in_map_iff in Hr. destruct Hr as [b [<- _]]. destruct (Nat.eqb b i); lra. }
    assert (V1 : 0 <= rsum v) by (apply rsum_ge0; rewrite Forall_forall in V0; exact V0).
    unfold reqb. destruct (Req_EM_T (rsum v) 0); [discriminate|]. destruct (Req_EM_T (p_lam h + rsum v) 0); [discriminate|]. simpl.
    destruct (Hi _ (matrix_pd d y h v Hm Hpsi Hl V0 ltac:(lra))) as (p & -> & _). discriminate.
  - apply in_map_iff. exists (map (fun b => if Nat.eqb b j then 1 else 0) l). split.
    + unfold theta_row. cbv zeta. rewrite hot_empty by exact Nj. unfold reqb. destruct (Req_EM_T 0 0); [reflexivity|contradiction].
    + simpl. apply in_map_iff. exists j. split; [reflexivity|]. apply in_seq. lia.
Qed.
End F.

Lemma used_dec k l : {every_group_used k l} + {exists j, (j < k)%nat /\ ~ In j l}.
Proof.
  induction k as [|k IH]; [left; intros j Hj; lia|]. destruct IH as [U|N]; [|right; destruct N as (j & H1 & H2); exists j; split; [lia|exact H2]].
  destruct (in_dec Nat.eq_dec k l) as [I|I]; [|right; exists k; split; [lia|exact I]]. left. intros j Hj. destruct (Nat.eq_dec j k) as [->|Nk]; [exact I|apply U; lia].
Qed.
Lemma used_count k l n : length l = n -> every_group_used k l -> (k <= n)%nat.
Proof.
  intros L U. rewrite <- (seq_length k 0), <- L. apply NoDup_incl_length; [apply seq_NoDup|]. intros j Hj. apply in_seq in Hj. apply U. lia.
Qed.
Lemma c82_finite_proof : forall dg lg eps ovf inv c d k y h l total tol w,
  0 < eps -> 0 <= ovf -> (0 < d)%nat -> (0 < k)%nat -> length (p_mu h) = d -> positive_definite d (p_psi h) -> 0 < p_lam h -> inverts_positive d inv ->
  labels_ok k (length y) l -> fits_groups k w c -> every_group_used k l ->
  exists s it e, var_fit dg lg eps ovf inv c d y h (Labels k l) total tol w = Fin (s, it, e) /\ probabilities k (length y) (f_d s) /\ length (f_theta s) = k.
Proof.
  intros dg lg eps ovf inv c d k y h l total tol w He Ho Hd Hk Hm Hpsi Hl Hi L Fw U.
  assert (Hky : (k <= length y)%nat) by (destruct L as [L1 _]; apply (used_count k l); assumption).
  destruct (init_fine dg eps ovf inv c d k y h He Ho Hd Hk Hky Hm Hpsi Hl Hi l w L U Fw) as [s [E F]]. unfold var_fit. rewrite E. simpl.
  destruct (loop_fine dg lg eps ovf inv c d k y h He Ho Hd Hk Hky Hm Hpsi Hl Hi tol total 0 ENI EPI s F) as (s1 & it & e & -> & F1). exists s1, it, e. split; [reflexivity|]. split; [apply F1|apply F1].
Qed.
Lemma c82_nan_proof : forall dg lg eps ovf inv c d k y h l total tol w,
  0 < eps -> 0 <= ovf -> (0 < d)%nat -> (0 < k)%nat -> length (p_mu h) = d -> positive_definite d (p_psi h) -> 0 < p_lam h -> inverts_positive d inv ->
  labels_ok k (length y) l -> fits_groups k w c ->
  (var_fit dg lg eps ovf inv c d y h (Labels k l) total tol w = NotANumber <-> ~ every_group_used k l).
Proof.
  intros dg lg eps ovf inv c d k y h l total tol w He Ho Hd Hk Hm Hpsi Hl Hi L Fw. split.
  - intros E U. destruct (c82_finite_proof dg lg eps ovf inv c d k y h l total tol w He Ho Hd Hk Hm Hpsi Hl Hi L Fw U) as (s & it & e & X & _). congruence.
  - intro U. destruct (used_dec k l) as [U'|(j & Hj & Nj)]; [contradiction|]. unfold var_fit. rewrite (init_nan dg eps ovf inv c d k y h Hk Hm Hpsi Hl Hi l w j L Hj Nj Fw). reflexivity.
Qed.
Lemma c82_duplicates_proof : forall dg lg eps ovf inv c d k y z h l total tol w,
  0 < eps -> 0 <= ovf -> (0 < d)%nat -> (0 < k)%nat -> length (p_mu h) = d -> positive_definite d (p_psi h) -> 0 < p_lam h -> inverts_positive d inv ->
  labels_ok k (length y) l -> fits_groups k w c -> respects y l -> covers z y -> (length z < k)%nat ->
  var_fit dg lg eps ovf inv c d y h (Labels k l) total tol w = NotANumber.
Proof.
  intros dg lg eps ovf inv c d k y z h l total tol w He Ho Hd Hk Hm Hpsi Hl Hi L Fw Rs Cv Lz.
  apply (c82_nan_proof dg lg eps ovf inv c d k y h l total tol w He Ho Hd Hk Hm Hpsi Hl Hi L Fw). intro U. destruct L as [L1 _].
  (* the labels of the first occurrence of every value *)
  set (dec := list_eq_dec Req_EM_T).
  set (f := fun x => match find (fun i => if dec (nth i y []) x then true else false) (seq 0 (length y)) with Some i => nth i l 0%nat | None => 0%nat end).
  assert (X : (length (seq 0 k) <= length (map f z))%nat).
  { apply NoDup_incl_length; [apply seq_NoDup|]. intros j Hj. apply in_seq in Hj. assert (Ij : In j l) by (apply U; lia). destruct (In_nth _ _ 0%nat Ij) as [i [Hlt Ei]].
    rewrite L1 in Hlt. apply in_map_iff. exists (nth i y []). split; [|apply Cv, nth_In; exact Hlt]. unfold f.
    destruct (find _ (seq 0 (length y))) as [i'|] eqn:Ef.
    - apply find_some in Ef. destruct Ef as [I1 I2]. apply in_seq in I1. destruct (dec (nth i' y []) (nth i y [])) as [Q|]; [|discriminate]. rewrite <- Ei. apply Rs; [lia|exact Hlt|exact Q].
    - exfalso. pose proof (find_none _ _ Ef i) as Fn. simpl in Fn. rewrite in_seq in Fn. specialize (Fn ltac:(lia)). destruct (dec (nth i y []) (nth i y [])); [discriminate|contradiction]. }
  rewrite seq_length, map_length in X. lia.
Qed.
