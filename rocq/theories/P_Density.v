(* Proofs about scores (C50) and parametric densities (C53). *)
From Coq Require Import Reals Lra.
From Verif Require Import Prelude M_Ext M_Sample M_VarNum S_Var S_Sample S_VarNum P_Var P_Eppf P_Sample P_VarNum.
Open Scope R_scope.

Lemma norm2_nonneg p : 0 <= norm2 p.
Proof.
  unfold norm2. apply rsum_nonneg. apply Forall_forall. intros z Hz. apply in_map_iff in Hz as (r & <- & _). apply rsum_nonneg. apply Forall_forall. intros w Hw. apply in_map_iff in Hw as (x & <- & _). nra.
Qed.
Lemma frob_pos p : 0 < norm2 p -> 0 < frob p.
Proof. intros H. apply sqrt_lt_R0. exact H. Qed.
Lemma elnw_finite dg p s : 0 < norm2 p -> e_log_norm_wishart dg p s = EF (ln (frob p) + (INR (length p) * ln 2 + rsum (map (fun i => dg ((s - INR i) / 2)) (seq 0 (length p))))).
Proof. intros H. apply frob_pos in H. unfold e_log_norm_wishart, ext_log. apply rltb_spec in H. rewrite H. reflexivity. Qed.
Lemma score_finite dg m a x : 0 < norm2 (ra_prec a) -> exists r, score dg (EF m) a x = EF r.
Proof. intros H. unfold score. rewrite elnw_finite by exact H. eexists. reflexivity. Qed.
Lemma c50_update_d_proof : forall dg eps ovf mlw theta y, 0 < eps -> 0 <= ovf -> length mlw = length theta -> theta <> [] ->
  Forall (fun e => exists m, e = EF m) mlw -> Forall (fun a => 0 < norm2 (ra_prec a)) theta ->
  length (update_d dg eps ovf mlw theta y) = length y /\
  Forall (fun col => exists rs, col = map EF rs /\ length rs = length theta /\ prob_vector rs /\ Forall (fun r => eps / (INR (length theta) * (1 + eps)) <= r) rs) (update_d dg eps ovf mlw theta y).
Proof.
  intros dg eps ovf mlw theta y He Ho L NE M P. unfold update_d. rewrite map_length. split; [reflexivity|]. apply Forall_forall. intros col Hc. apply in_map_iff in Hc as (x & <- & _).
  set (l := map (fun ma => score dg (fst ma) (snd ma) x) (combine mlw theta)). assert (Ll : length l = length theta) by (unfold l; rewrite map_length, combine_length; lia).
  assert (F : forall s, In s l -> exists r, s = EF r).
  { intros s Hs. unfold l in Hs. apply in_map_iff in Hs as ([m a] & <- & Hma). rewrite Forall_forall in M, P. pose proof (in_combine_l _ _ _ _ Hma) as H1. pose proof (in_combine_r _ _ _ _ Hma) as H2. destruct (M _ H1) as [q ->]. apply score_finite. apply P. exact H2. }
  destruct l as [|s0 l0] eqn:El; [destruct theta; [congruence|discriminate Ll]|]. rewrite <- El in *. destruct (F s0) as [r0 E0]; [rewrite El; left; reflexivity|].
  destruct (c50_probability_proof eps ovf l He Ho) as (rs & E & Lr & PV & _ & LB & _); [apply Forall_forall; intros s Hs; right; apply F; exact Hs|exists r0; rewrite <- E0, El; left; reflexivity|].
  exists rs. split; [exact E|]. split; [lia|]. split; [exact PV|]. apply Forall_forall. intros r Hr. destruct (In_nth _ _ 0 Hr) as (j & Hj & <-). rewrite <- Ll. apply LB. lia.
Qed.
(* ---- the scores ---- *)
Lemma qform_mahal p x mu k : length p = k -> qform p (dev x mu) = mahalanobis k p x mu.
Proof. intros <-. reflexivity. Qed.
Lemma shift_seq dg nu : forall k, rsum (map (fun i => dg ((nu - INR i) / 2)) (seq 0 k)) = rsum (map (fun i => dg ((nu + 1 - INR i) / 2)) (seq 1 k)).
Proof. intros k. rewrite <- seq_shift, map_map. apply rsum_ext. intros i _. do 2 f_equal. rewrite S_INR. lra. Qed.
Lemma score_value dg m a x k : square_mat k (ra_prec a) -> length x = k -> 0 < det_of (ra_prec a) -> 0 < norm2 (ra_prec a) ->
  score dg (EF m) a x = EF (expected_log_joint dg k m x (ra_mu a) (ra_lam a) (ra_prec a) (ra_scale a) + (ln (sqrt (norm2 (ra_prec a))) - ln (det_of (ra_prec a))) / 2).
Proof.
  intros [Lp _] Lx D N. unfold score. rewrite elnw_finite by exact N. simpl. f_equal. unfold expected_log_joint. rewrite Lx, Lp, <- shift_seq, (qform_mahal _ _ _ k Lp).
  change (frob (ra_prec a)) with (sqrt (norm2 (ra_prec a))). unfold Rdiv. lra.
Qed.
Lemma c50_score_proof : forall dg m a x k, square_mat k (ra_prec a) -> length x = k -> 0 < det_of (ra_prec a) -> 0 < norm2 (ra_prec a) ->
  exists s, score dg (EF m) a x = EF s /\
  (s = expected_log_joint dg k m x (ra_mu a) (ra_lam a) (ra_prec a) (ra_scale a) <-> sqrt (norm2 (ra_prec a)) = det_of (ra_prec a)).
Proof.
  intros dg m a x k Sq Lx D N. eexists. split; [apply score_value; eassumption|]. pose proof (frob_pos _ N) as F. change (frob (ra_prec a)) with (sqrt (norm2 (ra_prec a))) in F.
  split; intros H; [|rewrite H; lra]. apply ln_inv; try assumption. lra.
Qed.
Lemma sqrt_sq q : 0 < q -> sqrt (q * q) = q.
Proof. intros H. apply sqrt_square. lra. Qed.
Lemma dim1 p : square_mat 1 p -> exists q, p = [[q]] /\ det_of p = q /\ norm2 p = q * q.
Proof.
  intros [L F]. destruct p as [|r [|? ?]]; try discriminate L. inversion F as [|? ? Lr]; subst. destruct r as [|q [|? ?]]; try discriminate Lr. exists q. split; [reflexivity|]. unfold det_of, norm2. simpl. split; lra.
Qed.
Lemma c50_score_one_dim_proof : forall dg m a x, square_mat 1 (ra_prec a) -> length x = 1%nat -> 0 < det_of (ra_prec a) ->
  score dg (EF m) a x = EF (expected_log_joint dg 1 m x (ra_mu a) (ra_lam a) (ra_prec a) (ra_scale a)).
Proof.
  intros dg m a x Sq Lx D. destruct (dim1 _ Sq) as (q & E & Ed & En). rewrite Ed in D. assert (N : 0 < norm2 (ra_prec a)) by (rewrite En; nra).
  rewrite (score_value dg m a x 1 Sq Lx) by (rewrite ?Ed; assumption). f_equal. rewrite En, Ed, sqrt_sq by exact D. lra.
Qed.
(* both score vectors choose the same label *)
Lemma score_new_value dg m a x : 0 < norm2 (ra_prec a) -> ra_lam a <> 0 -> forall s, score dg (EF m) a x = EF s -> score_new dg (EF m) a x = EF (s + INR (length x) * ln (2 * PI) / 2).
Proof.
  intros N Lam s. unfold score, score_new. rewrite elnw_finite by exact N. simpl. intros H. apply (f_equal (fun z => match z with EF r => r | _ => 0 end)) in H. rewrite <- H. f_equal. field. exact Lam.
Qed.
Lemma pw_shift c xs j : (j < length xs)%nat -> pw (map EF (map (fun x => x + c) xs)) j = exp c * pw (map EF xs) j.
Proof.
  intros H. unfold pw. rewrite !(nth_indep _ ENI (EF 0)) by (rewrite !map_length; exact H). rewrite !map_nth. rewrite (nth_indep _ 0 (0 + c)) by (rewrite map_length; exact H). rewrite (map_nth (fun x => x + c)). simpl. rewrite exp_plus. lra.
Qed.
Lemma first_best_shift c xs j : first_best (map EF (map (fun x => x + c) xs)) j <-> first_best (map EF xs) j.
Proof.
  unfold first_best. rewrite !map_length. pose proof (exp_pos c) as X. split; intros (J & G & Lo); split; try exact J; split; intros i Hi; [specialize (G i Hi)|specialize (Lo i Hi)|specialize (G i Hi)|specialize (Lo i Hi)].
  - rewrite !pw_shift in G by assumption. apply (Rmult_le_reg_l (exp c)); assumption.
  - rewrite !pw_shift in Lo by lia. apply (Rmult_lt_reg_l (exp c)); assumption.
  - rewrite !pw_shift by assumption. apply Rmult_le_compat_l; lra.
  - rewrite !pw_shift by lia. apply Rmult_lt_compat_l; lra.
Qed.
Lemma r_mean_shift c xs m : r_mean xs m -> r_mean (map (fun x => x + c) xs) (m + c).
Proof.
  unfold r_mean. rewrite map_length. intros H. assert (E : rsum (map (fun x => x + c) xs) = rsum xs + c * INR (length xs)).
  { clear. induction xs as [|x xs IH]; [simpl; lra|]. cbn [map]. rewrite !rsum_cons, IH. change (length (x :: xs)) with (S (length xs)). rewrite S_INR. lra. }
  rewrite E. lra.
Qed.
Lemma c50_same_label_proof : forall dg eps ovf mlw theta x, 0 < eps -> 0 <= ovf -> length mlw = length theta -> theta <> [] ->
  Forall (fun e => exists m, e = EF m) mlw -> Forall (fun a => 0 < norm2 (ra_prec a) /\ ra_lam a <> 0) theta ->
  forall xs c j, map (fun ma => score dg (fst ma) (snd ma) x) (combine mlw theta) = map EF xs -> r_mean xs c -> (forall s, In s xs -> s - c <= ovf) ->
  (new_labels dg eps ovf mlw theta [x] = [Ok j] <-> map np_argmax (update_d dg eps ovf mlw theta [x]) = [Ok j]).
Proof.
  intros dg eps ovf mlw theta x He Ho L NE M P xs c j E Mc O. unfold new_labels, update_d. simpl map.
  assert (E' : map (fun ma => score_new dg (fst ma) (snd ma) x) (combine mlw theta) = map EF (map (fun s => s + INR (length x) * ln (2 * PI) / 2) xs)).
  { clear - E M P. revert theta xs E P. induction mlw as [|m mlw IH]; intros [|a theta] xs E P; cbn [combine map fst snd] in E |- *; try (destruct xs; [reflexivity|discriminate E]).
    destruct xs as [|s xs]; [discriminate E|]. inversion M as [|? ? [q Hq] M']; inversion P as [|? ? [N1 N2] P']; subst. cbn [map] in E |- *. assert (E1 : score dg (EF q) a x = EF s) by congruence. assert (E2 : map (fun ma => score dg (fst ma) (snd ma) x) (combine mlw theta) = map EF xs) by congruence.
    f_equal; [apply score_new_value; assumption|apply IH; assumption]. }
  rewrite E', E. assert (NX : xs <> []). { intros ->. destruct theta; [congruence|]. destruct mlw; [discriminate L|]. discriminate E. }
  set (C := INR (length x) * ln (2 * PI) / 2) in *.
  assert (A : np_argmax (resp_col_mean eps ovf (map EF (map (fun s => s + C) xs))) = Ok j <-> first_best (map EF xs) j).
  { rewrite <- (first_best_shift C). apply (c50_mean_label_proof eps ovf _ (c + C)); [exact He|destruct xs; [congruence|discriminate]|apply r_mean_shift; exact Mc|].
    intros s Hs. apply in_map_iff in Hs as (t & <- & Ht). specialize (O t Ht). lra. }
  assert (B : np_argmax (resp_col eps ovf (map EF xs)) = Ok j <-> first_best (map EF xs) j).
  { apply c50_label_proof; try assumption; [apply proper_EF|]. destruct xs as [|s xs]; [congruence|]. exists s. left. reflexivity. }
  split; intros H; injection H as H; [rewrite (proj2 B (proj1 A H))|rewrite (proj2 A (proj1 B H))]; reflexivity.
Qed.
(* ---- determinants of scalar matrices ---- *)
Lemma rsum_first (f : nat -> R) n : (forall j, (0 < j)%nat -> f j = 0) -> rsum (map f (seq 0 (S n))) = f 0%nat.
Proof.
  intros H. simpl. assert (Z : rsum (map f (seq 1 n)) = 0); [|rewrite Z; lra]. assert (G : forall m, (0 < m)%nat -> rsum (map f (seq m n)) = 0); [|apply G; lia].
  induction n as [|n IH]; intros m Hm; [reflexivity|]. cbn [seq map]. rewrite rsum_cons, (IH (S m)) by lia. rewrite H by exact Hm. lra.
Qed.
Lemma det_ext k : forall f g, (forall i j, f i j = g i j) -> det k f = det k g.
Proof.
  induction k as [|k IH]; intros f g H; [reflexivity|]. cbn [det]. apply rsum_ext. intros j _. rewrite (H 0%nat j). f_equal. apply IH. intros a b. apply H.
Qed.
Lemma det_bounded k : forall f g, (forall i j, (i < k)%nat -> (j < k)%nat -> f i j = g i j) -> det k f = det k g.
Proof.
  induction k as [|k IH]; intros f g H; [reflexivity|]. cbn [det]. apply rsum_ext. intros j Hj. apply in_seq in Hj. rewrite (H 0%nat j) by lia. f_equal. apply IH. intros a b Ha Hb. apply H; [lia|]. unfold skip. destruct (Nat.ltb b j); lia.
Qed.
Lemma det_scalar c : forall k, det k (fun i j => if Nat.eqb i j then c else 0) = c ^ k.
Proof.
  induction k as [|k IH]; [reflexivity|]. cbn [det]. rewrite rsum_first.
  - cbn [pow Nat.eqb]. rewrite (det_ext k _ (fun i j => if Nat.eqb i j then c else 0)) by (intros a b; reflexivity). rewrite IH. lra.
  - intros j Hj. destruct j; [lia|]. simpl. lra.
Qed.
Lemma scalar_square k c : square_mat k (scalar_mat k c).
Proof. split; [unfold scalar_mat; rewrite map_length; apply seq_length|]. apply Forall_forall. intros r Hr. apply in_map_iff in Hr as (i & <- & _). rewrite map_length. apply seq_length. Qed.
Lemma scalar_entry k c i j : (i < k)%nat -> (j < k)%nat -> nth j (nth i (scalar_mat k c) []) 0 = if Nat.eqb i j then c else 0.
Proof.
  intros Hi Hj. unfold scalar_mat. rewrite (nth_indep _ [] (map (fun j => if Nat.eqb 0 j then c else 0) (seq 0 k))) by (rewrite map_length, seq_length; exact Hi).
  rewrite (map_nth (fun i => map (fun j => if Nat.eqb i j then c else 0) (seq 0 k))). rewrite seq_nth by exact Hi. rewrite (nth_indep _ 0 (if Nat.eqb i 0 then c else 0)) by (rewrite map_length, seq_length; exact Hj).
  simpl plus. rewrite (map_nth (fun j => if Nat.eqb i j then c else 0)). rewrite seq_nth by exact Hj. reflexivity.
Qed.
Lemma det_scalar_mat k c : det_of (scalar_mat k c) = c ^ k.
Proof. unfold det_of. rewrite (proj1 (scalar_square k c)). rewrite <- (det_scalar c k). apply det_bounded. intros i j Hi Hj. apply scalar_entry; assumption. Qed.
Lemma one_row c i : forall n m, rsum (map (fun x => x * x) (map (fun j => if Nat.eqb i j then c else 0) (seq m n))) = if (m <=? i)%nat && (i <? m + n)%nat then c * c else 0.
Proof.
  induction n as [|n IH]; intros m; cbn [seq map].
  - destruct (Nat.leb_spec m i), (Nat.ltb_spec i (m + 0)); simpl; try lia; reflexivity.
  - rewrite rsum_cons, IH. destruct (Nat.eqb_spec i m) as [->|N].
    + destruct (Nat.leb_spec (S m) m); [lia|]. destruct (Nat.leb_spec m m); [|lia]. destruct (Nat.ltb_spec m (m + S n)); [|lia]. simpl. lra.
    + destruct (Nat.leb_spec (S m) i), (Nat.leb_spec m i), (Nat.ltb_spec i (S m + n)), (Nat.ltb_spec i (m + S n)); simpl; try lia; lra.
Qed.
Lemma norm2_scalar k c : norm2 (scalar_mat k c) = INR k * (c * c).
Proof.
  unfold norm2, scalar_mat. rewrite map_map. rewrite (rsum_ext _ (fun _ => c * c)).
  - rewrite <- (seq_length k 0) at 2. generalize (seq 0 k). intros l. induction l as [|a l IH]; [simpl; lra|]. cbn [map]. rewrite rsum_cons, IH. change (length (a :: l)) with (S (length l)). rewrite S_INR. lra.
  - intros i Hi. apply in_seq in Hi. rewrite one_row. destruct (Nat.leb_spec 0 i), (Nat.ltb_spec i (0 + k)); simpl; try lia. reflexivity.
Qed.
(* ---- the densities ---- *)
Lemma two_pi_pow k : 0 < (2 * PI) ^ k.
Proof. apply pow_lt. pose proof PI_RGT_0. lra. Qed.
Lemma normal_ratio x mu p k : square_mat k p -> length x = k -> 0 < det_of p -> density_normal x mu p = normal_pdf k x mu p * sqrt (sqrt (norm2 p) / det_of p).
Proof.
  intros [Lp _] Lx D. unfold density_normal, normal_pdf. rewrite Lx, (qform_mahal _ _ _ k Lp). pose proof (two_pi_pow k) as T. pose proof (sqrt_pos (norm2 p)) as Fp.
  rewrite (Rmult_comm (sqrt (det_of p / (2 * PI) ^ k))). rewrite Rmult_assoc, <- sqrt_mult.
  - rewrite Rmult_comm. f_equal. f_equal. change (frob p) with (sqrt (norm2 p)). field. split; lra.
  - apply Rlt_le. apply Rdiv_lt_0_compat; assumption.
  - unfold Rdiv. apply Rmult_le_pos; [exact Fp|]. left. apply Rinv_0_lt_compat. exact D.
Qed.
Lemma normal_pdf_pos k x mu p : 0 < det_of p -> 0 < normal_pdf k x mu p.
Proof. intros D. unfold normal_pdf. apply Rmult_lt_0_compat; [|apply exp_pos]. apply sqrt_lt_R0. apply Rdiv_lt_0_compat; [exact D|apply two_pi_pow]. Qed.
Lemma sqrt_ratio_one a d : 0 <= a -> 0 < d -> (sqrt (a / d) = 1 <-> a = d).
Proof.
  intros A D. split; intros H.
  - assert (X : a / d = 1). { rewrite <- sqrt_1 in H. apply sqrt_inj in H; [exact H| |lra]. unfold Rdiv. apply Rmult_le_pos; [exact A|left; apply Rinv_0_lt_compat; exact D]. }
    apply (Rmult_eq_reg_r (/ d)); [|apply Rinv_neq_0_compat; lra]. rewrite Rinv_r by lra. exact X.
  - subst. unfold Rdiv. rewrite Rinv_r by lra. apply sqrt_1.
Qed.
Lemma c53_normal_proof : forall x mu p k, square_mat k p -> length x = k -> 0 < det_of p ->
  density_normal x mu p = normal_pdf k x mu p * sqrt (sqrt (norm2 p) / det_of p) /\
  (density_normal x mu p = normal_pdf k x mu p <-> sqrt (norm2 p) = det_of p).
Proof.
  intros x mu p k Sq Lx D. pose proof (normal_ratio x mu p k Sq Lx D) as E. split; [exact E|]. rewrite E. pose proof (normal_pdf_pos k x mu p D) as N.
  rewrite <- (sqrt_ratio_one (sqrt (norm2 p)) (det_of p) (sqrt_pos _) D). split; intros H; [|rewrite H; lra]. apply (Rmult_eq_reg_l (normal_pdf k x mu p)); lra.
Qed.
Lemma c53_normal_one_dim_proof : forall x mu q, 0 < q -> density_normal [x] [mu] [[q]] = sqrt (q / (2 * PI)) * exp (- (q * ((x - mu) * (x - mu))) / 2).
Proof.
  intros x mu q H. destruct (dim1 [[q]]) as (q' & E & Ed & En); [split; [reflexivity|repeat constructor]|]. injection E as <-.
  destruct (c53_normal_proof [x] [mu] [[q]] 1) as [_ [_ B]]; [split; [reflexivity|repeat constructor]|reflexivity|rewrite Ed; exact H|].
  rewrite B by (rewrite En, Ed; apply sqrt_sq; exact H). unfold normal_pdf. rewrite Ed. f_equal; [f_equal; simpl; f_equal; lra|]. f_equal. unfold mahalanobis. simpl. lra.
Qed.
Lemma c53_normal_identity_proof : forall k x mu, (2 <= k)%nat -> length x = k ->
  density_normal x mu (scalar_mat k 1) = sqrt (sqrt (INR k)) * normal_pdf k x mu (scalar_mat k 1) /\ normal_pdf k x mu (scalar_mat k 1) < density_normal x mu (scalar_mat k 1).
Proof.
  intros k x mu Hk Lx. assert (D : det_of (scalar_mat k 1) = 1) by (rewrite det_scalar_mat; apply pow1).
  assert (N : norm2 (scalar_mat k 1) = INR k) by (rewrite norm2_scalar; lra).
  destruct (c53_normal_proof x mu (scalar_mat k 1) k (scalar_square k 1) Lx) as [E _]; [rewrite D; lra|]. rewrite D, N in E. unfold Rdiv in E. rewrite Rinv_1, Rmult_1_r in E. rewrite E. split; [lra|].
  pose proof (normal_pdf_pos k x mu (scalar_mat k 1) ltac:(rewrite D; lra)) as P. assert (2 <= INR k) by (apply (le_INR 2); exact Hk).
  assert (S1 : 1 < sqrt (INR k)) by (rewrite <- sqrt_1; apply sqrt_lt_1; lra). assert (S2 : 1 < sqrt (sqrt (INR k))) by (rewrite <- sqrt_1; apply sqrt_lt_1; lra). nra.
Qed.
Lemma rpower_half x k : 0 < x -> Rpower x (INR k / 2) = sqrt (x ^ k).
Proof.
  intros H. rewrite <- Rpower_pow by exact H. unfold Rdiv. rewrite <- Rpower_mult. apply Rpower_sqrt. apply exp_pos.
Qed.
Lemma student_ratio lg gam x mu p nu k : (forall z, 0 < z -> exp (lg z) = gam z) -> square_mat k p -> length x = k -> 0 < det_of p -> 0 < nu ->
  density_students_t lg x mu p nu = student_pdf gam k x mu p nu * sqrt (sqrt (norm2 p) / det_of p).
Proof.
  intros G [Lp _] Lx D Nu. unfold density_students_t, student_pdf. rewrite Lx, (qform_mahal _ _ _ k Lp). pose proof (pos_INR k) as K. unfold Rminus. rewrite exp_plus, exp_Ropp, !G by lra.
  pose proof PI_RGT_0. assert (NP : 0 < nu * PI) by nra. rewrite rpower_half by exact NP. pose proof (pow_lt (nu * PI) k NP) as T. replace (- (nu + INR k) / 2) with (- ((nu + INR k) / 2)) by (unfold Rdiv; lra).
  assert (S1 : sqrt (frob p) / sqrt ((nu * PI) ^ k) = sqrt (det_of p / (nu * PI) ^ k) * sqrt (sqrt (norm2 p) / det_of p)).
  { rewrite <- sqrt_div by (try exact T; apply sqrt_pos). rewrite <- sqrt_mult.
    - f_equal. change (frob p) with (sqrt (norm2 p)). field. split; lra.
    - left. apply Rdiv_lt_0_compat; assumption.
    - unfold Rdiv. apply Rmult_le_pos; [apply sqrt_pos|left; apply Rinv_0_lt_compat; exact D]. }
  rewrite S1. unfold Rdiv. ring.
Qed.
Lemma c53_student_proof : forall lg gam x mu p nu k, (forall z, 0 < z -> exp (lg z) = gam z) -> square_mat k p -> length x = k -> 0 < det_of p -> 0 < nu ->
  density_students_t lg x mu p nu = student_pdf gam k x mu p nu * sqrt (sqrt (norm2 p) / det_of p) /\
  (density_students_t lg x mu p nu = student_pdf gam k x mu p nu <-> sqrt (norm2 p) = det_of p) /\
  (k = 1%nat -> density_students_t lg x mu p nu = student_pdf gam k x mu p nu).
Proof.
  intros lg gam x mu p nu k G Sq Lx D Nu. pose proof (student_ratio lg gam x mu p nu k G Sq Lx D Nu) as E.
  assert (N : 0 < student_pdf gam k x mu p nu).
  { unfold student_pdf. pose proof (pos_INR k). rewrite <- !G by lra. pose proof PI_RGT_0. assert (0 < (nu * PI) ^ k) by (apply pow_lt; nra).
    apply Rmult_lt_0_compat; [apply Rmult_lt_0_compat|]; [apply Rdiv_lt_0_compat; apply exp_pos|apply sqrt_lt_R0; apply Rdiv_lt_0_compat; assumption|apply exp_pos]. }
  assert (I : density_students_t lg x mu p nu = student_pdf gam k x mu p nu <-> sqrt (norm2 p) = det_of p).
  { rewrite E. rewrite <- (sqrt_ratio_one (sqrt (norm2 p)) (det_of p) (sqrt_pos _) D). split; intros H; [|rewrite H; lra]. apply (Rmult_eq_reg_l (student_pdf gam k x mu p nu)); lra. }
  split; [exact E|]. split; [exact I|]. intros ->. apply I. destruct (dim1 p Sq) as (q & _ & Ed & En). rewrite Ed in *. rewrite En. apply sqrt_sq. exact D.
Qed.
