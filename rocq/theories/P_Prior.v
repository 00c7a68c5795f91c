(* The priors derived from the first data set (C67). *)
From Coq Require Import Lqa Permutation.
From Verif Require Import Prelude Numpy Rng M_Weights M_Niw M_Utils M_Mix M_Query S_Oracle S_Niw S_Mix S_Query S_Fresh S_MixEx S_Prior P_Lists P_Wp P_Mix P_Map P_Niw P_Dens P_VarQ P_Fresh.
Open Scope Q_scope.

(* ---- fewer homogeneous equations than unknowns ---- *)
Lemma sum_last (f : nat -> Q) k : sum_over f (seq 0 (S k)) == sum_over f (seq 0 k) + f k.
Proof. rewrite seq_S, sum_app. simpl. ring. Qed.
Lemma pivot (L : list (nat -> Q)) k : (forall a, In a L -> a k == 0) \/ exists l1 a l2, L = l1 ++ a :: l2 /\ ~ a k == 0.
Proof.
  induction L as [|a L IH]; [left; intros a []|]. destruct (Qeq_dec (a k) 0) as [Z|NZ]; [|right; exists [], a, L; auto].
  destruct IH as [H|(l1 & b & l2 & -> & H)]; [left; intros x [<-|Hx]; auto|right; exists (a :: l1), b, l2; auto].
Qed.
Lemma underdetermined : forall k (L : list (nat -> Q)), (length L < k)%nat ->
  exists x : nat -> Q, (exists i, (i < k)%nat /\ ~ x i == 0) /\ forall a, In a L -> sum_over (fun i => x i * a i) (seq 0 k) == 0.
Proof.
  induction k as [|k IH]; intros L H; [lia|]. destruct (pivot L k) as [Z|(l1 & a & l2 & -> & NZ)].
  - exists (fun i => if Nat.eqb i k then 1 else 0). split; [exists k; split; [lia|]; rewrite Nat.eqb_refl; lra|].
    intros a Ha. rewrite sum_last, Nat.eqb_refl, (Z a Ha). rewrite (sum_ext _ (fun _ => 0)); [rewrite sum_zero; ring|].
    intros i Hi. apply in_seq in Hi. destruct (Nat.eqb_spec i k); [lia|ring].
  - set (red := fun (b : nat -> Q) i => b i - b k / a k * a i).
    destruct (IH (map red (l1 ++ l2))) as (x & (i & Hi & Nx) & Hx).
    { rewrite map_length, app_length. rewrite app_length in H. simpl in H. lia. }
    set (x' := fun i => if Nat.eqb i k then - sum_over (fun i => x i * a i) (seq 0 k) / a k else x i).
    assert (E : forall b, sum_over (fun i => x' i * b i) (seq 0 k) == sum_over (fun i => x i * b i) (seq 0 k)).
    { intros b. apply sum_ext. intros q Hq. apply in_seq in Hq. unfold x'. destruct (Nat.eqb_spec q k); [lia|reflexivity]. }
    assert (Ek : x' k == - sum_over (fun i => x i * a i) (seq 0 k) / a k) by (unfold x'; rewrite Nat.eqb_refl; reflexivity).
    exists x'. split; [exists i; split; [lia|]; unfold x'; destruct (Nat.eqb_spec i k); [lia|exact Nx]|].
    intros b Hb. rewrite sum_last, E, Ek. apply in_app_iff in Hb as [Hb|[<-|Hb]]; [| field; exact NZ |].
    all: assert (Hr : sum_over (fun i => x i * red b i) (seq 0 k) == 0) by (apply Hx, in_map, in_app_iff; auto);
      assert (R : sum_over (fun i => x i * red b i) (seq 0 k) == sum_over (fun i => x i * b i) (seq 0 k) - b k / a k * sum_over (fun i => x i * a i) (seq 0 k))
        by (rewrite <- sum_scale; rewrite (sum_ext _ (fun i => x i * b i + - (1) * (b k / a k * (x i * a i)))) by (intros; unfold red; ring); rewrite sum_add, (sum_scale (- (1))); ring);
      rewrite Hr in R; transitivity (sum_over (fun i => x i * b i) (seq 0 k) - b k / a k * sum_over (fun i => x i * a i) (seq 0 k)); [field; exact NZ|symmetry; exact R].
Qed.
Lemma few_rows k y : (1 <= length y <= k)%nat -> exists x, nonzero k x /\ in_hyperplane k x y.
Proof.
  intros H. destruct y as [|r0 t]; [simpl in H; lia|].
  destruct (underdetermined k (map (fun r i => coord i r - coord i r0) t)) as (x & (i & Hi & N) & Hx); [rewrite map_length; simpl in H; lia|].
  exists (mk_vec k x). assert (C : forall i, (i < k)%nat -> coord i (mk_vec k x) = x i) by (intros; apply mk_vec_at; assumption).
  split; [exists i; rewrite C by assumption; auto|].
  assert (P : forall r, In r (r0 :: t) -> dotp k (mk_vec k x) r == dotp k (mk_vec k x) r0).
  { intros r [<-|Hr]; [reflexivity|]. specialize (Hx _ (in_map (fun r i => coord i r - coord i r0) t r Hr)). cbv beta in Hx.
    assert (D : forall q, dotp k (mk_vec k x) q == sum_over (fun i => x i * coord i q) (seq 0 k)).
    { intros q. unfold dotp. apply sum_ext. intros j Hj. apply in_seq in Hj. rewrite C by lia. reflexivity. }
    rewrite (D r), (D r0). rewrite (sum_ext _ (fun i => x i * coord i r + - (1) * (x i * coord i r0))) in Hx by (intros; ring).
    rewrite sum_add, sum_scale in Hx. lra. }
  intros r r' Hr Hr'. rewrite (P r Hr), (P r' Hr'). reflexivity.
Qed.

(* ---- sample covariances ---- *)
Lemma sum_sq_zero {A} (f : A -> Q) l : sum_over (fun r => f r * f r) l == 0 -> forall r, In r l -> f r == 0.
Proof.
  induction l as [|a l IH]; intros H r Hr; [destruct Hr|]. simpl in H. pose proof (sq_nonneg (f a)).
  assert (P : 0 <= sum_over (fun r => f r * f r) l) by (apply sum_nonneg; intros; apply sq_nonneg).
  destruct Hr as [<-|Hr]; [|apply IH; [lra|exact Hr]]. assert (Z : f a * f a == 0) by lra. apply Qmult_integral in Z. tauto.
Qed.
Section Cov.
Variables (k : nat) (y : list vec) (m : vec) (P : matr).
Hypotheses (Hm : column_means k y m) (HP : sample_covariance k y m P) (Hy : (2 <= length y)%nat).
Let n1 := nq (length y) - 1.
Lemma n1_pos : 0 < n1.
Proof. unfold n1. destruct (length y) as [|[|q]]; try lia. rewrite !nq_S. pose proof (nq_nonneg q). lra. Qed.
Lemma cov_symmetric : symmetric k P.
Proof.
  intros i j Hi Hj. pose proof n1_pos as N. destruct HP as [_ H]. apply (Qmult_inj_l _ _ n1); [lra|]. unfold n1. rewrite (H i j Hi Hj), (H j i Hj Hi). apply sum_ext. intros; ring.
Qed.
Definition dev x r := sum_over (fun i => coord i x * (coord i r - coord i m)) (seq 0 k).
Lemma dev_dotp x r : dev x r == dotp k x r - dotp k x m.
Proof. unfold dev, dotp. rewrite (sum_ext _ (fun i => coord i x * coord i r + - (1) * (coord i x * coord i m))) by (intros; ring). rewrite sum_add, sum_scale. ring. Qed.
Lemma cov_quad x : n1 * quad k P x == sum_over (fun r => dev x r * dev x r) y.
Proof.
  destruct HP as [_ H]. unfold quad. rewrite <- sum_scale.
  rewrite (sum_ext _ (fun i => sum_over (fun j => sum_over (fun r => coord i x * (coord i r - coord i m) * (coord j x * (coord j r - coord j m))) y) (seq 0 k))).
  2: { intros i Hi. apply in_seq in Hi. rewrite <- sum_scale. apply sum_ext. intros j Hj. apply in_seq in Hj.
       setoid_replace (n1 * (coord i x * entry P i j * coord j x)) with (coord i x * coord j x * (n1 * entry P i j)) by ring. unfold n1. rewrite (H i j) by lia. rewrite <- sum_scale. apply sum_ext. intros; ring. }
  rewrite (sum_ext _ (fun i => sum_over (fun r => coord i x * (coord i r - coord i m) * dev x r) y)).
  2: { intros i _. rewrite sum_swap'. apply sum_ext. intros r _. unfold dev. rewrite <- sum_scale. apply sum_ext. intros; ring. }
  rewrite sum_swap'. apply sum_ext. intros r _. rewrite (sum_ext _ (fun i => dev x r * (coord i x * (coord i r - coord i m)))) by (intros; ring). rewrite sum_scale. reflexivity.
Qed.
Lemma cov_nonneg x : 0 <= quad k P x.
Proof.
  pose proof n1_pos. assert (Q0 : 0 <= n1 * quad k P x) by (rewrite cov_quad; apply sum_nonneg; intros; apply sq_nonneg).
  destruct (Qlt_le_dec (quad k P x) 0) as [L|L]; [|exact L]. exfalso. assert (0 < n1 * (- quad k P x)) by (apply Qmult_lt_0_compat; lra). lra.
Qed.
Lemma means_dotp x : nq (length y) * dotp k x m == sum_over (dotp k x) y.
Proof.
  destruct Hm as [_ H]. unfold dotp. rewrite sum_swap', <- sum_scale. apply sum_ext. intros i Hi. apply in_seq in Hi.
  rewrite sum_scale. rewrite <- (H i) by lia. ring.
Qed.
Lemma cov_null x : quad k P x == 0 <-> in_hyperplane k x y.
Proof.
  pose proof n1_pos. split.
  - intros Z. assert (D : forall r, In r y -> dev x r == 0) by (apply sum_sq_zero; rewrite <- cov_quad, Z; ring).
    intros r r' Hr Hr'. pose proof (D r Hr) as A. pose proof (D r' Hr') as B. rewrite dev_dotp in A, B. lra.
  - intros Hh. assert (D : forall r, In r y -> dev x r == 0).
    { intros r Hr. rewrite dev_dotp. assert (E : nq (length y) * dotp k x m == nq (length y) * dotp k x r).
      { rewrite means_dotp, <- sum_const. apply sum_ext. intros r' Hr'. apply Hh; assumption. }
      assert (N : ~ nq (length y) == 0) by (pose proof n1_pos as N0; unfold n1 in N0; intros Z; lra). apply (proj1 (Qmult_inj_l _ _ _ N)) in E. lra. }
    assert (Z : n1 * quad k P x == 0). { rewrite cov_quad, (sum_ext _ (fun _ => 0)); [apply sum_zero|]. intros r Hr. rewrite (D r Hr). ring. }
    apply Qmult_integral in Z. destruct Z as [Z|Z]; [lra|exact Z].
Qed.
End Cov.

(* ---- what a fit leaves ---- *)
Lemma cases_cols y o s g : is_data y = true -> exists b,
  let t := upd_y (rows_of y) (cols_of y) b s in let u := upd_prior (mu_default t) (psi_default t) (s_nu t) t in
  (b = true <-> exists l, y = YSeries l) /\
  init_common y o s g = match s_nu s with
    | Some _ => (Ok tt, u, g)
    | None => if b then (Err IndexError, u, g) else (Ok tt, upd_prior (s_mu u) (s_psi u) (Some (nq (cols_of y))) u, g) end.
Proof.
  intros H. destruct y; try discriminate H; eexists; cbv zeta; (split; [|unfold init_common, bind, upd, get; simpl; destruct (s_nu s); reflexivity]);
    split; intros K; try discriminate K; try (destruct K as [? K]; discriminate K); eauto.
Qed.
Lemma nth_coord k f i : (i < k)%nat -> coord i (mk_vec k f) = f i.
Proof. apply mk_vec_at. Qed.
Lemma default_means k y : y <> [] -> column_means k y (mk_vec k (mean_at y)).
Proof. intros H. split; [unfold mk_vec; rewrite map_length, seq_length; reflexivity|]. intros i Hi. rewrite nth_coord by exact Hi. apply mean_mul, H. Qed.
Lemma default_cov k y : (2 <= length y)%nat -> sample_covariance k y (mk_vec k (mean_at y)) (cov_sample k y).
Proof.
  intros H. assert (N : 0 < nq (length y) - 1) by (destruct (length y) as [|[|q]]; try lia; rewrite !nq_S; pose proof (nq_nonneg q); lra).
  split; [apply mk_mat_square|]. intros i j Hi Hj. change (entry (cov_sample k y) i j) with (mat_at (cov_sample k y) i j).
  unfold cov_sample. rewrite mk_mat_at by assumption. unfold scatter. rewrite row_sum_over.
  rewrite !nth_coord by assumption. unfold vat, coord. field. lra.
Qed.
Lemma c67_default_proof : forall E c fuel op o s g r s' g', is_data (mop_data op) = true -> exec_mop E c fuel op o s g = (r, s', g') ->
  let y := rows_of (mop_data op) in let k := cols_of (mop_data op) in
  (s_mu s = PNone -> y <> [] -> exists m, s_mu s' = PVal m /\ column_means k y m) /\
  (s_psi s = PNone -> (2 <= length y)%nat -> exists m P, s_psi s' = PVal P /\ column_means k y m /\ sample_covariance k y m P) /\
  (s_nu s = None -> (forall l, mop_data op <> YSeries l) -> s_nu s' = Some (nq k)).
Proof.
  intros E c fuel op o s g r s' g' D H y k. destruct (exec_first _ _ _ _ _ _ _ _ _ _ D H) as (r0 & s0 & g0 & I & (P1 & P2 & P3 & _)).
  destruct (set_init_common _ _ _ _ _ _ _ D I) as [N1 N2]. destruct (cases_cols (mop_data op) o s g D) as (b & X). cbv zeta in X. destruct X as [Hb X]. rewrite I in X. fold y k in X.
  assert (M : s_mu s0 = mu_default (upd_y y k b s) /\ s_psi s0 = psi_default (upd_y y k b s)) by (destruct (s_nu s); [|destruct b]; injection X as _ -> _; split; reflexivity).
  destruct M as [M1 M2]. split; [|split].
  - intros Hm NE. exists (mk_vec k (mean_at y)). rewrite (P1 N1), M1. unfold mu_default. simpl. rewrite Hm. destruct y; [congruence|]. split; [reflexivity|apply default_means; discriminate].
  - intros Hp L. exists (mk_vec k (mean_at y)), (cov_sample k y). rewrite (P2 N2), M2. unfold psi_default. simpl. rewrite Hp. destruct (Nat.leb_spec (length y) 1); [lia|].
    split; [reflexivity|]. split; [apply default_means; intros Z; rewrite Z in L; simpl in L; lia|apply default_cov, L].
  - intros Hn Ns. destruct b; [destruct (proj1 Hb eq_refl) as [l Hl]; destruct (Ns l Hl)|]. rewrite Hn in X. injection X as _ -> _. simpl in P3. apply P3. discriminate.
Qed.
(* too few rows *)
Lemma c67_not_finite_proof : forall E c fuel op o s g r s' g', is_data (mop_data op) = true -> exec_mop E c fuel op o s g = (r, s', g') ->
  (s_mu s = PNone -> rows_of (mop_data op) = [] -> s_mu s' = PNaN) /\ (s_psi s = PNone -> (length (rows_of (mop_data op)) <= 1)%nat -> s_psi s' = PNaN).
Proof.
  intros E c fuel op o s g r s' g' D H. destruct (exec_first _ _ _ _ _ _ _ _ _ _ D H) as (r0 & s0 & g0 & I & (P1 & P2 & P3 & _)).
  destruct (set_init_common _ _ _ _ _ _ _ D I) as [N1 N2]. destruct (cases_cols (mop_data op) o s g D) as (b & X). cbv zeta in X. destruct X as [Hb X]. rewrite I in X.
  set (y := rows_of (mop_data op)) in *. set (k := cols_of (mop_data op)) in *.
  assert (M : s_mu s0 = mu_default (upd_y y k b s) /\ s_psi s0 = psi_default (upd_y y k b s)) by (destruct (s_nu s); [|destruct b]; injection X as _ -> _; split; reflexivity).
  destruct M as [M1 M2]. split.
  - intros Hm Z. rewrite (P1 N1), M1. unfold mu_default. simpl. rewrite Hm, Z. reflexivity.
  - intros Hp L. rewrite (P2 N2), M2. unfold psi_default. simpl. rewrite Hp. destruct (Nat.leb_spec (length y) 1); [reflexivity|lia].
Qed.
Lemma c67_explicit_proof : forall E c fuel ops o s g s' g', run_mops E c fuel ops o s g = (s', g') ->
  (forall m, s_mu s = PVal m -> s_mu s' = PVal m) /\ (forall P, s_psi s = PVal P -> s_psi s' = PVal P) /\
  (forall n, s_nu s = Some n -> s_nu s' = Some n) /\ s_lam s' = s_lam s.
Proof.
  intros E c fuel ops o s g s' g' H. destruct (pri_run _ _ _ _ _ _ _ _ _ H) as (A & B & C & D).
  split; [intros m K; rewrite A; congruence|]. split; [intros m K; rewrite B; congruence|]. split; [intros m K; rewrite C; congruence|exact D].
Qed.
Lemma c67_definite_proof : forall E c fuel op o s g r s' g', is_data (mop_data op) = true -> exec_mop E c fuel op o s g = (r, s', g') ->
  let y := rows_of (mop_data op) in let k := cols_of (mop_data op) in s_psi s = PNone -> (2 <= length y)%nat ->
  exists P, s_psi s' = PVal P /\ square k P /\ symmetric k P /\ (forall x, 0 <= quad k P x) /\ (forall x, quad k P x == 0 <-> in_hyperplane k x y).
Proof.
  intros E c fuel op o s g r s' g' D H y k Hp L. destruct (c67_default_proof _ _ _ _ _ _ _ _ _ _ D H) as (_ & X & _). destruct (X Hp L) as (m & P & E1 & Cm & Cv).
  exists P. split; [exact E1|]. split; [apply Cv|]. split; [eapply cov_symmetric; eauto|]. split; [intros x; eapply cov_nonneg; eauto|intros x; eapply cov_null; eauto].
Qed.
Lemma c67_few_rows_proof : forall E c fuel op o s g r s' g', is_data (mop_data op) = true -> exec_mop E c fuel op o s g = (r, s', g') ->
  let y := rows_of (mop_data op) in let k := cols_of (mop_data op) in s_psi s = PNone -> (2 <= length y <= k)%nat ->
  exists P x, s_psi s' = PVal P /\ nonzero k x /\ quad k P x == 0.
Proof.
  intros E c fuel op o s g r s' g' D H y k Hp L. destruct (c67_definite_proof _ _ _ _ _ _ _ _ _ _ D H Hp ltac:(fold y; lia)) as (P & E1 & _ & _ & _ & N).
  destruct (few_rows k y ltac:(lia)) as (x & Nx & Hx). exists P, x. split; [exact E1|]. split; [exact Nx|apply N, Hx].
Qed.
Lemma means_unique k y m m' : y <> [] -> column_means k y m -> column_means k y m' -> forall i, (i < k)%nat -> coord i m == coord i m'.
Proof.
  intros NE [_ A] [_ B] i Hi. assert (N : ~ nq (length y) == 0) by (destruct y; [congruence|]; cbn [length]; rewrite nq_S; pose proof (nq_nonneg (length y)); lra).
  apply (Qmult_inj_l _ _ _ N). rewrite A, B by exact Hi. reflexivity.
Qed.
(* the same rows in another order *)
Lemma c67_order_proof : forall E c fuel op op' o s g r t g' r' t' g'', is_data (mop_data op) = true -> is_data (mop_data op') = true ->
  s_mu s = PNone -> s_psi s = PNone -> (2 <= length (rows_of (mop_data op)))%nat ->
  Permutation (rows_of (mop_data op)) (rows_of (mop_data op')) -> cols_of (mop_data op) = cols_of (mop_data op') ->
  exec_mop E c fuel op o s g = (r, t, g') -> exec_mop E c fuel op' o s g = (r', t', g'') ->
  exists m P m' P', s_mu t = PVal m /\ s_psi t = PVal P /\ s_mu t' = PVal m' /\ s_psi t' = PVal P' /\
    (forall i, (i < cols_of (mop_data op))%nat -> coord i m == coord i m') /\
    (forall i j, (i < cols_of (mop_data op))%nat -> (j < cols_of (mop_data op))%nat -> entry P i j == entry P' i j).
Proof.
  intros E c fuel op op' o s g r t g' r' t' g'' D D' Hm Hp L Pm Ck H H'.
  destruct (c67_default_proof _ _ _ _ _ _ _ _ _ _ D H) as (X1 & X2 & _). destruct (c67_default_proof _ _ _ _ _ _ _ _ _ _ D' H') as (Y1 & Y2 & _).
  pose proof (Permutation_length Pm) as PL. rewrite <- Ck in *. set (k := cols_of (mop_data op)) in *. set (y := rows_of (mop_data op)) in *. set (y' := rows_of (mop_data op')) in *.
  destruct (X1 Hm) as (m & M1 & M2); [intros Z; rewrite Z in L; simpl in L; lia|]. destruct (Y1 Hm) as (m' & M1' & M2'); [intros Z; rewrite Z in PL; simpl in PL; lia|].
  destruct (X2 Hp L) as (q & P & P1 & P2 & P3). destruct (Y2 Hp ltac:(lia)) as (q' & P' & P1' & P2' & P3').
  exists m, P, m', P'. do 4 (split; [assumption|]).
  assert (T : forall a, column_means k y' a -> column_means k y a).
  { intros a [A B]. split; [exact A|]. intros i Hi. rewrite PL, (B i Hi). symmetry. apply sum_perm, Pm. }
  assert (NE : y <> []) by (intros Z; rewrite Z in L; simpl in L; lia).
  split; [intros i Hi; apply (means_unique k y); auto|].
  intros i j Hi Hj. assert (N : ~ nq (length y) - 1 == 0) by (pose proof (n1_pos y L); lra). apply (Qmult_inj_l _ _ _ N).
  destruct P3 as [_ P3]. destruct P3' as [_ P3']. rewrite (P3 i j Hi Hj). rewrite PL, (P3' i j Hi Hj). rewrite (sum_perm _ _ _ Pm).
  apply sum_ext. intros x _. rewrite (means_unique k y q q' NE P2 (T _ P2') i Hi), (means_unique k y q q' NE P2 (T _ P2') j Hj). reflexivity.
Qed.
Lemma coord_affine a b k x i : (i < k)%nat -> coord i (affine a b k x) = a * coord i x + coord i b.
Proof. apply (mk_vec_at k (fun i => a * coord i x + coord i b)). Qed.
(* a change of origin and unit *)
Lemma c67_affine_proof : forall E c fuel op op' o s g r t g' r' t' g'' a b, is_data (mop_data op) = true -> is_data (mop_data op') = true ->
  s_mu s = PNone -> s_psi s = PNone -> (2 <= length (rows_of (mop_data op)))%nat ->
  rows_of (mop_data op') = map (affine a b (cols_of (mop_data op))) (rows_of (mop_data op)) -> cols_of (mop_data op) = cols_of (mop_data op') ->
  exec_mop E c fuel op o s g = (r, t, g') -> exec_mop E c fuel op' o s g = (r', t', g'') ->
  exists m P m' P', s_mu t = PVal m /\ s_psi t = PVal P /\ s_mu t' = PVal m' /\ s_psi t' = PVal P' /\
    (forall i, (i < cols_of (mop_data op))%nat -> coord i m' == a * coord i m + coord i b) /\
    (forall i j, (i < cols_of (mop_data op))%nat -> (j < cols_of (mop_data op))%nat -> entry P' i j == a * a * entry P i j).
Proof.
  intros E c fuel op op' o s g r t g' r' t' g'' a b D D' Hm Hp L Pm Ck H H'.
  destruct (c67_default_proof _ _ _ _ _ _ _ _ _ _ D H) as (X1 & X2 & _). destruct (c67_default_proof _ _ _ _ _ _ _ _ _ _ D' H') as (Y1 & Y2 & _).
  rewrite <- Ck in *. set (k := cols_of (mop_data op)) in *. set (y := rows_of (mop_data op)) in *. rewrite Pm in *.
  assert (PL : length (map (affine a b k) y) = length y) by apply map_length.
  destruct (X1 Hm) as (m & M1 & M2); [intros Z; rewrite Z in L; simpl in L; lia|]. destruct (Y1 Hm) as (m' & M1' & M2'); [intros Z; rewrite Z in PL; simpl in PL; lia|].
  destruct (X2 Hp L) as (q & P & P1 & P2 & P3). destruct (Y2 Hp ltac:(lia)) as (q' & P' & P1' & P2' & P3').
  exists m, P, m', P'. do 4 (split; [assumption|]).
  assert (N0 : ~ nq (length y) == 0) by (pose proof (n1_pos y L); lra).
  assert (T : forall u u', column_means k y u -> column_means k (map (affine a b k) y) u' -> forall i, (i < k)%nat -> coord i u' == a * coord i u + coord i b).
  { intros u u' [_ A] [_ B] i Hi. apply (Qmult_inj_l _ _ _ N0). specialize (B i Hi). rewrite PL in B. rewrite B, sum_map.
    rewrite (sum_ext _ (fun x => a * coord i x + coord i b)) by (intros; rewrite coord_affine by exact Hi; reflexivity).
    rewrite sum_add, sum_scale, sum_const, <- (A i Hi). ring. }
  split; [intros i Hi; apply T; auto|].
  intros i j Hi Hj. assert (N : ~ nq (length y) - 1 == 0) by (pose proof (n1_pos y L); lra). apply (Qmult_inj_l _ _ _ N).
  destruct P3 as [_ P3]. destruct P3' as [_ P3']. specialize (P3' i j Hi Hj). rewrite PL in P3'. rewrite P3', sum_map.
  setoid_replace ((nq (length y) - 1) * (a * a * entry P i j)) with (a * a * ((nq (length y) - 1) * entry P i j)) by ring. rewrite (P3 i j Hi Hj), <- sum_scale.
  apply sum_ext. intros x _. rewrite !coord_affine by assumption. rewrite (T q q' P2 P2' i Hi), (T q q' P2 P2' j Hj). ring.
Qed.
