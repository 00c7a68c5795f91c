(* Proofs about the variational update of the atoms. *)
From Coq Require Import Lqa.
From Verif Require Import Prelude Numpy Rng M_Weights M_Niw M_Utils M_Mix M_VarTheta S_Niw S_VarTheta P_Lists P_Niw P_Map P_Dens S_Mix S_Query S_VarFit P_VarQ.
Open Scope Q_scope.

Lemma w_sum_weighted vd f y : w_sum vd f y == weighted vd f y.
Proof. unfold w_sum, weighted. rewrite qsum_map. reflexivity. Qed.
Lemma mass_qsum vd : qsum vd == mass vd.
Proof. unfold mass. rewrite <- qsum_over. reflexivity. Qed.
Lemma weighted_ext r f h y : (forall x, f x == h x) -> weighted r f y == weighted r h y.
Proof. intros H. apply sum_ext. intros p _. rewrite H. reflexivity. Qed.
Lemma weighted_add r f h y : weighted r (fun x => f x + h x) y == weighted r f y + weighted r h y.
Proof. unfold weighted. rewrite <- sum_add. apply sum_ext. intros p _. ring. Qed.
Lemma weighted_scale r c f y : weighted r (fun x => c * f x) y == c * weighted r f y.
Proof. unfold weighted. rewrite <- sum_scale. apply sum_ext. intros p _. ring. Qed.
Lemma weighted_one r y : length r = length y -> weighted r (fun _ => 1) y == mass r.
Proof.
  unfold weighted, mass. revert y. induction r as [|a r IH]; intros [|b y] H; simpl in *; try discriminate; [reflexivity|]. rewrite IH by lia. ring.
Qed.
Lemma w_mean_mass vd y i : ~ mass vd == 0 -> w_mean vd y i * mass vd == weighted vd (coord i) y.
Proof.
  intros H. unfold w_mean. rewrite w_sum_weighted. unfold weighted. rewrite Qmult_comm, <- sum_scale. 
  assert (G : forall l, sum_over (fun p => mass vd * (fst p * vat (snd p) i)) (combine (map (fun x => x / qsum vd) l) y) == sum_over (fun p => fst p * coord i (snd p)) (combine l y)).
  { intros l. revert y. induction l as [|a l IH]; intros [|b y]; simpl; try reflexivity. rewrite IH, mass_qsum. unfold coord, vat. field. exact H. }
  apply G.
Qed.
Lemma c42_row_shape_proof : forall inv y h vd a, var_theta_row inv y h vd = Ok (Some a) ->
  ~ mass vd == 0 /\ ~ n_lam h + mass vd == 0 /\ exists mu lam p nu, a = (mu, lam, p, nu) /\ inv (scale_before_inv y h vd) = Ok p /\ location_posterior vd y h mu lam nu.
Proof.
  intros inv y h vd a H. unfold var_theta_row in H. destruct (Qeq_bool (qsum vd) 0) eqn:E; [discriminate H|]. destruct (Qeq_bool (n_lam h + qsum vd) 0) eqn:E'; [discriminate H|]. cbn [orb] in H.
  destruct (inv _) as [p| |] eqn:I; try discriminate H. injection H as <-.
  assert (N : ~ mass vd == 0) by (rewrite <- mass_qsum; apply Qeq_bool_neq; exact E). assert (N' : ~ n_lam h + mass vd == 0) by (rewrite <- mass_qsum; apply Qeq_bool_neq; exact E').
  split; [exact N|]. split; [exact N'|]. eexists _, _, _, _. split; [reflexivity|]. split; [reflexivity|].
  split; [unfold mk_vec; rewrite map_length, seq_length; reflexivity|]. split; [rewrite mass_qsum; reflexivity|]. split; [rewrite mass_qsum; reflexivity|].
  intros i Hi. unfold coord at 1. fold (vat (mk_vec (length (n_mu h)) (fun i0 => (n_lam h * vat (n_mu h) i0 + qsum vd * w_mean vd y i0) / (n_lam h + qsum vd))) i).
  rewrite mk_vec_at by exact Hi. rewrite <- w_mean_mass by exact N. rewrite mass_qsum. unfold coord, vat. field. exact N'.
Qed.
Lemma about_sum r y m i j : length r = length y -> is_wmean r y m ->
  about r y m i j + mass r * (m i * m j) == weighted r (fun x => coord i x * coord j x) y.
Proof.
  intros L M. unfold about.
  rewrite (weighted_ext r _ (fun x => (coord i x * coord j x + (- m j) * coord i x) + ((- m i) * coord j x + (m i * m j) * 1)) y) by (intros; ring).
  rewrite !weighted_add, !weighted_scale, weighted_one by exact L. rewrite <- (M i), <- (M j). ring.
Qed.
(* what is inverted *)
Lemma inner_sum k c u : inner k c u == c * sum_over (fun l => u l * u l) (seq 0 k).
Proof. unfold inner. rewrite qsum_map, <- sum_scale. apply sum_ext. intros; ring. Qed.
Lemma c42_scale_proof : forall y h vd i j, ~ mass vd == 0 -> (i < length (n_mu h))%nat -> (j < length (n_mu h))%nat ->
  exists m, is_wmean vd y m /\
  entry (scale_before_inv y h vd) i j == entry (n_psi h) i j + about vd y m i j / mass vd
    + n_lam h * mass vd / (n_lam h + mass vd) * sum_over (fun l => (m l - coord l (n_mu h)) * (m l - coord l (n_mu h))) (seq 0 (length (n_mu h))).
Proof.
  intros y h vd i j N Hi Hj. exists (w_mean vd y). split; [intros l; apply w_mean_mass; exact N|].
  change (entry (scale_before_inv y h vd) i j) with (mat_at (scale_before_inv y h vd) i j). unfold scale_before_inv. rewrite mk_mat_at by assumption. rewrite inner_sum, mass_qsum.
  unfold w_scatter. rewrite w_sum_weighted, mass_qsum. reflexivity.
Qed.
(* the conjugate scale matrix, in the same form *)
Lemma c42_conjugate_proof : forall y h vd mu lam nu psi m i j, length vd = length y -> ~ n_lam h + mass vd == 0 -> ~ mass vd == 0 -> is_wmean vd y m ->
  location_posterior vd y h mu lam nu -> scale_posterior vd y h mu lam psi -> (i < length (n_mu h))%nat -> (j < length (n_mu h))%nat ->
  entry psi i j == entry (n_psi h) i j + about vd y m i j + n_lam h * mass vd / (n_lam h + mass vd) * ((m i - coord i (n_mu h)) * (m j - coord j (n_mu h))).
Proof.
  intros y h vd mu lam nu psi m i j L N N0 M (_ & Lam & _ & Mu) (_ & Psi) Hi Hj. specialize (Psi i j Hi Hj). pose proof (Mu i Hi) as Mi. pose proof (Mu j Hj) as Mj. rewrite Lam in *.
  rewrite <- (M i) in Mi. rewrite <- (M j) in Mj. rewrite <- (about_sum vd y m i j L M) in Psi. set (n := mass vd) in *. set (l := n_lam h) in *.
  assert (Ui : coord i mu == (l * coord i (n_mu h) + m i * n) / (l + n)) by (rewrite <- Mi; field; exact N).
  assert (Uj : coord j mu == (l * coord j (n_mu h) + m j * n) / (l + n)) by (rewrite <- Mj; field; exact N).
  rewrite Ui, Uj in Psi. apply (Qplus_inj_r _ _ ((l + n) * ((l * coord i (n_mu h) + m i * n) / (l + n) * ((l * coord j (n_mu h) + m j * n) / (l + n))))). rewrite Psi. field. exact N.
Qed.
(* hard assignments *)
Lemma hard_weighted sel f : forall y, length sel = length y -> weighted (hard sel) f y == sum_over f (chosen_rows sel y).
Proof.
  unfold weighted, hard, chosen_rows. induction sel as [|[|] sel IH]; intros [|x y] H; simpl in *; try discriminate; try reflexivity; rewrite IH by lia; ring.
Qed.
Lemma hard_mass sel y : length sel = length y -> mass (hard sel) == nq (length (chosen_rows sel y)).
Proof. intros H. rewrite <- (weighted_one (hard sel) y) by (unfold hard; rewrite map_length; exact H). rewrite hard_weighted by exact H. rewrite sum_const. ring. Qed.
Lemma c42_hard_location_proof : forall inv y h sel a, length sel = length y -> var_theta_row inv y h (hard sel) = Ok (Some a) ->
  exists mu lam p nu h', a = (mu, lam, p, nu) /\ is_posterior (chosen_rows sel y) h h' /\ lam == n_lam h' /\ nu == n_nu h' /\
    forall i, (i < length (n_mu h))%nat -> coord i mu == coord i (n_mu h').
Proof.
  intros inv y h sel a L H. apply c42_row_shape_proof in H as (N & N' & mu & lam & p & nu & -> & _ & (Len & Lam & Nu & Mu)).
  assert (Y : chosen_rows sel y <> []). { intros Z. apply N. rewrite (hard_mass sel y L), Z. reflexivity. }
  rewrite (hard_mass sel y L) in *. exists mu, lam, p, nu, (niw_post (chosen_rows sel y) h). pose proof (c41_natural_proof _ _ Y N') as P. split; [reflexivity|]. split; [exact P|].
  split; [rewrite (po_lam _ _ _ P); exact Lam|]. split; [rewrite (po_nu _ _ _ P); exact Nu|]. intros i Hi. specialize (Mu i Hi). rewrite hard_weighted in Mu by exact L.
  pose proof (po_mu _ _ _ P i Hi) as Q. rewrite <- Q in Mu. rewrite (po_lam _ _ _ P), Lam in Mu. apply (Qmult_inj_l _ _ (n_lam h + nq (length (chosen_rows sel y))) N'). exact Mu.
Qed.
(* in one dimension the scale is right only if the mass is 1 or there is no spread *)
Lemma c42_one_dimension_proof : forall y h vd mu lam nu psi m, length (n_mu h) = 1%nat -> length vd = length y -> ~ n_lam h + mass vd == 0 -> ~ mass vd == 0 ->
  location_posterior vd y h mu lam nu -> scale_posterior vd y h mu lam psi -> is_wmean vd y m ->
  (entry (scale_before_inv y h vd) 0 0 == entry psi 0 0 <-> mass vd == 1 \/ about vd y m 0 0 == 0).
Proof.
  intros y h vd mu lam nu psi m K L N N0 LP SP M. rewrite (c42_conjugate_proof y h vd mu lam nu psi m 0 0 L N N0 M LP SP) by lia.
  destruct (c42_scale_proof y h vd 0 0 N0) as (m' & M' & E); try lia. rewrite E. rewrite K. cbn [seq sum_over].
  assert (X : forall i, m' i == m i) by (intros i; apply (Qmult_inj_r _ _ (mass vd) N0); rewrite (M i), (M' i); reflexivity).
  assert (A : about vd y m' 0 0 == about vd y m 0 0) by (unfold about; apply weighted_ext; intros x; rewrite X; reflexivity).
  rewrite A, X. set (s := about vd y m 0 0) in *. set (n := mass vd) in *.
  assert (D : s / n == s <-> n == 1 \/ s == 0).
  { split.
    - intros H. destruct (Qeq_dec s 0) as [Z|Z]; [right; exact Z|left]. apply (Qmult_inj_r _ _ s Z).
      assert (H' : s / n * n == s) by (field; exact N0). rewrite H in H'. rewrite Qmult_comm, H'. ring.
    - intros [Z|Z]; rewrite Z; [field|]. unfold Qdiv. ring. }
  rewrite <- D. split; intros H; lra.
Qed.
(* symmetry and positive definiteness of the inverted matrix *)
Lemma c42_symmetric_proof : forall y h vd, symmetric (length (n_mu h)) (n_psi h) -> symmetric (length (n_mu h)) (scale_before_inv y h vd).
Proof.
  intros y h vd H i j Hi Hj. change (mat_at (scale_before_inv y h vd) i j == mat_at (scale_before_inv y h vd) j i). unfold scale_before_inv. rewrite !mk_mat_at by assumption.
  specialize (H i j Hi Hj). unfold entry in H. unfold mat_at, vat in *. rewrite H. unfold w_scatter. rewrite !w_sum_weighted.
  assert (X : weighted vd (fun r => (nth i r 0 - w_mean vd y i) * (nth j r 0 - w_mean vd y j)) y == weighted vd (fun r => (nth j r 0 - w_mean vd y j) * (nth i r 0 - w_mean vd y i)) y) by (apply weighted_ext; intros; ring).
  unfold vat. rewrite X. reflexivity.
Qed.
Lemma mass_nonneg r : Forall (fun x => 0 <= x) r -> 0 <= mass r.
Proof. intros H. apply sum_nonneg. apply Forall_forall. exact H. Qed.
Lemma c42_posdef_proof : forall y h vd, Forall (fun x => 0 <= x) vd -> 0 < mass vd -> 0 < n_lam h ->
  pos_def (length (n_mu h)) (n_psi h) -> pos_def (length (n_mu h)) (scale_before_inv y h vd).
Proof.
  intros y h vd V M L P x Hx. specialize (P x Hx). unfold quad in *. set (k := length (n_mu h)) in *.
  set (c := n_lam h * mass vd / (n_lam h + mass vd)). assert (Hc : 0 <= c) by (unfold c; apply Qle_shift_div_l; [lra|]; nra).
  set (d := sum_over (fun l => (w_mean vd y l - vat (n_mu h) l) * (w_mean vd y l - vat (n_mu h) l)) (seq 0 k)). assert (Hd : 0 <= d) by (apply sum_nonneg; intros; apply sq_nonneg).
  set (q := fun (r : vec) => (let z := sum_over (fun i => coord i x * (vat r i - w_mean vd y i)) (seq 0 k) in z * z)).
  rewrite (quad_ext k _ (fun i j => entry (n_psi h) i j + (w_scatter vd y i j + c * d * (1 * 1))) x).
  2:{ intros i j Hi Hj. change (entry (scale_before_inv y h vd) i j) with (mat_at (scale_before_inv y h vd) i j). unfold scale_before_inv. rewrite mk_mat_at by assumption.
      rewrite inner_sum, mass_qsum. fold k. fold c. fold d. unfold mat_at, vat, entry. ring. }
  assert (S1 : sum_over (fun i => sum_over (fun j => coord i x * (entry (n_psi h) i j + (w_scatter vd y i j + c * d * (1 * 1))) * coord j x) (seq 0 k)) (seq 0 k)
     == sum_over (fun i => sum_over (fun j => coord i x * entry (n_psi h) i j * coord j x) (seq 0 k)) (seq 0 k)
      + (sum_over (fun i => sum_over (fun j => coord i x * w_scatter vd y i j * coord j x) (seq 0 k)) (seq 0 k)
      + c * d * sum_over (fun i => sum_over (fun j => coord i x * (1 * 1) * coord j x) (seq 0 k)) (seq 0 k))).
  { rewrite <- sum_scale, <- !sum_add. apply sum_ext. intros i _. rewrite <- sum_scale, <- !sum_add. apply sum_ext. intros j _. ring. }
  rewrite S1, (quad_outer k (fun _ => 1) x). cbv zeta.
  match goal with |- 0 < _ + (?s + _ * (?t * ?t)) => set (T := t); assert (S2 : 0 <= s) end.
  { apply Qle_trans with (sum_over (fun p => fst p / mass vd * sum_over (fun i => sum_over (fun j => coord i x * ((vat (snd p) i - w_mean vd y i) * (vat (snd p) j - w_mean vd y j)) * coord j x) (seq 0 k)) (seq 0 k)) (combine vd y)).
    - apply sum_nonneg. intros [a r] Hr. cbn [fst snd]. rewrite (quad_outer k (fun i => vat r i - w_mean vd y i) x). apply Qmult_le_0_compat; [|apply sq_nonneg].
      apply Qle_shift_div_l; [exact M|]. apply in_combine_l in Hr. rewrite Forall_forall in V. specialize (V _ Hr). lra.
    - apply Qle_lteq. right. transitivity (sum_over (fun i => sum_over (fun j => sum_over (fun p => fst p / mass vd * (coord i x * ((vat (snd p) i - w_mean vd y i) * (vat (snd p) j - w_mean vd y j)) * coord j x)) (combine vd y)) (seq 0 k)) (seq 0 k)).
      + transitivity (sum_over (fun p => sum_over (fun i => sum_over (fun j => fst p / mass vd * (coord i x * ((vat (snd p) i - w_mean vd y i) * (vat (snd p) j - w_mean vd y j)) * coord j x)) (seq 0 k)) (seq 0 k)) (combine vd y)).
        { apply sum_ext. intros p _. rewrite <- sum_scale. apply sum_ext. intros i _. rewrite <- sum_scale. reflexivity. }
        rewrite sum_swap. apply sum_ext. intros i _. apply sum_swap.
      + apply sum_ext. intros i _. apply sum_ext. intros j _. unfold w_scatter. rewrite w_sum_weighted, mass_qsum. unfold weighted.
        transitivity (coord i x * coord j x / mass vd * sum_over (fun p => fst p * ((vat (snd p) i - w_mean vd y i) * (vat (snd p) j - w_mean vd y j))) (combine vd y)); [|field; lra].
        rewrite <- sum_scale. apply sum_ext. intros p _. field. lra. }
  pose proof (sq_nonneg T) as S3. pose proof (Qmult_le_0_compat _ _ (Qmult_le_0_compat _ _ Hc Hd) S3). lra.
Qed.
(* rows *)
Lemma update_theta_rows inv y h : forall D l, update_theta inv y h D = Ok l -> length l = length D /\ forall j, (j < length D)%nat -> var_theta_row inv y h (nth j D []) = Ok (nth j l None).
Proof.
  induction D as [|vd D IH]; intros l H; [injection H as <-; split; [reflexivity|simpl; intros; lia]|]. simpl in H. destruct (var_theta_row inv y h vd) as [a| |] eqn:R; try discriminate H.
  destruct (update_theta inv y h D) as [l'| |] eqn:F; try discriminate H. injection H as <-. destruct (IH l' eq_refl) as [Ln N]. split; [simpl; lia|]. intros [|j] Hj; [exact R|]. simpl in *. apply N. lia.
Qed.
Lemma all_some {A} (l : list (option A)) : (forall j, (j < length l)%nat -> nth j l None <> None) -> exists t, l = map Some t.
Proof.
  induction l as [|[a|] l IH]; intros H; [exists []; reflexivity| |destruct (H 0%nat); simpl; auto; lia].
  destruct IH as [t ->]; [intros j Hj; apply (H (S j)); simpl; lia|]. exists (a :: t). reflexivity.
Qed.
Lemma row_none inv y h vd : var_theta_row inv y h vd = Ok None -> mass vd == 0 \/ n_lam h + mass vd == 0.
Proof.
  unfold var_theta_row. destruct (Qeq_bool (qsum vd) 0) eqn:E; [intros _; left; rewrite <- mass_qsum; apply Qeq_bool_iff; exact E|].
  destruct (Qeq_bool (n_lam h + qsum vd) 0) eqn:E'; [intros _; right; rewrite <- mass_qsum; apply Qeq_bool_iff; exact E'|]. simpl. destruct (inv _); discriminate.
Qed.
Lemma c42_nan_proof : forall inv y h vd, mass vd == 0 -> var_theta_row inv y h vd = Ok None.
Proof. intros inv y h vd H. unfold var_theta_row. rewrite <- mass_qsum in H. apply Qeq_bool_iff in H. rewrite H. reflexivity. Qed.
Lemma resp_mass k n D j : responsibilities k n D -> (0 < n)%nat -> (j < k)%nat -> 0 < mass (nth j D []) /\ Forall (fun x => 0 <= x) (nth j D []) /\ length (nth j D []) = n.
Proof.
  intros (L & F & H) Hn Hj. rewrite Forall_forall in F. assert (I : In (nth j D []) D) by (apply nth_In; lia). specialize (F _ I).
  assert (P : forall i, (i < n)%nat -> 0 < nth i (nth j D []) 0) by (intros i Hi; apply (proj1 (H i Hi) j Hj)).
  assert (Q : Forall (fun x => 0 <= x) (nth j D [])) by (apply Forall_forall; intros x Hx; destruct (In_nth _ _ 0 Hx) as (i & Hi & <-); apply Qlt_le_weak, P; lia).
  split; [|split; assumption]. destruct (nth j D []) as [|x r]; [simpl in F; lia|]. unfold mass. simpl. specialize (P 0%nat Hn). simpl in P. inversion Q; subst. pose proof (mass_nonneg r H3). unfold mass in *. lra.
Qed.
Lemma maximize_theta E inv c o s g s' g' : resp_env E -> theta_env inv E -> maximize_variational E c o s g = (Ok tt, s', g') -> s_y s' <> [] -> 0 < s_lam s' ->
  exists k h, vk (s_var s') = Some k /\ prior_niw s' = Ok h /\ n_lam h = s_lam s' /\ ((0 < k)%Z -> length (vtheta (s_var s')) = Z.to_nat k /\ responsibilities (Z.to_nat k) (length (s_y s')) (vresp (s_var s')) /\
    update_theta inv (s_y s') h (vresp (s_var s')) = Ok (map Some (vtheta (s_var s')))).
Proof.
  intros RE TE H NE Lp. pose proof (maximize_resp _ _ _ _ _ _ _ RE H) as (_ & k & K & K0 & R). unfold maximize_variational in H. apply bind_ok in H as ([] & s1 & g1 & H1 & H). apply bind_ok in H as (u & s2 & g2 & H2 & H). injection H2 as <- <- <-.
  apply bind_ok in H as ([] & s2 & g2 & H2 & H). unfold update_var_theta in H. apply bind_ok in H as (u & t & gt & Ht & H). injection Ht as <- <- <-.
  apply bind_ok in H as (h & t & gt & Ht & H). unfold of_res in Ht. injection Ht as Ht <- <-. apply bind_ok in H as (th & t & gt & Ht2 & H). unfold of_res in Ht2. injection Ht2 as Ht2 <- <-.
  injection H as <- _. simpl in *. exists k, h. split; [exact K|]. split; [exact Ht|].
  assert (Lh : n_lam h = s_lam s2). { unfold prior_niw in Ht. destruct (s_mu s2); try discriminate. destruct (s_psi s2); try discriminate. destruct (s_nu s2); try discriminate. injection Ht as <-. reflexivity. }
  split; [exact Lh|]. intros Hk. specialize (R Hk). assert (Hn : (0 < length (s_y s2))%nat) by (destruct (s_y s2); [congruence|simpl; lia]).
  pose proof (TE (s_y s2) h (vresp (s_var s2))) as T. destruct (update_theta inv (s_y s2) h (vresp (s_var s2))) as [l| |] eqn:U; try congruence.
  destruct (update_theta_rows _ _ _ _ _ U) as [Ln N]. pose proof (proj1 R) as LD.
  destruct (all_some l) as [t ->].
  { intros j Hj Z. rewrite Ln in Hj. specialize (N j Hj). rewrite Z in N. destruct (resp_mass _ _ _ j R Hn ltac:(lia)) as [Mp _]. destruct (row_none _ _ _ _ N); rewrite ?Lh in *; lra. }
  specialize (T t eq_refl). rewrite T in Ht2. injection Ht2 as ->. rewrite map_length in Ln. split; [lia|]. split; [exact R|reflexivity].
Qed.
Lemma c42_after_fit_proof : forall E inv c y k warm tol meth o s g s' g', resp_env E -> theta_env inv E -> (1 <= s_total s)%Z ->
  fit_variational E c y k warm tol meth o s g = (Ok tt, s', g') -> s_y s' <> [] -> 0 < s_lam s' ->
  exists k h, vk (s_var s') = Some k /\ prior_niw s' = Ok h /\ ((0 < k)%Z -> length (vtheta (s_var s')) = Z.to_nat k /\
    forall j, (j < Z.to_nat k)%nat -> exists mu lam p nu, nth j (vtheta (s_var s')) ([], 0, [], 0) = (mu, lam, p, nu) /\
      location_posterior (nth j (vresp (s_var s')) []) (s_y s') h mu lam nu /\
      inv (scale_before_inv (s_y s') h (nth j (vresp (s_var s')) [])) = Ok p /\
      n_lam h < lam /\ n_nu h < nu /\
      (pos_def (length (n_mu h)) (n_psi h) -> pos_def (length (n_mu h)) (scale_before_inv (s_y s') h (nth j (vresp (s_var s')) [])))).
Proof.
  intros E inv c y k warm tol meth o s g s' g' RE TE T H NE Lp. destruct (c49_loop_proof _ _ _ _ _ _ _ _ _ _ _ _ H) as (s1 & g1 & es & s2 & _ & R & Es & _ & NN & _).
  destruct (run_last _ _ _ _ _ _ _ _ R (NN T)) as (s3 & g3 & M). rewrite Es in *. simpl in NE, Lp. destruct (maximize_theta _ _ _ _ _ _ _ _ RE TE M NE Lp) as (k' & h & K & P & Lh & F).
  exists k', h. simpl. split; [exact K|]. split; [exact P|]. intros Hk. destruct (F Hk) as (L1 & RS & U). split; [exact L1|]. intros j Hj.
  destruct (update_theta_rows _ _ _ _ _ U) as [Ln N]. rewrite map_length in Ln. specialize (N j ltac:(lia)).
  assert (X : nth j (map Some (vtheta (s_var s2))) None = Some (nth j (vtheta (s_var s2)) ([], 0, [], 0))) by (rewrite <- (map_nth Some); apply nth_indep; rewrite map_length; lia). rewrite X in N.
  destruct (c42_row_shape_proof _ _ _ _ _ N) as (_ & _ & mu & lam & p & nu & E1 & E2 & LP). exists mu, lam, p, nu. split; [exact E1|]. split; [exact LP|]. split; [exact E2|].
  assert (Hn : (0 < length (s_y s2))%nat) by (destruct (s_y s2); [congruence|simpl; lia]). destruct (resp_mass _ _ _ j RS Hn Hj) as (Mp & Mn & _). destruct LP as (_ & A & B & _).
  split; [rewrite A; lra|]. split; [rewrite B; lra|]. intros PD. apply c42_posdef_proof; try assumption. rewrite Lh. exact Lp.
Qed.
(* in two dimensions, hard assignments of two points *)
Lemma c42_scale_refuted_proof : exists y h sel mu lam nu psi, length sel = length y /\ 0 < n_lam h /\ pos_def (length (n_mu h)) (n_psi h) /\
  is_posterior (chosen_rows sel y) h (NIW mu lam psi nu) /\
  ~ entry (scale_before_inv y h (hard sel)) 0 1 == entry psi 0 1 /\ ~ entry (scale_before_inv y h (hard sel)) 0 0 == entry psi 0 0.
Proof.
  set (h := NIW [0; 0] 1 [[1; 0]; [0; 1]] 3). set (y := [[2; 0]; [0; 4]; [7; 7]]).
  exists y, h, [true; true; false], (n_mu (niw_post [[2; 0]; [0; 4]] h)), (n_lam (niw_post [[2; 0]; [0; 4]] h)), (n_nu (niw_post [[2; 0]; [0; 4]] h)), (n_psi (niw_post [[2; 0]; [0; 4]] h)).
  split; [reflexivity|]. split; [reflexivity|]. split.
  - intros x (i & Hi & Hx). unfold quad. simpl. simpl in Hi. pose proof (sq_nonneg (coord 0 x)). pose proof (sq_nonneg (coord 1 x)).
    assert (C : forall z : Q, ~ z == 0 -> 0 < z * z) by (intros z Hz; destruct (Q_dec z 0) as [[?|?]|?]; [nra|nra|contradiction]).
    unfold entry; simpl. destruct i as [|[|i]]; [| |lia]; apply C in Hx; lra.
  - split; [apply (c41_natural_proof [[2; 0]; [0; 4]] h); [discriminate|intros Z; vm_compute in Z; discriminate]|]. split; vm_compute; discriminate.
Qed.
