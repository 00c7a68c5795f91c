(* Coordinate updates of the variational weights. *)
From Coq Require Import Reals Qreals Lra.
From Verif Require Import Prelude Numpy Rng M_Weights M_Ext M_Var S_Weights S_Draws S_Var S_Opt P_Lists P_Var P_Var26 P_Var27 P_Var28 P_Var31.
Open Scope R_scope.

(* ---- summation by parts ---- *)
Definition from (D : mat) (m : nat) : R := rsum (map rsum (skipn m (rows D))).
Lemma from_S D m : from D m = mass D m + mass_after D m.
Proof.
  unfold from, mass_after, mass. generalize (rows D). intros l. revert m. induction l as [|r t IH]; intros m.
  - rewrite !skipn_nil. destruct m; simpl; lra.
  - destruct m as [|m]; [reflexivity|]. cbn [skipn nth]. apply IH.
Qed.
Lemma from_end D m : (length (rows D) <= m)%nat -> from D m = 0.
Proof. intros H. unfold from. rewrite skipn_all2 by exact H. reflexivity. Qed.
Lemma by_parts D y m : sumn (fun j => mass D j * sumn y j) m + sumn y m * from D m = sumn (fun j => mass_after D j * y j) m.
Proof.
  induction m as [|m IH]; [unfold sumn; simpl; ring|]. rewrite !sumn_S, <- IH. rewrite (from_S D m). change (from D (S m)) with (mass_after D m). ring.
Qed.
Lemma stick_sum D x y : let k := length (rows D) in
  sumn (fun j => mass D j * (sumn y j + x j)) k = sumn (fun j => mass D j * x j + mass_after D j * y j) k.
Proof.
  intros k. rewrite sumn_plus, <- by_parts, (from_end D k) by (unfold k; lia).
  rewrite (sumn_ext _ (fun j => mass D j * sumn y j + mass D j * x j)) by (intros; ring). rewrite sumn_plus. ring.
Qed.
Lemma stick_sum_last D x y : let k := length (rows D) in
  sumn (fun j => mass D j * (sumn y j + (if (S j <? k)%nat then x j else 0))) k = sumn (fun j => mass D j * x j + mass_after D j * y j) (k - 1).
Proof.
  intros k. unfold k. rewrite (stick_sum D (fun j => if (S j <? length (rows D))%nat then x j else 0) y). fold k.
  destruct k as [|n] eqn:E; [reflexivity|]. replace (S n - 1)%nat with n by lia. rewrite sumn_S.
  replace (S n <? S n)%nat with false by (symmetry; apply Nat.ltb_irrefl).
  assert (Z : mass_after D n = 0) by (change (mass_after D n) with (from D (S n)); apply from_end; fold k; lia). rewrite Z.
  rewrite (sumn_ext (fun j => mass D j * (if (S j <? S n)%nat then x j else 0) + mass_after D j * y j) (fun j => mass D j * x j + mass_after D j * y j) n); [ring|].
  intros j Hj. destruct (Nat.ltb_spec (S j) (S n)); [reflexivity|lia].
Qed.

(* ---- logs of stick weights ---- *)
Lemma prodn_pos f n : (forall j, (j < n)%nat -> 0 < f j) -> 0 < prodn f n.
Proof. intros H. induction n as [|n IH]; [simpl; lra|]. cbn [prodn]. apply Rmult_lt_0_compat; [apply IH; intros; apply H; lia|apply H; lia]. Qed.
Lemma ln_prodn f n : (forall j, (j < n)%nat -> 0 < f j) -> ln (prodn f n) = sumn (fun j => ln (f j)) n.
Proof.
  intros H. induction n as [|n IH]; [simpl; unfold sumn; simpl; apply ln_1|]. cbn [prodn]. rewrite ln_mult; [|apply prodn_pos; intros; apply H; lia|apply H; lia].
  rewrite IH by (intros; apply H; lia). rewrite sumn_S. reflexivity.
Qed.
Lemma ln_stick k v j : sticks_in k v -> (j < k)%nat -> ln (stick_weight v j) = sumn (fun i => ln (1 - v i)) j + ln (v j).
Proof.
  intros H Hj. unfold stick_weight. assert (P : forall i, (i < j)%nat -> 0 < 1 - v i) by (intros i Hi; specialize (H i ltac:(lia)); lra).
  rewrite ln_mult; [|apply H; exact Hj|apply prodn_pos; exact P]. rewrite ln_prodn by exact P. ring.
Qed.
Lemma ln_stick_last k v j : sticks_in (k - 1) v -> (j < k)%nat ->
  ln (stick_weight_last k v j) = sumn (fun i => ln (1 - v i)) j + (if (S j <? k)%nat then ln (v j) else 0).
Proof.
  intros H Hj. unfold stick_weight_last. assert (P : forall i, (i < j)%nat -> 0 < 1 - v i) by (intros i Hi; specialize (H i ltac:(lia)); lra).
  destruct (Nat.ltb_spec (S j) k).
  - rewrite ln_mult; [|apply H; lia|apply prodn_pos; exact P]. rewrite ln_prodn by exact P. ring.
  - rewrite Rmult_1_l, ln_prodn by exact P. ring.
Qed.

(* ---- C70: the fitted factor is the conditional of the joint ---- *)
Lemma c70_dp_proof al D s sv : good_mat D -> fit_var (CDP al) D s = (Ok tt, sv) ->
  let k := length (rows D) in
  exists l, vpar sv = PBeta l /\ length l = k /\ forall v, sticks_in (k - 1) v ->
    expected_log D (fun j => ln (stick_weight_last k v j)) + sumn (fun j => beta_kernel 1 (Q2R al) (v j)) (k - 1)
    = sumn (fun j => beta_kernel (fst (nth j l (0, 0))) (snd (nth j l (0, 0))) (v j)) (k - 1).
Proof.
  intros Hg H k. rewrite dp_params in H. injection H as <-. cbn [vpar]. eexists. split; [reflexivity|]. split; [rewrite map_length, seq_length; reflexivity|].
  intros v Hv. rewrite expected_mass by exact Hg. fold k.
  rewrite (sumn_ext _ (fun j => mass D j * (sumn (fun i => ln (1 - v i)) j + (if (S j <? k)%nat then ln (v j) else 0)))) by (intros j Hj; rewrite (ln_stick_last k v j Hv Hj); reflexivity).
  unfold k at 1 2. rewrite (stick_sum_last D (fun j => ln (v j)) (fun j => ln (1 - v j))). fold k. rewrite <- sumn_plus. apply sumn_ext. intros j Hj.
  rewrite (nth_indep _ (0, 0) ((fun j => (1 + mass D j, Q2R al + mass_after D j)) 0%nat)) by (rewrite map_length, seq_length; lia).
  rewrite (map_nth (fun j => (1 + mass D j, Q2R al + mass_after D j))), seq_nth by lia. unfold beta_kernel. cbn [fst snd plus]. ring.
Qed.
Lemma c70_py_proof pyd al D s sv : good_mat D -> fit_var (CPY pyd al) D s = (Ok tt, sv) ->
  let k := length (rows D) in
  exists l, vpar sv = PBeta l /\ length l = k /\ forall v, sticks_in k v ->
    expected_log D (fun j => ln (stick_weight v j)) + sumn (fun j => beta_kernel (1 - Q2R pyd) (Q2R al + (INR j + 1) * Q2R pyd) (v j)) k
    = sumn (fun j => beta_kernel (fst (nth j l (0, 0))) (snd (nth j l (0, 0))) (v j)) k.
Proof.
  intros Hg H k. rewrite py_params in H. injection H as <-. cbn [vpar]. eexists. split; [reflexivity|]. split; [rewrite map_length, seq_length; reflexivity|].
  intros v Hv. rewrite expected_mass by exact Hg. fold k.
  rewrite (sumn_ext _ (fun j => mass D j * (sumn (fun i => ln (1 - v i)) j + ln (v j)))) by (intros j Hj; rewrite (ln_stick k v j Hv Hj); reflexivity).
  unfold k at 1. rewrite (stick_sum D (fun j => ln (v j)) (fun j => ln (1 - v j))). fold k. rewrite <- sumn_plus. apply sumn_ext. intros j Hj.
  rewrite (nth_indep _ (0, 0) ((fun j => (1 - Q2R pyd + mass D j, Q2R al + (1 + INR j) * Q2R pyd + mass_after D j)) 0%nat)) by (rewrite map_length, seq_length; lia).
  rewrite (map_nth (fun j => (1 - Q2R pyd + mass D j, Q2R al + (1 + INR j) * Q2R pyd + mass_after D j))), seq_nth by lia. unfold beta_kernel. cbn [fst snd plus]. ring.
Qed.
Lemma c70_dir_proof al D s sv : good_mat D -> length al = length (rows D) -> fit_var (CDirDist (Z.of_nat (length al)) al) D s = (Ok tt, sv) ->
  exists l, vpar sv = PDir l /\ length l = length (rows D) /\ forall w,
    expected_log D (fun j => ln (w j)) + dirichlet_kernel (map Q2R al) w = dirichlet_kernel l w.
Proof.
  intros Hg L H. rewrite dir_params in H by (rewrite <- ?L; auto). injection H as <-. cbn [vpar]. eexists. split; [reflexivity|]. split; [rewrite map_length, seq_length; exact L|].
  intros w. rewrite expected_mass by exact Hg. unfold dirichlet_kernel. rewrite !map_length, seq_length, <- L, <- sumn_plus. apply sumn_ext. intros j Hj.
  rewrite (nth_indep (map Q2R al) 0 (Q2R 0%Q)) by (rewrite map_length; exact Hj). rewrite map_nth.
  rewrite (nth_indep _ 0 ((fun j => Q2R (nth j al 0%Q) + mass D j) 0%nat)) by (rewrite map_length, seq_length; exact Hj).
  rewrite (map_nth (fun j => Q2R (nth j al 0%Q) + mass D j)), seq_nth by exact Hj. cbn [plus]. ring.
Qed.

(* geometric weights *)
Lemma geom_b D : rsum (map (fun jn => INR (fst jn) * snd jn) (combine (seq 1 (length (rows D) - 1)) (tl (row_sums D)))) = sumn (fun j => INR j * mass D j) (length (rows D)).
Proof.
  unfold row_sums, sumn, mass. destruct (rows D) as [|r t]; [reflexivity|]. cbn [map tl length]. replace (S (length t) - 1)%nat with (length t) by lia. cbn [seq map nth].
  rewrite rsum_cons, <- seq_shift, !map_map. cbn [INR]. rewrite Rmult_0_l, Rplus_0_l. f_equal. rewrite (nth_ext_list (map rsum t) 0) at 1.
  rewrite map_length. rewrite combine_map, map_map. apply map_ext_in. intros j Hj. apply in_seq in Hj. cbn [fst snd]. change (nth (S j) (r :: t) []) with (nth j t []).
  rewrite (nth_indep (map rsum t) 0 (rsum [])) by (rewrite map_length; lia). rewrite map_nth. reflexivity.
Qed.
Lemma c70_geom_proof a b D s sv : good_mat D -> stochastic D -> (1 <= cols D)%nat -> fit_var (CGeom a b) D s = (Ok tt, sv) ->
  exists x y, vpar sv = PPair x y /\ forall p, 0 < p < 1 ->
    expected_log D (fun j => ln (p * (1 - p) ^ j)) + beta_kernel (Q2R a) (Q2R b) p = beta_kernel (x + 1) y p /\
    expected_log D (fun j => ln (p * (1 - p) ^ j)) + beta_kernel (Q2R a) (Q2R b) p = beta_kernel x y p + ln p.
Proof.
  intros Hg Hs Hc H. cbn [fit_var] in H. destruct (rows D) as [|r t] eqn:E; [discriminate|]. rewrite <- E in *. injection H as <-. cbn [vpar]. do 2 eexists. split; [reflexivity|].
  rewrite geom_b. intros p Hp.
  assert (X : expected_log D (fun j => ln (p * (1 - p) ^ j)) = INR (cols D) * ln p + sumn (fun j => INR j * mass D j) (length (rows D)) * ln (1 - p)).
  { rewrite expected_mass by exact Hg.
    rewrite (sumn_ext _ (fun j => ln p * mass D j + ln (1 - p) * (INR j * mass D j))).
    - rewrite sumn_plus, !sumn_scale, mass_total by assumption. ring.
    - intros j _. rewrite ln_mult, ln_pow by (try apply pow_lt; lra). ring. }
  rewrite X. replace (Nat.max (cols D) 1) with (cols D) by lia. unfold beta_kernel. split; ring.
Qed.
Lemma ln_inj_diff c : (forall p, 0 < p < 1 -> ln p = c) -> False.
Proof.
  intros H. pose proof (H (/ 2) ltac:(lra)) as A. pose proof (H (/ 3) ltac:(lra)) as B. assert (C : ln (/ 3) < ln (/ 2)) by (apply ln_increasing; lra). lra.
Qed.
Lemma c70_geom_refuted_proof a b D s sv x y : good_mat D -> stochastic D -> (1 <= cols D)%nat -> fit_var (CGeom a b) D s = (Ok tt, sv) -> vpar sv = PPair x y ->
  ~ exists c, forall p, 0 < p < 1 -> expected_log D (fun j => ln (p * (1 - p) ^ j)) + beta_kernel (Q2R a) (Q2R b) p = beta_kernel x y p + c.
Proof.
  intros Hg Hs Hc H Hv [c Hp]. destruct (c70_geom_proof a b D s sv Hg Hs Hc H) as (x' & y' & Hv' & G). rewrite Hv in Hv'. injection Hv' as <- <-.
  apply (ln_inj_diff c). intros p Pp. destruct (G p Pp) as [_ G2]. specialize (Hp p Pp). lra.
Qed.
(* without observations the update is the prior *)
Lemma c70_geom_empty_proof a b D s sv : good_mat D -> cols D = 0%nat -> fit_var (CGeom a b) D s = (Ok tt, sv) -> vpar sv = PPair (Q2R a) (Q2R b).
Proof.
  intros Hg Hc H. cbn [fit_var] in H. destruct (rows D) as [|r t] eqn:E; [discriminate|]. rewrite <- E in *. injection H as <-. cbn [vpar]. rewrite geom_b, Hc.
  rewrite (sumn_ext _ (fun _ => 0)); [rewrite sumn_const; f_equal; simpl; ring|]. intros j Hj. unfold good_mat in Hg. rewrite Forall_forall in Hg.
  unfold mass. destruct (Hg (nth j (rows D) []) (nth_In _ _ Hj)) as [L _]. rewrite Hc in L. destruct (nth j (rows D) []); [|discriminate]. simpl. ring.
Qed.

(* ---- the fit maximises the bound ---- *)
Section Max.
Variables psi lg : R -> R.
Hypothesis HK : beta_divergence_nonneg psi lg.
Notation mlb := (mean_log_beta psi).

Lemma sumn_le f g n : (forall j, (j < n)%nat -> f j <= g j) -> sumn f n <= sumn g n.
Proof. intros H. induction n as [|n IH]; [unfold sumn; simpl; lra|]. rewrite !sumn_S. specialize (IH (fun j Hj => H j ltac:(lia))). specialize (H n ltac:(lia)). lra. Qed.
Lemma as_fun (l : list (R * R)) : l = map (fun j => (fst (nth j l (0, 0)), snd (nth j l (0, 0)))) (seq 0 (length l)).
Proof.
  rewrite (nth_ext_list l (0, 0)) at 1. apply map_ext. intros j. destruct (nth j l (0, 0)); reflexivity.
Qed.

(* the three terms for arbitrary parameters *)
Lemma dp_terms al D s0 a b : (0 < al)%Q -> good_mat D -> rows D <> [] ->
  let k := length (rows D) in let s := VS (Some D) (Some (Z.of_nat k)) (PBeta (map (fun j => (a j, b j)) (seq 0 k))) s0 in
  weight_bound psi lg (CDP al) s
    (sumn (fun j => (1 + mass D j - a j) * mlb (a j) (b j) + (Q2R al + mass_after D j - b j) * mlb (b j) (a j) + log_beta lg (a j) (b j)) (k - 1) + INR k * ln (Q2R al)).
Proof.
  intros Ha Hg Hr k s. apply Qlt_Rlt in Ha. rewrite RMicromega.Q2R_0 in Ha. assert (Hk : (0 < k)%nat) by (unfold k; destruct (rows D); [congruence|simpl; lia]).
  assert (Pf : par_fun s k a b) by reflexivity.
  assert (X : forall j, (j < k)%nat -> mean_log_w psi (CDP al) j s = Ok (EF (sumn (fun i => mlb (b i) (a i)) j + (if (S j <? k)%nat then mlb (a j) (b j) else 0)))).
  { intros j Hj. unfold s. cbn [mean_log_w vd vk]. fold s. destruct (Z.leb_spec (Z.of_nat k) (Z.of_nat j)); [lia|].
    rewrite (log_rest_val psi s k a b Pf j) by lia. rewrite (par_at s k a b j Pf Hj). cbn [option_map opt_res fst snd].
    destruct (Z.ltb_spec (Z.of_nat j) (Z.of_nat k - 1)), (Nat.ltb_spec (S j) k); try lia; [reflexivity|]. do 2 f_equal. ring. }
  eexists _, _, _. split; [|split; [|split]].
  - unfold mean_log_pd. cbn [vd s]. fold s. rewrite (weigh_mass D _ _ Hg X). reflexivity.
  - cbn [mean_log_p vd vpar vk s]. rewrite removelast_map_seq, map_map. cbn [ext_log]. pose proof Ha as P. apply rltb_true in P. rewrite P. cbn [ext_scale ext_add]. reflexivity.
  - cbn [mean_log_q vd vpar s]. rewrite removelast_map_seq, map_map. reflexivity.
  - rewrite expected_mass by exact Hg. unfold k at 2 3. rewrite (stick_sum_last D (fun j => mlb (a j) (b j)) (fun j => mlb (b j) (a j))). fold k. cbn [fst snd].
    rewrite <- INR_IZR_INZ.
    change (rsum (map (fun x => mlb (b x) (a x)) (seq 0 (k - 1)))) with (sumn (fun j => mlb (b j) (a j)) (k - 1)).
    change (rsum (map (fun x => q_term psi lg (a x, b x)) (seq 0 (k - 1)))) with (sumn (fun j => q_term psi lg (a j, b j)) (k - 1)).
    rewrite (sumn_ext (fun j => (1 + mass D j - a j) * mlb (a j) (b j) + (Q2R al + mass_after D j - b j) * mlb (b j) (a j) + log_beta lg (a j) (b j))
       (fun j => (mass D j * mlb (a j) (b j) + mass_after D j * mlb (b j) (a j)) + ((Q2R al - 1) * mlb (b j) (a j) + -1 * q_term psi lg (a j, b j)))).
    + rewrite !sumn_plus, !sumn_scale. ring.
    + intros j _. unfold q_term, log_beta. ring.
Qed.
Lemma c70_dp_max_proof al D s sv l' x x' : (0 < al)%Q -> good_mat D -> rows D <> [] -> fit_var (CDP al) D s = (Ok tt, sv) ->
  length l' = length (rows D) -> positive_params l' ->
  weight_bound psi lg (CDP al) sv x -> weight_bound psi lg (CDP al) (with_params l' sv) x' -> x' <= x.
Proof.
  intros Ha Hg Hr H L Hl W W'.
  pose proof (dp_terms al D (vn s) (fun j => 1 + mass D j) (fun j => Q2R al + mass_after D j) Ha Hg Hr) as T.
  pose proof (dp_terms al D (vn s) (fun j => fst (nth j l' (0, 0))) (fun j => snd (nth j l' (0, 0))) Ha Hg Hr) as T'. cbv zeta in T, T'.
  rewrite dp_params in H. injection H as <-. unfold with_params in W'. cbn [vd vk vn] in W'. rewrite <- L in T' at 2. rewrite <- as_fun in T'.
  assert (U : forall s u v, weight_bound psi lg (CDP al) s u -> weight_bound psi lg (CDP al) s v -> u = v).
  { intros s1 u v (d1 & p1 & q1 & A1 & A2 & A3 & ->) (d2 & p2 & q2 & B1 & B2 & B3 & ->). rewrite A1 in B1. rewrite A2 in B2. rewrite A3 in B3. congruence. }
  rewrite (U _ _ _ W T), (U _ _ _ W' T'). apply Rplus_le_compat_r, sumn_le. intros j Hj.
  unfold positive_params in Hl. rewrite Forall_forall in Hl. destruct (Hl (nth j l' (0, 0)) ltac:(apply nth_In; lia)) as [P1 P2].
  apply Qlt_Rlt in Ha. rewrite RMicromega.Q2R_0 in Ha. pose proof (good_mass D j Hg). pose proof (good_after D j Hg).
  pose proof (HK (1 + mass D j) (Q2R al + mass_after D j) (fst (nth j l' (0, 0))) (snd (nth j l' (0, 0))) ltac:(lra) ltac:(lra) P1 P2) as K.
  unfold mean_log_beta. rewrite (Rplus_comm (snd (nth j l' (0, 0)))). lra.
Qed.
Lemma py_terms pyd al D s0 a b : good_mat D ->
  let k := length (rows D) in let s := VS (Some D) (Some (Z.of_nat k)) (PBeta (map (fun j => (a j, b j)) (seq 0 k))) s0 in
  weight_bound psi lg (CPY pyd al) s
    (sumn (fun j => (1 - Q2R pyd + mass D j - a j) * mlb (a j) (b j) + (Q2R al + (1 + INR j) * Q2R pyd + mass_after D j - b j) * mlb (b j) (a j) + log_beta lg (a j) (b j)) k
     + sumn (fun j => lg (Q2R al + INR j * Q2R pyd + 1) - lg (Q2R al + (INR j + 1) * Q2R pyd + 1) - lg (1 - Q2R pyd)) k).
Proof.
  intros Hg k s. assert (Pf : par_fun s k a b) by reflexivity.
  assert (X : forall j, (j < k)%nat -> mean_log_w psi (CPY pyd al) j s = Ok (EF (sumn (fun i => mlb (b i) (a i)) j + mlb (a j) (b j)))).
  { intros j Hj. unfold s. cbn [mean_log_w vd]. fold s. rewrite (log_rest_val psi s k a b Pf j) by lia. rewrite (par_at s k a b j Pf Hj). reflexivity. }
  eexists _, _, _. split; [|split; [|split]].
  - unfold mean_log_pd. cbn [vd s]. fold s. rewrite (weigh_mass D _ _ Hg X). reflexivity.
  - cbn [mean_log_p vd vpar s]. rewrite map_length, seq_length, combine_seq_map, map_map. reflexivity.
  - cbn [mean_log_q vd vpar s]. rewrite map_map. reflexivity.
  - rewrite expected_mass by exact Hg. unfold k at 3. rewrite (stick_sum D (fun j => mlb (a j) (b j)) (fun j => mlb (b j) (a j))). fold k.
    match goal with |- _ = _ + rsum (map ?f _) - rsum (map ?g _) => change (rsum (map f (seq 0 k))) with (sumn f k); change (rsum (map g (seq 0 k))) with (sumn g k) end.
    rewrite <- !sumn_plus, sumn_minus. apply sumn_ext. intros j _. unfold q_term, log_beta. ring.
Qed.
Lemma c70_py_max_proof pyd al D s sv l' x x' : py_ok pyd al -> good_mat D -> fit_var (CPY pyd al) D s = (Ok tt, sv) ->
  length l' = length (rows D) -> positive_params l' ->
  weight_bound psi lg (CPY pyd al) sv x -> weight_bound psi lg (CPY pyd al) (with_params l' sv) x' -> x' <= x.
Proof.
  intros (H0 & H1 & Ha) Hg H L Hl W W'. apply Qlt_Rlt in Ha. apply Qle_Rle in H0. apply Qlt_Rlt in H1. rewrite RMicromega.Q2R_0 in *. rewrite Q2R_1 in H1.
  pose proof (py_terms pyd al D (vn s) (fun j => 1 - Q2R pyd + mass D j) (fun j => Q2R al + (1 + INR j) * Q2R pyd + mass_after D j) Hg) as T.
  pose proof (py_terms pyd al D (vn s) (fun j => fst (nth j l' (0, 0))) (fun j => snd (nth j l' (0, 0))) Hg) as T'. cbv zeta in T, T'.
  rewrite py_params in H. injection H as <-. unfold with_params in W'. cbn [vd vk vn] in W'. rewrite <- L in T' at 2. rewrite <- as_fun in T'.
  assert (U : forall s u v, weight_bound psi lg (CPY pyd al) s u -> weight_bound psi lg (CPY pyd al) s v -> u = v).
  { intros s1 u v (d1 & p1 & q1 & A1 & A2 & A3 & ->) (d2 & p2 & q2 & B1 & B2 & B3 & ->). rewrite A1 in B1. rewrite A2 in B2. rewrite A3 in B3. congruence. }
  rewrite (U _ _ _ W T), (U _ _ _ W' T'). apply Rplus_le_compat_r, sumn_le. intros j Hj.
  unfold positive_params in Hl. rewrite Forall_forall in Hl. destruct (Hl (nth j l' (0, 0)) ltac:(apply nth_In; lia)) as [P1 P2].
  pose proof (good_mass D j Hg). pose proof (good_after D j Hg). pose proof (pos_INR j).
  assert (0 < Q2R al + (1 + INR j) * Q2R pyd) by nra.
  pose proof (HK (1 - Q2R pyd + mass D j) (Q2R al + (1 + INR j) * Q2R pyd + mass_after D j) (fst (nth j l' (0, 0))) (snd (nth j l' (0, 0))) ltac:(lra) ltac:(lra) P1 P2) as K.
  unfold mean_log_beta. rewrite (Rplus_comm (snd (nth j l' (0, 0)))). lra.
Qed.
End Max.
Lemma dp_bound_exists psi lg al D s sv : (0 < al)%Q -> good_mat D -> rows D <> [] -> fit_var (CDP al) D s = (Ok tt, sv) ->
  exists x, weight_bound psi lg (CDP al) sv x.
Proof.
  intros Ha Hg Hr H. rewrite dp_params in H. injection H as <-. eexists. apply (dp_terms psi lg al D (vn s) (fun j => 1 + mass D j) (fun j => Q2R al + mass_after D j) Ha Hg Hr).
Qed.

(* a pair of functions satisfying the hypothesis *)
Lemma gibbs2 a b a' b' : 0 < a -> 0 < b -> 0 < a' -> 0 < b' ->
  a * (ln a' - ln (a' + b')) + b * (ln b' - ln (a' + b')) <= a * (ln a - ln (a + b)) + b * (ln b - ln (a + b)).
Proof.
  intros Ha Hb Ha' Hb'. set (s := a + b). set (t := a' + b'). assert (S0 : 0 < s) by (unfold s; lra). assert (T0 : 0 < t) by (unfold t; lra).
  assert (L : forall u u', 0 < u -> 0 < u' -> u * (ln u' - ln t - (ln u - ln s)) <= u' * s / t - u).
  { intros u u' Hu Hu'. assert (E : ln u' - ln t - (ln u - ln s) = ln (u' * s / (t * u))).
    { unfold Rdiv. rewrite ln_mult, ln_mult, ln_Rinv, ln_mult; try lra; try nra; try (apply Rinv_0_lt_compat; nra). }
    rewrite E. assert (Q : 0 < u' * s / (t * u)) by (apply Rdiv_lt_0_compat; nra).
    assert (B : ln (u' * s / (t * u)) <= u' * s / (t * u) - 1).
    { pose proof (exp_ineq1_le (ln (u' * s / (t * u)))) as I. rewrite exp_ln in I by exact Q. lra. }
    apply Rmult_le_compat_l with (r := u) in B; [|lra]. eapply Rle_trans; [exact B|]. apply Req_le. field. lra. }
  pose proof (L a a' Ha Ha') as L1. pose proof (L b b' Hb Hb') as L2.
  assert (Z : a' * s / t + b' * s / t = s) by (unfold t; field; lra). unfold s in *. lra.
Qed.
Lemma divergence_example : beta_divergence_nonneg ln (fun x => x * ln x - x).
Proof. intros a b a' b' Ha Hb Ha' Hb'. pose proof (gibbs2 a b a' b' Ha Hb Ha' Hb'). unfold log_beta. lra. Qed.
