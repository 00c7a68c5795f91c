(* Expected logs, log-densities and unfitted states. *)
From Coq Require Import Reals Qreals Lra.
From Verif Require Import Prelude Numpy Rng M_Weights M_Ext M_Var S_Weights S_Draws S_Var P_Lists P_Var P_Var26 P_Var27 P_Var28.
Open Scope R_scope.

Section Dig.
Variable psi : R -> R.
Hypothesis Hpsi : increasing_pos psi.

Lemma mlb_neg a b : 0 < a -> 0 < b -> mean_log_beta psi a b < 0.
Proof. intros. unfold mean_log_beta. assert (psi a < psi (a + b)) by (apply Hpsi; lra). lra. Qed.

Lemma log_rest_val s k a b : par_fun s k a b -> forall j, (j <= k)%nat ->
  log_rest psi s j = Some (sumn (fun i => mean_log_beta psi (b i) (a i)) j).
Proof.
  intros Hp. induction j as [|j IH]; intros H; [reflexivity|]. cbn [log_rest]. rewrite IH by lia. rewrite (par_at _ _ _ _ _ Hp) by lia. rewrite sumn_S. reflexivity.
Qed.
Lemma sumn_nonpos f n : (forall j, (j < n)%nat -> f j <= 0) -> sumn f n <= 0.
Proof. intros H. induction n as [|n IH]; [unfold sumn; simpl; lra|]. rewrite sumn_S. specialize (IH (fun j Hj => H j ltac:(lia))). specialize (H n ltac:(lia)). lra. Qed.

(* expected log weights computed from sticks *)
Definition xs (a b : nat -> R) (j : nat) : R := sumn (fun i => mean_log_beta psi (b i) (a i)) j + mean_log_beta psi (a j) (b j).
Definition xs_last (a b : nat -> R) (k j : nat) : R :=
  sumn (fun i => mean_log_beta psi (b i) (a i)) j + (if (j <? k - 1)%nat then mean_log_beta psi (a j) (b j) else 0).

Lemma dp_mlw al D s sv j : fit_var (CDP al) D s = (Ok tt, sv) -> (j < length (rows D))%nat ->
  mean_log_w psi (CDP al) j sv = Ok (EF (xs_last (fun j => 1 + mass D j) (fun j => Q2R al + mass_after D j) (length (rows D)) j)).
Proof.
  rewrite dp_params. intros [= <-] Hj. set (sv := VS _ _ _ _). set (k := length (rows D)) in *.
  set (a := fun j => 1 + mass D j). set (b := fun j => Q2R al + mass_after D j).
  assert (Hp : par_fun sv k a b) by reflexivity. cbn [mean_log_w]. change (vd sv) with (Some D). change (vk sv) with (Some (Z.of_nat k)). cbv iota beta.
  destruct (Z.leb_spec (Z.of_nat k) (Z.of_nat j)); [lia|]. rewrite (log_rest_val sv k a b Hp) by lia. rewrite (par_at sv k a b j Hp Hj). unfold xs_last.
  destruct (Z.ltb_spec (Z.of_nat j) (Z.of_nat k - 1)), (Nat.ltb_spec j (k - 1)); try lia; [reflexivity|]. rewrite Rplus_0_r. reflexivity.
Qed.
Lemma py_mlw pyd al D s sv j : fit_var (CPY pyd al) D s = (Ok tt, sv) -> (j < length (rows D))%nat ->
  mean_log_w psi (CPY pyd al) j sv = Ok (EF (xs (fun j => 1 - Q2R pyd + mass D j) (fun j => Q2R al + (1 + INR j) * Q2R pyd + mass_after D j) j)).
Proof.
  rewrite py_params. intros [= <-] Hj. set (sv := VS _ _ _ _). set (k := length (rows D)) in *.
  set (a := fun j => 1 - Q2R pyd + mass D j). set (b := fun j => Q2R al + (1 + INR j) * Q2R pyd + mass_after D j).
  assert (Hp : par_fun sv k a b) by reflexivity. cbn [mean_log_w]. change (vd sv) with (Some D). cbv iota beta.
  rewrite (log_rest_val sv k a b Hp) by lia. rewrite (par_at sv k a b j Hp Hj). reflexivity.
Qed.

Lemma dp_pos al D j : good_mat D -> (0 < al)%Q -> 0 < 1 + mass D j /\ 0 < Q2R al + mass_after D j.
Proof. intros Hg Ha. apply Qlt_Rlt in Ha. rewrite RMicromega.Q2R_0 in Ha. pose proof (good_mass D j Hg); pose proof (good_after D j Hg). lra. Qed.
Lemma py_pos pyd al D j : good_mat D -> py_ok pyd al -> 0 < 1 - Q2R pyd + mass D j /\ 0 < Q2R al + (1 + INR j) * Q2R pyd + mass_after D j.
Proof.
  intros Hg (H0 & H1 & Ha). apply Qlt_Rlt in Ha. apply Qle_Rle in H0. apply Qlt_Rlt in H1. rewrite RMicromega.Q2R_0 in *. rewrite Q2R_1 in H1.
  pose proof (good_mass D j Hg); pose proof (good_after D j Hg). split; [lra|].
  pose proof (pos_INR j). assert (0 <= (1 + INR j) * Q2R pyd) by (apply Rmult_le_pos; lra). lra.
Qed.

(* ---- sign ---- *)
Lemma c31_dp_sign_proof al D s sv j : good_mat D -> (0 < al)%Q -> fit_var (CDP al) D s = (Ok tt, sv) ->
  exists e, mean_log_w psi (CDP al) j sv = Ok e /\ log_prob e /\ ((length (rows D) <= j)%nat <-> e = ENI).
Proof.
  intros Hg Ha H. destruct (Nat.lt_ge_cases j (length (rows D))) as [L|L].
  - rewrite (dp_mlw al D s sv j H L). eexists. split; [reflexivity|]. split; [|split; [lia|discriminate]]. right. eexists. split; [reflexivity|]. unfold xs_last.
    assert (sumn (fun i => mean_log_beta psi (Q2R al + mass_after D i) (1 + mass D i)) j <= 0) by (apply sumn_nonpos; intros i _; destruct (dp_pos al D i Hg Ha); apply Rlt_le, mlb_neg; assumption).
    destruct (j <? length (rows D) - 1)%nat; [|lra]. destruct (dp_pos al D j Hg Ha). pose proof (mlb_neg (1 + mass D j) (Q2R al + mass_after D j)). lra.
  - rewrite dp_params in H. injection H as <-. cbn [mean_log_w vd vk]. destruct (Z.leb_spec (Z.of_nat (length (rows D))) (Z.of_nat j)); [|lia].
    eexists. split; [reflexivity|]. split; [left; reflexivity|tauto].
Qed.
Lemma c31_py_sign_proof pyd al D s sv j : good_mat D -> py_ok pyd al -> fit_var (CPY pyd al) D s = (Ok tt, sv) -> (j < length (rows D))%nat ->
  exists e, mean_log_w psi (CPY pyd al) j sv = Ok e /\ log_prob e.
Proof.
  intros Hg Ha H L. rewrite (py_mlw pyd al D s sv j H L). eexists. split; [reflexivity|]. right. eexists. split; [reflexivity|]. unfold xs.
  match goal with |- ?a + _ <= 0 => assert (a <= 0) by (apply sumn_nonpos; intros i _; destruct (py_pos pyd al D i Hg Ha); apply Rlt_le, mlb_neg; assumption) end.
  destruct (py_pos pyd al D j Hg Ha) as [P Q]. pose proof (mlb_neg _ _ P Q). lra.
Qed.
Lemma geom_mlw a b D s sv x y j : fit_var (CGeom a b) D s = (Ok tt, sv) -> vpar sv = PPair x y ->
  mean_log_w psi (CGeom a b) j sv = Ok (EF (mean_log_beta psi x y + INR j * mean_log_beta psi y x)).
Proof.
  intros H Hv. destruct (rows D) as [|r t] eqn:E; [unfold fit_var in H; rewrite E in H; discriminate|].
  rewrite geom_params in H by congruence. injection H as <-. cbn [vpar] in Hv. injection Hv as Hx Hy. cbn [mean_log_w vd vpar]. rewrite Hx, Hy.
  destruct (Nat.eqb_spec j 0) as [->|N]; do 2 f_equal; simpl; ring.
Qed.
Lemma geom_fit_pos a b D s sv x y : good_mat D -> (0 < a)%Q -> (0 < b)%Q -> fit_var (CGeom a b) D s = (Ok tt, sv) -> vpar sv = PPair x y -> 0 < x /\ 0 < y.
Proof.
  intros Hg Ha Hb H Hv. destruct (rows D) as [|r t] eqn:E; [unfold fit_var in H; rewrite E in H; discriminate|].
  rewrite geom_params in H by congruence. injection H as <-. cbn [vpar] in Hv. injection Hv as <- <-. apply geom_pos; assumption.
Qed.
Lemma c31_geom_sign_proof a b D s sv x y j : good_mat D -> (0 < a)%Q -> (0 < b)%Q -> fit_var (CGeom a b) D s = (Ok tt, sv) -> vpar sv = PPair x y ->
  exists e, mean_log_w psi (CGeom a b) j sv = Ok e /\ log_prob e.
Proof.
  intros Hg Ha Hb H Hv. destruct (geom_fit_pos a b D s sv x y Hg Ha Hb H Hv) as [P Q]. rewrite (geom_mlw a b D s sv x y j H Hv). eexists. split; [reflexivity|]. right. eexists. split; [reflexivity|].
  pose proof (mlb_neg _ _ P Q). pose proof (mlb_neg _ _ Q P). pose proof (pos_INR j). nra.
Qed.

(* Dirichlet: the value and the right one *)
Definition dir_par (al : list Q) (D : mat) (j : nat) : R := Q2R (nth j al 0%Q) + mass D j.
Lemma dir_sum al D : rsum (map (fun j => Q2R (nth j al 0%Q) + mass D j) (seq 0 (length al))) = sumn (dir_par al D) (length al).
Proof. reflexivity. Qed.
Lemma dir_pos al D j : good_mat D -> Forall (fun x => (0 < x)%Q) al -> (j < length al)%nat -> 0 < dir_par al D j.
Proof. intros Hg Ha L. unfold dir_par. pose proof (good_mass D j Hg). pose proof (Forall_nth_pos al j Ha L). lra. Qed.
Lemma dir_total_pos al D j : good_mat D -> Forall (fun x => (0 < x)%Q) al -> (j < length al)%nat -> dir_par al D j <= sumn (dir_par al D) (length al).
Proof.
  intros Hg Ha. assert (P : forall m, (m <= length al)%nat -> (j < m)%nat -> 0 <= sumn (dir_par al D) m /\ dir_par al D j <= sumn (dir_par al D) m).
  { induction m as [|m IH]; intros L J; [lia|]. rewrite sumn_S. pose proof (dir_pos al D m Hg Ha ltac:(lia)).
    destruct (Nat.eq_dec j m) as [->|N]; [|destruct (IH ltac:(lia) ltac:(lia)); lra].
    assert (0 <= sumn (dir_par al D) m); [|lra]. unfold sumn. apply rsum_nonneg, Forall_map, Forall_forall. intros i Hi. apply in_seq in Hi. apply Rlt_le, dir_pos; [assumption|assumption|lia]. }
  intros J. apply P; [lia|exact J].
Qed.
Lemma dir_mlw al D s sv j : length al = length (rows D) -> let n := Z.of_nat (length al) in fit_var (CDirDist n al) D s = (Ok tt, sv) -> (j < length al)%nat ->
  mean_log_w psi (CDirDist n al) j sv = Ok (EF (mean_log_beta psi (dir_par al D j) (sumn (dir_par al D) (length al)))).
Proof.
  intros L n H J. rewrite dir_params in H by (unfold n; congruence). injection H as <-. cbn [mean_log_w vd vpar].
  rewrite nth_error_map, nth_error_nth' with (d := 0%nat) by (rewrite seq_length; exact J). rewrite seq_nth by exact J. cbn [option_map opt_res plus]. reflexivity.
Qed.
Lemma c31_dir_low_proof al D s sv j : good_mat D -> Forall (fun x => (0 < x)%Q) al -> length al = length (rows D) ->
  let n := Z.of_nat (length al) in fit_var (CDirDist n al) D s = (Ok tt, sv) -> (j < length al)%nat ->
  exists x, mean_log_w psi (CDirDist n al) j sv = Ok (EF x) /\ x < 0 /\ x < psi (dir_par al D j) - psi (sumn (dir_par al D) (length al)).
Proof.
  intros Hg Ha L n H J. unfold n. rewrite (dir_mlw al D s sv j L H J). eexists. split; [reflexivity|].
  pose proof (dir_pos al D j Hg Ha J). pose proof (dir_total_pos al D j Hg Ha J). split; [apply mlb_neg; lra|].
  unfold mean_log_beta. match goal with |- _ - psi ?u < _ - psi ?v => assert (psi v < psi u) by (apply Hpsi; lra) end. lra.
Qed.

(* ---- expected log-likelihood of the labels ---- *)
Lemma weigh_val f x l : forall j acc, (forall i, (i < length l)%nat -> f (j + i)%nat = Ok (EF (x (j + i)%nat))) ->
  weigh_logs f j l (EF acc) = Ok (EF (acc + sumn (fun i => nth i l 0 * x (j + i)%nat) (length l))).
Proof.
  induction l as [|n t IH]; intros j acc H; cbn [weigh_logs]; [unfold sumn; simpl; rewrite Rplus_0_r; reflexivity|].
  pose proof (H 0%nat ltac:(simpl; lia)) as H0. rewrite Nat.add_0_r in H0. rewrite H0. cbn [ext_scale ext_add]. rewrite IH.
  - do 2 f_equal. unfold sumn. cbn [length seq map]. rewrite rsum_cons, <- seq_shift, map_map. cbn [nth]. rewrite Nat.add_0_r, Rplus_assoc. do 2 f_equal. f_equal.
    apply map_ext. intros i. rewrite Nat.add_succ_r. reflexivity.
  - intros i Hi. specialize (H (S i)). rewrite Nat.add_succ_r in H. apply H. simpl. lia.
Qed.
Lemma sumn_plus f g n : sumn (fun j => f j + g j) n = sumn f n + sumn g n.
Proof. unfold sumn. apply rsum_map_plus. Qed.
Lemma sumn_minus f g n : sumn f n - sumn g n = sumn (fun j => f j - g j) n.
Proof. induction n as [|n IH]; [unfold sumn; simpl; ring|]. rewrite !sumn_S, <- IH. ring. Qed.
Lemma sumn_exchange f n m : sumn (fun i => sumn (fun j => f i j) m) n = sumn (fun j => sumn (fun i => f i j) n) m.
Proof.
  induction n as [|n IH].
  - symmetry. rewrite (sumn_ext _ (fun _ => 0) m) by (intros; reflexivity). rewrite sumn_const. unfold sumn. simpl. ring.
  - rewrite sumn_S, IH. rewrite (sumn_ext (fun j => sumn (fun i => f i j) (S n)) (fun j => sumn (fun i => f i j) n + f n j)) by (intros j _; apply (sumn_S (fun i => f i j) n)).
    rewrite sumn_plus. reflexivity.
Qed.
Lemma expected_mass D x : good_mat D -> expected_log D x = sumn (fun j => mass D j * x j) (length (rows D)).
Proof.
  intros Hg. unfold expected_log. rewrite sumn_exchange. apply sumn_ext. intros j Hj.
  rewrite (sumn_ext _ (fun i => x j * nth i (nth j (rows D) []) 0)) by (intros; ring). rewrite sumn_scale, Rmult_comm. f_equal.
  unfold mass. unfold good_mat in Hg. rewrite Forall_forall in Hg. destruct (Hg (nth j (rows D) []) (nth_In _ _ Hj)) as [L _]. rewrite <- L.
  pose proof (sumn_rsum (fun z => z) (nth j (rows D) []) 0) as E. rewrite map_id in E. symmetry. exact E.
Qed.
Lemma weigh_mass D f x : good_mat D -> (forall j, (j < length (rows D))%nat -> f j = Ok (EF (x j))) ->
  weigh_logs f 0 (row_sums D) (EF 0) = Ok (EF (expected_log D x)).
Proof.
  intros Hg Hf. rewrite (weigh_val f x) by (unfold row_sums; rewrite map_length; exact Hf). rewrite Rplus_0_l, expected_mass by exact Hg. do 2 f_equal.
  unfold row_sums. rewrite map_length. apply sumn_ext. intros j Hj. cbn [plus]. rewrite (map_nth rsum _ []). reflexivity.
Qed.
Lemma c31_pd_proof c D s sv x : good_mat D -> (exists al, c = CDP al) \/ (exists pyd al, c = CPY pyd al) \/ (exists n al, c = CDirDist n al) ->
  fit_var c D s = (Ok tt, sv) -> (forall j, (j < length (rows D))%nat -> mean_log_w psi c j sv = Ok (EF (x j))) ->
  mean_log_pd psi c None sv = (Ok (EF (expected_log D x)), sv).
Proof.
  intros Hg Hc H Hx.
  assert (Hd : vd sv = Some D).
  { destruct Hc as [(al & ->)|[(pyd & al & ->)|(n & al & ->)]]; cbn [fit_var] in H; [injection H as <-; reflexivity|injection H as <-; reflexivity|].
    destruct (_ =? n)%Z; [|discriminate]. destruct (radd2 _ _); [|discriminate]. injection H as <-. reflexivity. }
  unfold mean_log_pd. rewrite Hd.
  destruct Hc as [(al & ->)|[(pyd & al & ->)|(n & al & ->)]]; rewrite (weigh_mass D _ x Hg Hx); reflexivity.
Qed.
(* geometric: the factor j is missing *)
Lemma fold_add c l : forall a, fold_left (fun r n => r + n * c) l a = a + rsum l * c.
Proof. induction l as [|n t IH]; intros a; simpl; [ring|]. rewrite IH. unfold rsum. ring. Qed.
Lemma mass_total D : good_mat D -> stochastic D -> sumn (mass D) (length (rows D)) = INR (cols D).
Proof.
  intros Hg Hs. pose proof (expected_mass D (fun _ => 1) Hg) as E. rewrite (sumn_ext _ (mass D)) in E by (intros; ring). rewrite <- E. unfold expected_log.
  rewrite (sumn_ext _ (fun _ => 1)); [rewrite sumn_const; ring|]. intros i Hi.
  transitivity (rsum (map (fun r => nth i r 0) (rows D))); [|exact (Hs i Hi)]. rewrite (sumn_rsum (fun r => nth i r 0) (rows D) []).
  apply sumn_ext. intros; apply Rmult_1_r.
Qed.
Lemma c31_geom_pd_proof a b D s sv x y : good_mat D -> stochastic D -> fit_var (CGeom a b) D s = (Ok tt, sv) -> vpar sv = PPair x y ->
  let lp := mean_log_beta psi x y in let lq := mean_log_beta psi y x in
  (forall j, mean_log_w psi (CGeom a b) j sv = Ok (EF (lp + INR j * lq))) /\
  mean_log_pd psi (CGeom a b) None sv = (Ok (EF (expected_log D (fun j => lp + lq))), sv).
Proof.
  intros Hg Hs H Hv lp lq. split; [intros j; apply (geom_mlw a b D s sv x y j H Hv)|].
  assert (Hd : vd sv = Some D /\ rows D <> []).
  { cbn [fit_var] in H. destruct (rows D); [discriminate|]. injection H as <-. split; [reflexivity|discriminate]. }
  destruct Hd as [Hd Hr]. unfold mean_log_pd. rewrite Hd, Hv. destruct (rows D) as [|r t] eqn:E; [congruence|]. do 2 f_equal. rewrite fold_add. fold lp lq.
  rewrite expected_mass by exact Hg. rewrite (sumn_ext _ (fun j => (lp + lq) * mass D j)) by (intros; ring). rewrite sumn_scale. rewrite mass_total by assumption.
  replace (rsum (row_sums D)) with (sumn (mass D) (length (rows D))) by (unfold row_sums; rewrite rows_seq; reflexivity). rewrite mass_total by assumption. f_equal. ring.
Qed.
(* equal weights: the sign is wrong *)
Lemma equal_log k : (0 < k)%nat -> ln (1 / IZR (Z.of_nat k)) = - ln (INR k).
Proof. intros H. rewrite <- INR_IZR_INZ. unfold Rdiv. rewrite Rmult_1_l. apply ln_Rinv. apply lt_0_INR. exact H. Qed.
Lemma equal_mlw D s sv j : fit_var CEqual D s = (Ok tt, sv) -> rows D <> [] ->
  mean_log_w psi CEqual j sv = Ok (EF (if (j <? length (rows D))%nat then - ln (INR (length (rows D))) else 0)).
Proof.
  intros [= <-] Hr. assert (Hk : (0 < length (rows D))%nat) by (destruct (rows D); [congruence|simpl; lia]). cbn [mean_log_w vn].
  destruct (Z.eqb_spec (Z.of_nat (length (rows D))) 0); [lia|]. cbn [ext_log].
  assert (P : 0 < 1 / IZR (Z.of_nat (length (rows D)))) by (rewrite <- INR_IZR_INZ; apply Rdiv_lt_0_compat; [lra|apply lt_0_INR; exact Hk]).
  apply rltb_true in P. rewrite P, equal_log by exact Hk. cbn [ext_scale].
  destruct (Z.ltb_spec (Z.of_nat j) (Z.of_nat (length (rows D)))), (Nat.ltb_spec j (length (rows D))); try lia; do 2 f_equal; ring.
Qed.
Lemma c31_equal_pd_proof D s sv : good_mat D -> stochastic D -> rows D <> [] -> fit_var CEqual D s = (Ok tt, sv) ->
  exists x, (forall j, (j < length (rows D))%nat -> mean_log_w psi CEqual j sv = Ok (EF (x j))) /\
    mean_log_pd psi CEqual None sv = (Ok (EF (- expected_log D x)), sv) /\
    ((2 <= length (rows D))%nat -> (1 <= cols D)%nat -> 0 < - expected_log D x).
Proof.
  intros Hg Hs Hr H. exists (fun _ => - ln (INR (length (rows D)))).
  assert (Hk : (0 < length (rows D))%nat) by (destruct (rows D); [congruence|simpl; lia]).
  assert (X : - expected_log D (fun _ => - ln (INR (length (rows D)))) = INR (cols D) * ln (INR (length (rows D)))).
  { rewrite expected_mass by exact Hg. rewrite (sumn_ext _ (fun j => - ln (INR (length (rows D))) * mass D j)) by (intros; ring). rewrite sumn_scale, mass_total by assumption. ring. }
  split; [|split].
  - intros j Hj. rewrite (equal_mlw D s sv j H Hr). destruct (Nat.ltb_spec j (length (rows D))); [reflexivity|lia].
  - rewrite X. injection H as <-. unfold mean_log_pd. cbn [vd vn]. cbn [ext_log]. assert (P : 0 < IZR (Z.of_nat (length (rows D)))) by (rewrite <- INR_IZR_INZ; apply lt_0_INR; exact Hk).
    apply rltb_true in P. rewrite P, <- INR_IZR_INZ. reflexivity.
  - intros L C. rewrite X. apply Rmult_lt_0_compat; [apply lt_0_INR; lia|]. rewrite <- ln_1. apply ln_increasing; [lra|]. change 1 with (INR 1). apply lt_INR. lia.
Qed.
(* frequencies: not a logarithm *)
Lemma c31_freq_proof n D s sv j : good_mat D -> (0 < cols D)%nat -> fit_var (CFreq n) D s = (Ok tt, sv) ->
  (j < length (rows D))%nat -> (j < cols D)%nat -> 0 < mass D j ->
  mean_log_w psi (CFreq n) j sv = mean_w (CFreq n) j sv /\
  exists x, mean_log_w psi (CFreq n) j sv = Ok (EF x) /\ 0 < x.
Proof.
  intros Hg Hc H L1 L2 M. rewrite freq_fit in H by exact Hc. injection H as <-. cbn [mean_log_w mean_w vd vk].
  destruct (Z.leb_spec (Z.of_nat (cols D)) (Z.of_nat j)); [lia|]. destruct (Nat.eqb_spec (cols D) 0); [lia|]. split; [reflexivity|].
  rewrite freq_row by exact L1. cbn [option_map opt_res].
  assert (T : mass D j <= mat_sum D).
  { unfold mat_sum, row_sums. rewrite rows_seq. clear - Hg L1. assert (P : forall m, (j < m)%nat -> 0 <= sumn (mass D) m /\ mass D j <= sumn (mass D) m).
    { induction m as [|m IH]; intros J; [lia|]. rewrite sumn_S. pose proof (good_mass D m Hg). destruct (Nat.eq_dec j m) as [->|N]; [|destruct (IH ltac:(lia)); lra].
      assert (0 <= sumn (mass D) m) by (unfold sumn; apply rsum_nonneg, Forall_map, Forall_forall; intros; apply good_mass; exact Hg). lra. }
    apply P. exact L1. }
  rewrite ext_div_pos by lra. eexists. split; [reflexivity|]. apply Rdiv_lt_0_compat; lra.
Qed.
End Dig.

(* ---- C32 ---- *)
Lemma c32_logs_proof psi lg c n j : has_variational c -> c <> CEqual ->
  let s := vs_init n in
  mean_log_w psi c j s = Err NotFittedError /\ mean_log_pd psi c None s = (Err NotFittedError, s) /\
  mean_log_p psi lg c s = Err NotFittedError /\ mean_log_q psi lg c s = Err NotFittedError /\
  mean_w c j s = Err TypeError /\ mode_w c j s = Err TypeError.
Proof. intros Hc Hn. destruct c; try contradiction; try congruence; repeat split. Qed.
Lemma c32_equal_proof psi lg n j : (n <> 0)%Z ->
  let s := vs_init n in
  is_ok (mean_log_w psi CEqual j s) = true /\ mean_log_pd psi CEqual None s = (Err NotFittedError, s) /\
  mean_log_p psi lg CEqual s = Ok (EF 0) /\ mean_log_q psi lg CEqual s = Ok (EF 0) /\
  is_ok (mean_w CEqual j s) = true /\ is_ok (mode_w CEqual j s) = true.
Proof. intros H. unfold mean_log_w, mean_w, mode_w, vs_init, vn. destruct (Z.eqb_spec n 0); [contradiction|]. repeat split. Qed.
Lemma c32_none_proof psi lg c D arg s j : ~ has_variational c ->
  fit_var c D s = (Err NotImplementedError, s) /\ mean_log_w psi c j s = Err NotImplementedError /\
  mean_log_pd psi c arg s = (Err NotImplementedError, s) /\ mean_log_p psi lg c s = Err NotImplementedError /\
  mean_log_q psi lg c s = Err NotImplementedError /\ mean_w c j s = Err NotImplementedError /\ mode_w c j s = Err NotImplementedError.
Proof. intros H. destruct c; try (exfalso; apply H; exact I); repeat split. Qed.

(* ---- C61 ---- *)
Section Gam.
Variables psi lg : R -> R.
Hypothesis Hlg : log_gamma_like lg.
Notation mlb := (mean_log_beta psi).

Lemma removelast_map_seq {A} (f : nat -> A) k : removelast (map f (seq 0 k)) = map f (seq 0 (k - 1)).
Proof.
  destruct k as [|n]; [reflexivity|]. rewrite seq_S, map_app. cbn [map]. rewrite removelast_last. replace (S n - 1)%nat with n by lia. reflexivity.
Qed.
Lemma q_term_spec a b : q_term psi lg (a, b) = beta_log_density lg a b (mlb a b) (mlb b a).
Proof. unfold q_term, beta_log_density. ring. Qed.
Lemma c61_dp_proof al D s sv : (0 < al)%Q -> rows D <> [] -> fit_var (CDP al) D s = (Ok tt, sv) ->
  let a := fun j => 1 + mass D j in let b := fun j => Q2R al + mass_after D j in let k := length (rows D) in
  mean_log_q psi lg (CDP al) sv = Ok (EF (sumn (fun j => beta_log_density lg (a j) (b j) (mlb (a j) (b j)) (mlb (b j) (a j))) (k - 1))) /\
  mean_log_p psi lg (CDP al) sv = Ok (EF (sumn (fun j => beta_log_density lg 1 (Q2R al) (mlb (a j) (b j)) (mlb (b j) (a j))) (k - 1) + ln (Q2R al))).
Proof.
  intros Ha Hr H a b k. apply Qlt_Rlt in Ha. rewrite RMicromega.Q2R_0 in Ha. assert (Hk : (0 < k)%nat) by (unfold k; destruct (rows D); [congruence|simpl; lia]).
  rewrite dp_params in H. injection H as <-. cbn [mean_log_q mean_log_p vd vpar vk]. fold k. rewrite removelast_map_seq, !map_map. split.
  - do 2 f_equal. unfold sumn. f_equal. apply map_ext. intros j. apply q_term_spec.
  - cbn [ext_log]. pose proof Ha as P. apply rltb_true in P. rewrite P. cbn [ext_scale ext_add]. do 2 f_equal. cbn [fst snd].
    destruct Hlg as [G1 G2]. unfold beta_log_density.
    rewrite (sumn_ext _ (fun j => (Q2R al - 1) * mlb (b j) (a j) + ln (Q2R al))).
    + unfold sumn. rewrite rsum_map_plus, rsum_map_scale. fold (sumn (fun _ : nat => ln (Q2R al)) (k - 1)). rewrite sumn_const, minus_INR, <- INR_IZR_INZ by lia.
      fold (sumn (fun j => mlb (b j) (a j)) (k - 1)). fold a b. simpl (INR 1). change (rsum (map (fun x => mlb (Q2R al + mass_after D x) (1 + mass D x)) (seq 0 (k - 1)))) with (sumn (fun j => mlb (b j) (a j)) (k - 1)). ring.
    + intros j _. rewrite G1. replace (1 + Q2R al) with (Q2R al + 1) by ring. rewrite G2 by exact Ha. ring.
Qed.
Lemma combine_seq_map {A} (f : nat -> A) k : combine (seq 0 k) (map f (seq 0 k)) = map (fun j => (j, f j)) (seq 0 k).
Proof. rewrite <- (map_id (seq 0 k)) at 1. rewrite combine_map. reflexivity. Qed.
Lemma c61_py_proof pyd al D s sv : py_ok pyd al -> fit_var (CPY pyd al) D s = (Ok tt, sv) ->
  let a := fun j => 1 - Q2R pyd + mass D j in let b := fun j => Q2R al + (1 + INR j) * Q2R pyd + mass_after D j in let k := length (rows D) in
  let b0 := fun j => Q2R al + (1 + INR j) * Q2R pyd in
  mean_log_q psi lg (CPY pyd al) sv = Ok (EF (sumn (fun j => beta_log_density lg (a j) (b j) (mlb (a j) (b j)) (mlb (b j) (a j))) k)) /\
  mean_log_p psi lg (CPY pyd al) sv =
    Ok (EF (sumn (fun j => beta_log_density lg (1 - Q2R pyd) (b0 j) (mlb (a j) (b j)) (mlb (b j) (a j))) k - sumn (fun j => ln (b0 j)) k)).
Proof.
  intros (H0 & H1 & Ha) H a b k b0. apply Qlt_Rlt in Ha. apply Qle_Rle in H0. apply Qlt_Rlt in H1. rewrite RMicromega.Q2R_0 in *. rewrite Q2R_1 in H1.
  rewrite py_params in H. injection H as <-. cbn [mean_log_q mean_log_p vd vpar vk]. fold k. rewrite map_length, seq_length, combine_seq_map, !map_map. split.
  - do 2 f_equal. unfold sumn. f_equal. apply map_ext. intros j. apply q_term_spec.
  - do 2 f_equal. rewrite sumn_minus. unfold sumn. f_equal. apply map_ext. intros j.
    destruct Hlg as [G1 G2]. unfold beta_log_density. fold a b. fold (b0 j).
    assert (B : 0 < b0 j) by (unfold b0; pose proof (pos_INR j); assert (0 <= (1 + INR j) * Q2R pyd) by (apply Rmult_le_pos; lra); lra).
    replace (Q2R al + (INR j + 1) * Q2R pyd + 1) with (b0 j + 1) by (unfold b0; ring). rewrite (G2 (b0 j)) by exact B.
    replace (1 - Q2R pyd + b0 j) with (Q2R al + INR j * Q2R pyd + 1) by (unfold b0; ring). unfold b0, a, b. ring.
Qed.
Lemma c61_geom_proof a b D s sv x y : fit_var (CGeom a b) D s = (Ok tt, sv) -> vpar sv = PPair x y ->
  mean_log_q psi lg (CGeom a b) sv = Ok (EF (beta_log_density lg x y (mlb x y) (mlb y x))) /\
  mean_log_p psi lg (CGeom a b) sv = Ok (EF (beta_log_density lg (Q2R a) (Q2R b) (mlb x y) (mlb y x))).
Proof.
  intros H Hv. assert (Hd : vd sv = Some D) by (cbn [fit_var] in H; destruct (rows D); [discriminate|injection H as <-; reflexivity]).
  unfold mean_log_q, mean_log_p. rewrite Hd, Hv. split; do 2 f_equal; [apply q_term_spec|]. unfold beta_log_density. ring.
Qed.
Lemma c61_dir_proof al D s sv : length al = length (rows D) -> let n := Z.of_nat (length al) in
  fit_var (CDirDist n al) D s = (Ok tt, sv) ->
  exists l e, vpar sv = PDir l /\ (forall j, (j < length al)%nat -> mean_log_w psi (CDirDist n al) j sv = Ok (EF (e j))) /\
    mean_log_q psi lg (CDirDist n al) sv = Ok (EF (dirichlet_log_density lg l e)) /\
    mean_log_p psi lg (CDirDist n al) sv =
      Ok (EF (dirichlet_log_density lg (map Q2R al) e + sumn (fun j => (rsum (map Q2R al) - Q2R (nth j al 0%Q)) * e j) (length al))).
Proof.
  intros L n H. set (l := map (dir_par al D) (seq 0 (length al))). set (e := fun j => mlb (dir_par al D j) (sumn (dir_par al D) (length al))).
  exists l, e. assert (Hl : length l = length al) by (unfold l; rewrite map_length, seq_length; reflexivity).
  pose proof H as H'. rewrite dir_params in H' by (unfold n; congruence).
  split; [injection H' as <-; reflexivity|]. split; [intros j J; apply dir_mlw with (D := D) (s := s); assumption|].
  injection H' as <-. cbn [mean_log_q mean_log_p vd vpar]. fold l. change (map (fun j => Q2R (nth j al 0%Q) + mass D j) (seq 0 (length al))) with l. rewrite Hl.
  unfold n. rewrite Z.leb_refl, Nat2Z.id. rewrite <- Hl, firstn_all. change (rsum l) with (sumn (dir_par al D) (length al)).
  unfold dirichlet_log_density, log_norm. rewrite Hl.
  assert (Hn : forall j, (j < length al)%nat -> nth j l 0 = dir_par al D j).
  { intros j J. unfold l. rewrite (nth_indep _ 0 (dir_par al D 0)) by (rewrite map_length, seq_length; exact J). rewrite map_nth, seq_nth by exact J. reflexivity. }
  split; do 2 f_equal.
  - rewrite (sumn_rsum (fun a => (a - 1) * mlb a (sumn (dir_par al D) (length al))) l 0), Hl. change (rsum l) with (sumn (dir_par al D) (length al)). unfold Rminus. rewrite <- Rplus_assoc. f_equal. f_equal. apply sumn_ext. intros j J. rewrite Hn by exact J. reflexivity.
  - rewrite (sumn_rsum (fun a => mlb a (sumn (dir_par al D) (length al))) l 0), Hl. rewrite map_length.
    rewrite (sumn_ext (fun j => mlb (nth j l 0) (sumn (dir_par al D) (length al))) e) by (intros j J; rewrite Hn by exact J; reflexivity).
    rewrite (sumn_ext (fun j => (nth j (map Q2R al) 0 - 1) * e j) (fun j => (Q2R (nth j al 0%Q) - 1) * e j)) by (intros j J; rewrite <- RMicromega.Q2R_0, map_nth; reflexivity).
    match goal with |- ?N + ?S * (?A - 1) = ?X + ?lgA - ?sl + ?Y => enough (E : S * (A - 1) = X + Y) by (rewrite E; ring) end.
    unfold sumn. rewrite <- rsum_map_plus. rewrite Rmult_comm, <- rsum_map_scale. f_equal. apply map_ext. intros j. ring.
Qed.
End Gam.

(* a function with the recurrence of log-gamma exists *)
Definition lgf (x : R) : R :=
  if Rlt_dec x 1 then - ln x else rsum (map (fun i => ln (x - INR i)) (seq 1 (Z.to_nat (up x - 2)))).
Lemma up_S x : up (x + 1) = (up x + 1)%Z.
Proof. symmetry. destruct (archimed x) as [A B]. apply tech_up; rewrite plus_IZR; lra. Qed.
Lemma log_gamma_exists : exists f, log_gamma_like f.
Proof.
  assert (U1 : up 1 = 2%Z) by (symmetry; apply tech_up; lra).
  exists lgf. split.
  - unfold lgf. destruct (Rlt_dec 1 1); [lra|]. rewrite U1. reflexivity.
  - intros x Hx. unfold lgf. destruct (Rlt_dec (x + 1) 1); [lra|]. destruct (archimed x) as [A B]. rewrite up_S. destruct (Rlt_dec x 1) as [L|L].
    + replace (up x) with 1%Z by (apply tech_up; lra). simpl. unfold rsum; simpl. ring.
    + assert (2 <= up x)%Z by (assert (1 < up x)%Z by (apply lt_IZR; lra); lia).
      replace (Z.to_nat (up x + 1 - 2)) with (S (Z.to_nat (up x - 2))) by lia. cbn [seq map]. rewrite rsum_cons. f_equal; [f_equal; simpl; lra|].
      rewrite <- seq_shift, map_map. f_equal. apply map_ext. intros i. rewrite S_INR. f_equal. ring.
Qed.

(* a concrete matrix *)
Definition d3 : mat := one_hot 2 [0%nat; 1%nat; 0%nat].
Lemma d3_good : good_mat d3.
Proof. repeat (constructor; [split; [reflexivity|repeat (constructor; [cbn; lra|]); constructor]|]); constructor. Qed.
Lemma d3_stoch : stochastic d3.
Proof. intros [|[|[|i]]] H; cbn in H; try lia; cbn; lra. Qed.
