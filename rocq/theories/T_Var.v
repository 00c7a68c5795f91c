(* Variational half of the weight models: theorems. *)
From Coq Require Import Reals Qreals Lra.
From Verif Require Import Prelude Numpy Rng M_Weights M_Ext M_Var S_Weights S_Draws S_Var P_Var26 P_Var27 P_Var28 P_Var30 P_Var31.
Open Scope R_scope.

(* ---- C26 ---- *)

Theorem c26_dp_agrees :
  forall al o s g k sv,
  d s <> [] -> (0 < al)%Q -> (list_max (d s) < k)%nat ->
  exists l sv', fit_var (CDP al) (one_hot k (d s)) sv = (Ok tt, sv') /\ vpar sv' = PBeta l /\
  ends_with (wm_random (CDP al) (SInt (Z.of_nat k)) o s g) (fun r s' g' =>
    r = Ok (w s') /\ exists rs, g' = g ++ rs /\ Forall2 beta_is rs l).
Proof. exact c26_dp_proof. Qed.
Print Assumptions c26_dp_agrees.

Theorem c26_dirichlet_agrees :
  forall al o s g sv,
  d s <> [] -> Forall (fun x => (0 < x)%Q) al -> (list_max (d s) < length al)%nat ->
  let n := Z.of_nat (length al) in
  exists l sv', fit_var (CDirDist n al) (one_hot (length al) (d s)) sv = (Ok tt, sv') /\ vpar sv' = PDir l /\
  ends_with (wm_random (CDirDist n al) SNone o s g) (fun r s' g' =>
    r = Ok (w s') /\ exists q, g' = g ++ [RDirichlet q] /\ map Q2R q = l).
Proof. exact c26_dir_proof. Qed.
Print Assumptions c26_dirichlet_agrees.

(* Pitman-Yor: the Gibbs parameter is smaller by pyd *)
Theorem c26_py_larger :
  forall pyd al o s g k sv,
  d s <> [] -> py_ok pyd al -> (list_max (d s) < k)%nat ->
  exists l sv', fit_var (CPY pyd al) (one_hot k (d s)) sv = (Ok tt, sv') /\ vpar sv' = PBeta l /\
  ends_with (wm_random (CPY pyd al) (SInt (Z.of_nat k)) o s g) (fun r s' g' =>
    r = Ok (w s') /\ exists rs, g' = g ++ rs /\ Forall2 (fun rq ab => beta_is rq (fst ab, snd ab - Q2R pyd)) rs l).
Proof. exact c26_py_proof. Qed.
Print Assumptions c26_py_larger.

(* geometric: the Gibbs parameter is larger by 1 *)
Theorem c26_geometric_smaller :
  forall a b o s g k sv,
  d s <> [] -> (0 < a)%Q -> (0 < b)%Q -> (list_max (d s) < k)%nat ->
  exists x y sv', fit_var (CGeom a b) (one_hot k (d s)) sv = (Ok tt, sv') /\ vpar sv' = PPair x y /\
  ends_with (wm_random (CGeom a b) SNone o s g) (fun r s' g' =>
    r = Ok (w s') /\ exists rq, g' = g ++ [rq] /\ beta_is rq (x + 1, y)).
Proof. exact c26_geom_proof. Qed.
Print Assumptions c26_geometric_smaller.

Example c26_nontrivial : let s := set_d [0; 1; 0]%nat (ws_init 0 0) in
  d s <> [] /\ py_ok (1 # 2) 1 /\ (list_max (d s) < 2)%nat /\ Forall (fun x => (0 < x)%Q) [1%Q; 2%Q].
Proof. split; [discriminate|]. split; [repeat split; discriminate|]. split; [cbn; lia|repeat constructor]. Qed.

(* ---- C27 ---- *)

Theorem c27_dp_mean_sums_to_1 :
  forall al D s,
  good_mat D -> rows D <> [] -> (0 < al)%Q ->
  exists sv x, fit_var (CDP al) D s = (Ok tt, sv) /\
    (forall j, (j < length (rows D))%nat -> mean_w (CDP al) j sv = Ok (EF (x j)) /\ 0 <= x j) /\
    sumn x (length (rows D)) = 1.
Proof. exact c27_dp_proof. Qed.
Print Assumptions c27_dp_mean_sums_to_1.

Theorem c27_dirichlet_mean_sums_to_1 :
  forall al D s,
  good_mat D -> rows D <> [] -> Forall (fun x => (0 < x)%Q) al -> length al = length (rows D) ->
  let n := Z.of_nat (length al) in
  exists sv x, fit_var (CDirDist n al) D s = (Ok tt, sv) /\
    (forall j, (j < length (rows D))%nat -> mean_w (CDirDist n al) j sv = Ok (EF (x j)) /\ 0 <= x j) /\
    sumn x (length (rows D)) = 1.
Proof. exact c27_dir_proof. Qed.
Print Assumptions c27_dirichlet_mean_sums_to_1.

Theorem c27_equal_mean_sums_to_1 :
  forall D s,
  rows D <> [] -> exists sv x, fit_var CEqual D s = (Ok tt, sv) /\
    (forall j, (j < length (rows D))%nat -> mean_w CEqual j sv = Ok (EF (x j)) /\ 0 <= x j) /\
    sumn x (length (rows D)) = 1.
Proof. exact c27_equal_proof. Qed.
Print Assumptions c27_equal_mean_sums_to_1.

Theorem c27_frequency_mean_sums_to_1 :
  forall n D s,
  good_mat D -> (0 < cols D)%nat -> (length (rows D) <= cols D)%nat -> 0 < mat_sum D ->
  exists sv x, fit_var (CFreq n) D s = (Ok tt, sv) /\
    (forall j, (j < length (rows D))%nat -> mean_w (CFreq n) j sv = Ok (EF (x j)) /\ 0 <= x j) /\
    sumn x (length (rows D)) = 1.
Proof. exact c27_freq_proof. Qed.
Print Assumptions c27_frequency_mean_sums_to_1.

Theorem c27_frequency_fewer_observations :
  forall n D s,
  good_mat D -> (0 < cols D)%nat -> (cols D < length (rows D))%nat -> 0 < mat_sum D ->
  exists sv x, fit_var (CFreq n) D s = (Ok tt, sv) /\
    (forall j, (j < length (rows D))%nat -> mean_w (CFreq n) j sv = Ok (EF (x j))) /\
    sumn x (length (rows D)) = sumn (mass D) (cols D) / mat_sum D.
Proof. exact c27_freq_few_proof. Qed.
Print Assumptions c27_frequency_fewer_observations.

Theorem c27_py_missing_mass :
  forall pyd al D s,
  good_mat D -> py_ok pyd al ->
  exists sv x, fit_var (CPY pyd al) D s = (Ok tt, sv) /\
    (forall j, (j < length (rows D))%nat -> mean_w (CPY pyd al) j sv = Ok (EF (x j)) /\ 0 <= x j) /\
    let a := fun j => 1 - Q2R pyd + mass D j in
    let b := fun j => Q2R al + (1 + INR j) * Q2R pyd + mass_after D j in
    sumn x (length (rows D)) = 1 - prodn (fun j => b j / (a j + b j)) (length (rows D)) /\
    sumn x (length (rows D)) < 1.
Proof. exact c27_py_proof. Qed.
Print Assumptions c27_py_missing_mass.

Theorem c27_geometric_missing_mass :
  forall a b D s,
  good_mat D -> rows D <> [] -> (0 < a)%Q -> (0 < b)%Q ->
  exists sv x, fit_var (CGeom a b) D s = (Ok tt, sv) /\
    (forall j, (j < length (rows D))%nat -> mean_w (CGeom a b) j sv = Ok (EF (x j)) /\ 0 <= x j) /\
    let a' := Q2R a + INR (Nat.max (cols D) 1) - 1 in
    let b' := Q2R b + sumn (fun j => INR j * mass D j) (length (rows D)) in
    sumn x (length (rows D)) = 1 - (b' / (a' + b')) ^ length (rows D) /\ sumn x (length (rows D)) < 1.
Proof. exact c27_geom_proof. Qed.
Print Assumptions c27_geometric_missing_mass.

Example c27_nontrivial : good_mat d3 /\ rows d3 <> [] /\ (0 < cols d3)%nat /\ (length (rows d3) <= cols d3)%nat /\ 0 < mat_sum d3 /\ mass d3 0 = 2.
Proof. split; [exact d3_good|]. split; [discriminate|]. split; [cbn; lia|]. split; [cbn; lia|]. split; cbn; lra. Qed.

(* ---- C28 ---- *)

Theorem c28_dp_outside :
  forall al D s sv j,
  fit_var (CDP al) D s = (Ok tt, sv) -> (length (rows D) <= j)%nat -> mean_w (CDP al) j sv = Ok (EF 0).
Proof. exact c28_dp_proof. Qed.
Print Assumptions c28_dp_outside.

Theorem c28_equal_outside :
  forall D s sv j,
  fit_var CEqual D s = (Ok tt, sv) -> rows D <> [] -> (length (rows D) <= j)%nat -> mean_w CEqual j sv = Ok (EF 0).
Proof. exact c28_equal_proof. Qed.
Print Assumptions c28_equal_outside.

Theorem c28_frequency_outside :
  forall n D s sv j,
  fit_var (CFreq n) D s = (Ok tt, sv) -> (0 < cols D)%nat ->
  ((cols D <= j)%nat -> mean_w (CFreq n) j sv = Ok (EF 0)) /\
  ((length (rows D) <= j)%nat -> (j < cols D)%nat -> mean_w (CFreq n) j sv = Err IndexError).
Proof. exact c28_freq_proof. Qed.
Print Assumptions c28_frequency_outside.

Theorem c28_dirichlet_boundary :
  forall al D s sv,
  length al = length (rows D) -> let n := Z.of_nat (length al) in fit_var (CDirDist n al) D s = (Ok tt, sv) ->
  mean_w (CDirDist n al) (length (rows D)) sv = Err IndexError /\
  (forall j, (length (rows D) < j)%nat -> mean_w (CDirDist n al) j sv = Ok (EF 0)).
Proof. exact c28_dir_proof. Qed.
Print Assumptions c28_dirichlet_boundary.

Theorem c28_py_boundary :
  forall pyd al D s sv,
  fit_var (CPY pyd al) D s = (Ok tt, sv) ->
  mean_w (CPY pyd al) (length (rows D)) sv = Err IndexError /\
  (forall j, (length (rows D) < j)%nat -> mean_w (CPY pyd al) j sv = Ok (EF 0)).
Proof. exact c28_py_proof. Qed.
Print Assumptions c28_py_boundary.

Theorem c28_geometric_one :
  forall a b D s sv j,
  fit_var (CGeom a b) D s = (Ok tt, sv) -> (length (rows D) <= j)%nat -> mean_w (CGeom a b) j sv = Ok (EF 1).
Proof. exact c28_geom_proof. Qed.
Print Assumptions c28_geometric_one.

Example c28_nontrivial : forall s, exists sv, fit_var (CGeom 1 1) d3 s = (Ok tt, sv) /\ mean_w (CGeom 1 1) 5 sv = Ok (EF 1).
Proof. intros s. eexists. split; reflexivity. Qed.

(* ---- C29 ---- *)

Theorem c29_geometric_mean_not_expectation :
  forall a b D s sv x y E,
  good_mat D -> (0 < a)%Q -> (0 < b)%Q ->
  fit_var (CGeom a b) D s = (Ok tt, sv) -> vpar sv = PPair x y -> beta_moments x y E ->
  mean_w (CGeom a b) 0 sv = Ok (EF (E 1%nat 0%nat)) /\
  ((2 <= length (rows D))%nat -> exists m, mean_w (CGeom a b) 1 sv = Ok (EF m) /\ m = E 1%nat 1%nat + (E 2%nat 0%nat - E 1%nat 0%nat ^ 2) /\ E 1%nat 1%nat < m).
Proof. exact c29_proof. Qed.
Print Assumptions c29_geometric_mean_not_expectation.

Example c29_nontrivial : forall s, exists sv x y E, fit_var (CGeom 1 1) d3 s = (Ok tt, sv) /\ vpar sv = PPair x y /\ beta_moments x y E.
Proof.
  intros s. destruct (fit_var (CGeom 1 1) d3 s) as [r sv] eqn:F. pose proof F as F'. injection F' as <- <-. eexists _, _, _.
  match type of F with _ = (_, VS _ _ (PPair ?x ?y) _) => destruct (moments_exist x y) as [E HE] end.
  - rewrite P_Var.Q2R_1. cbn; lra.
  - rewrite P_Var.Q2R_1. cbn; lra.
  - exists E. split; [reflexivity|]. split; [reflexivity|]. exact HE.
Qed.

(* ---- C30 ---- *)

Theorem c30_mode_in_unit_interval :
  forall c D s sv j x,
  good_mat D ->
  fit_var c D s = (Ok tt, sv) -> mode_w c j sv = Ok (Some (EF x)) -> 0 <= x <= 1.
Proof. exact c30_range_proof. Qed.
Print Assumptions c30_mode_in_unit_interval.

Theorem c30_dp_error :
  forall al D s sv j,
  fit_var (CDP al) D s = (Ok tt, sv) -> (j < length (rows D))%nat ->
  (mode_w (CDP al) j sv = Err ValueError <-> no_mode (fun j => 1 + mass D j) (fun j => Q2R al + mass_after D j) (length (rows D) - 1) j).
Proof. exact c30_dp_error_proof. Qed.
Print Assumptions c30_dp_error.

Theorem c30_dp_value :
  forall al D s sv j m,
  fit_var (CDP al) D s = (Ok tt, sv) -> (j < length (rows D))%nat ->
  (forall i, (i <= j)%nat -> (i < length (rows D) - 1)%nat -> is_beta_mode (1 + mass D i) (Q2R al + mass_after D i) (m i)) ->
  mode_w (CDP al) j sv = Ok (Some (EF (prodn (fun i => 1 - m i) j * (if (j <? length (rows D) - 1)%nat then m j else 1)))).
Proof. exact c30_dp_value_proof. Qed.
Print Assumptions c30_dp_value.

Theorem c30_dp_modes_sum_to_1 :
  forall al D s sv x,
  fit_var (CDP al) D s = (Ok tt, sv) -> rows D <> [] ->
  (forall j, (j < length (rows D))%nat -> mode_w (CDP al) j sv = Ok (Some (EF (x j)))) -> sumn x (length (rows D)) = 1.
Proof. exact c30_dp_sum_proof. Qed.
Print Assumptions c30_dp_modes_sum_to_1.

Theorem c30_py_error :
  forall pyd al D s sv j,
  fit_var (CPY pyd al) D s = (Ok tt, sv) -> (j < length (rows D))%nat ->
  (mode_w (CPY pyd al) j sv = Err ValueError <->
   no_mode (fun j => 1 - Q2R pyd + mass D j) (fun j => Q2R al + (1 + INR j) * Q2R pyd + mass_after D j) (length (rows D)) j).
Proof. exact c30_py_error_proof. Qed.
Print Assumptions c30_py_error.

Theorem c30_geometric_error :
  forall a b D s sv j x y,
  fit_var (CGeom a b) D s = (Ok tt, sv) -> vpar sv = PPair x y -> (j <= length (rows D))%nat ->
  (mode_w (CGeom a b) j sv = Err ValueError <-> multimodal x y).
Proof. exact c30_geom_error_proof. Qed.
Print Assumptions c30_geometric_error.

Theorem c30_dirichlet_error :
  forall n al D s sv l j a,
  fit_var (CDirDist n al) D s = (Ok tt, sv) -> vpar sv = PDir l -> (Z.of_nat j <= n)%Z -> nth_error l j = Some a ->
  (mode_w (CDirDist n al) j sv = Err ValueError <-> multimodal a (rsum l - a)).
Proof. exact c30_dir_error_proof. Qed.
Print Assumptions c30_dirichlet_error.

Example c30_nontrivial : exists m, is_beta_mode (1 + mass d3 0) (Q2R 1 + mass_after d3 0) m.
Proof. exists (2 / 3). right; right. cbn. rewrite P_Var.Q2R_1. lra. Qed.
Example c30_error_nontrivial : no_mode (fun j => 1 + mass (Mat [[]; []] 0) j) (fun j => Q2R 1 + mass_after (Mat [[]; []] 0) j) 1 0.
Proof. exists 0%nat. split; [lia|]. split; [lia|]. split; [split; cbn; rewrite ?P_Var.Q2R_1; lra|]. intros l Hl. lia. Qed.

(* ---- C31 ---- *)

Theorem c31_dp_log_probability :
  forall psi, increasing_pos psi -> forall al D s sv j,
  good_mat D -> (0 < al)%Q -> fit_var (CDP al) D s = (Ok tt, sv) ->
  exists e, mean_log_w psi (CDP al) j sv = Ok e /\ log_prob e /\ ((length (rows D) <= j)%nat <-> e = ENI).
Proof. exact c31_dp_sign_proof. Qed.
Print Assumptions c31_dp_log_probability.

Theorem c31_py_log_probability :
  forall psi, increasing_pos psi -> forall pyd al D s sv j,
  good_mat D -> py_ok pyd al -> fit_var (CPY pyd al) D s = (Ok tt, sv) -> (j < length (rows D))%nat ->
  exists e, mean_log_w psi (CPY pyd al) j sv = Ok e /\ log_prob e.
Proof. exact c31_py_sign_proof. Qed.
Print Assumptions c31_py_log_probability.

Theorem c31_geometric_log_probability :
  forall psi, increasing_pos psi -> forall a b D s sv x y j,
  good_mat D -> (0 < a)%Q -> (0 < b)%Q -> fit_var (CGeom a b) D s = (Ok tt, sv) -> vpar sv = PPair x y ->
  exists e, mean_log_w psi (CGeom a b) j sv = Ok e /\ log_prob e.
Proof. exact c31_geom_sign_proof. Qed.
Print Assumptions c31_geometric_log_probability.

(* the expectation of log w_j under Dirichlet(p) is psi(p_j) - psi(sum p) *)
Theorem c31_dirichlet_below_expectation :
  forall psi, increasing_pos psi -> forall al D s sv j,
  good_mat D -> Forall (fun x => (0 < x)%Q) al -> length al = length (rows D) ->
  let n := Z.of_nat (length al) in fit_var (CDirDist n al) D s = (Ok tt, sv) -> (j < length al)%nat ->
  exists x, mean_log_w psi (CDirDist n al) j sv = Ok (EF x) /\ x < 0 /\ x < psi (Q2R (nth j al 0%Q) + mass D j) - psi (sumn (fun i => Q2R (nth i al 0%Q) + mass D i) (length al)).
Proof. exact c31_dir_low_proof. Qed.
Print Assumptions c31_dirichlet_below_expectation.

Theorem c31_expected_label_log :
  forall psi : R -> R, forall c D s sv x,
  good_mat D -> (exists al, c = CDP al) \/ (exists pyd al, c = CPY pyd al) \/ (exists n al, c = CDirDist n al) ->
  fit_var c D s = (Ok tt, sv) -> (forall j, (j < length (rows D))%nat -> mean_log_w psi c j sv = Ok (EF (x j))) ->
  mean_log_pd psi c None sv = (Ok (EF (expected_log D x)), sv).
Proof. exact c31_pd_proof. Qed.
Print Assumptions c31_expected_label_log.

Theorem c31_geometric_drops_factor :
  forall psi : R -> R, forall a b D s sv x y,
  good_mat D -> stochastic D -> fit_var (CGeom a b) D s = (Ok tt, sv) -> vpar sv = PPair x y ->
  let lp := mean_log_beta psi x y in let lq := mean_log_beta psi y x in
  (forall j, mean_log_w psi (CGeom a b) j sv = Ok (EF (lp + INR j * lq))) /\
  mean_log_pd psi (CGeom a b) None sv = (Ok (EF (expected_log D (fun j => lp + lq))), sv).
Proof. exact c31_geom_pd_proof. Qed.
Print Assumptions c31_geometric_drops_factor.

Theorem c31_equal_wrong_sign :
  forall psi : R -> R, forall D s sv,
  good_mat D -> stochastic D -> rows D <> [] -> fit_var CEqual D s = (Ok tt, sv) ->
  exists x, (forall j, (j < length (rows D))%nat -> mean_log_w psi CEqual j sv = Ok (EF (x j))) /\
    mean_log_pd psi CEqual None sv = (Ok (EF (- expected_log D x)), sv) /\
    ((2 <= length (rows D))%nat -> (1 <= cols D)%nat -> 0 < - expected_log D x).
Proof. exact c31_equal_pd_proof. Qed.
Print Assumptions c31_equal_wrong_sign.

Theorem c31_frequency_no_log :
  forall psi : R -> R, forall n D s sv j,
  good_mat D -> (0 < cols D)%nat -> fit_var (CFreq n) D s = (Ok tt, sv) ->
  (j < length (rows D))%nat -> (j < cols D)%nat -> 0 < mass D j ->
  mean_log_w psi (CFreq n) j sv = mean_w (CFreq n) j sv /\
  exists x, mean_log_w psi (CFreq n) j sv = Ok (EF x) /\ 0 < x.
Proof. exact c31_freq_proof. Qed.
Print Assumptions c31_frequency_no_log.

Example c31_nontrivial : increasing_pos (fun x => x) /\ good_mat d3 /\ stochastic d3 /\ 0 < mass d3 1 /\ (1 < cols d3)%nat.
Proof. split; [intros x y _ H; exact H|]. split; [exact d3_good|]. split; [exact d3_stoch|]. cbn. split; [lra|lia]. Qed.

(* ---- C32 ---- *)

Theorem c32_before_fit :
  forall psi lg c n j,
  has_variational c -> c <> CEqual ->
  let s := vs_init n in
  mean_log_w psi c j s = Err NotFittedError /\ mean_log_pd psi c None s = (Err NotFittedError, s) /\
  mean_log_p psi lg c s = Err NotFittedError /\ mean_log_q psi lg c s = Err NotFittedError /\
  mean_w c j s = Err TypeError /\ mode_w c j s = Err TypeError.
Proof. exact c32_logs_proof. Qed.
Print Assumptions c32_before_fit.

Theorem c32_equal_answers :
  forall psi lg n j,
  (n <> 0)%Z ->
  let s := vs_init n in
  is_ok (mean_log_w psi CEqual j s) = true /\ mean_log_pd psi CEqual None s = (Err NotFittedError, s) /\
  mean_log_p psi lg CEqual s = Ok (EF 0) /\ mean_log_q psi lg CEqual s = Ok (EF 0) /\
  is_ok (mean_w CEqual j s) = true /\ is_ok (mode_w CEqual j s) = true.
Proof. exact c32_equal_proof. Qed.
Print Assumptions c32_equal_answers.

Theorem c32_not_implemented :
  forall psi lg c D arg s j,
  ~ has_variational c ->
  fit_var c D s = (Err NotImplementedError, s) /\ mean_log_w psi c j s = Err NotImplementedError /\
  mean_log_pd psi c arg s = (Err NotImplementedError, s) /\ mean_log_p psi lg c s = Err NotImplementedError /\
  mean_log_q psi lg c s = Err NotImplementedError /\ mean_w c j s = Err NotImplementedError /\ mode_w c j s = Err NotImplementedError.
Proof. exact c32_none_proof. Qed.
Print Assumptions c32_not_implemented.

Example c32_nontrivial : has_variational (CDP 1) /\ CDP 1 <> CEqual /\ ~ has_variational (CBB 1 1).
Proof. split; [exact I|]. split; [discriminate|exact (fun x => x)]. Qed.

(* ---- C61 ---- *)

Theorem c61_dp_densities :
  forall psi lg, log_gamma_like lg -> forall al D s sv,
  (0 < al)%Q -> rows D <> [] -> fit_var (CDP al) D s = (Ok tt, sv) ->
  let a := fun j => 1 + mass D j in let b := fun j => Q2R al + mass_after D j in let k := length (rows D) in
  mean_log_q psi lg (CDP al) sv = Ok (EF (sumn (fun j => beta_log_density lg (a j) (b j) (mean_log_beta psi (a j) (b j)) (mean_log_beta psi (b j) (a j))) (k - 1))) /\
  mean_log_p psi lg (CDP al) sv = Ok (EF (sumn (fun j => beta_log_density lg 1 (Q2R al) (mean_log_beta psi (a j) (b j)) (mean_log_beta psi (b j) (a j))) (k - 1) + ln (Q2R al))).
Proof. exact c61_dp_proof. Qed.
Print Assumptions c61_dp_densities.

Theorem c61_py_densities :
  forall psi lg, log_gamma_like lg -> forall pyd al D s sv,
  py_ok pyd al -> fit_var (CPY pyd al) D s = (Ok tt, sv) ->
  let a := fun j => 1 - Q2R pyd + mass D j in let b := fun j => Q2R al + (1 + INR j) * Q2R pyd + mass_after D j in let k := length (rows D) in
  let b0 := fun j => Q2R al + (1 + INR j) * Q2R pyd in
  mean_log_q psi lg (CPY pyd al) sv = Ok (EF (sumn (fun j => beta_log_density lg (a j) (b j) (mean_log_beta psi (a j) (b j)) (mean_log_beta psi (b j) (a j))) k)) /\
  mean_log_p psi lg (CPY pyd al) sv =
    Ok (EF (sumn (fun j => beta_log_density lg (1 - Q2R pyd) (b0 j) (mean_log_beta psi (a j) (b j)) (mean_log_beta psi (b j) (a j))) k - sumn (fun j => ln (b0 j)) k)).
Proof. exact c61_py_proof. Qed.
Print Assumptions c61_py_densities.

Theorem c61_geometric_densities :
  forall psi lg, forall a b D s sv x y,
  fit_var (CGeom a b) D s = (Ok tt, sv) -> vpar sv = PPair x y ->
  mean_log_q psi lg (CGeom a b) sv = Ok (EF (beta_log_density lg x y (mean_log_beta psi x y) (mean_log_beta psi y x))) /\
  mean_log_p psi lg (CGeom a b) sv = Ok (EF (beta_log_density lg (Q2R a) (Q2R b) (mean_log_beta psi x y) (mean_log_beta psi y x))).
Proof. exact c61_geom_proof. Qed.
Print Assumptions c61_geometric_densities.

Theorem c61_dirichlet_densities :
  forall psi lg, forall al D s sv,
  length al = length (rows D) -> let n := Z.of_nat (length al) in
  fit_var (CDirDist n al) D s = (Ok tt, sv) ->
  exists l e, vpar sv = PDir l /\ (forall j, (j < length al)%nat -> mean_log_w psi (CDirDist n al) j sv = Ok (EF (e j))) /\
    mean_log_q psi lg (CDirDist n al) sv = Ok (EF (dirichlet_log_density lg l e)) /\
    mean_log_p psi lg (CDirDist n al) sv =
      Ok (EF (dirichlet_log_density lg (map Q2R al) e + sumn (fun j => (rsum (map Q2R al) - Q2R (nth j al 0%Q)) * e j) (length al))).
Proof. exact c61_dir_proof. Qed.
Print Assumptions c61_dirichlet_densities.

Example c61_nontrivial : (exists f, log_gamma_like f) /\ rows d3 <> [] /\ py_ok (1 # 2) 1.
Proof. split; [exact log_gamma_exists|]. split; [discriminate|]. repeat split; discriminate. Qed.
