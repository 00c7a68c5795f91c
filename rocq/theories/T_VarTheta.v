(* Variational atoms and density queries: theorems. *)
From Coq Require Import Lqa.
From Verif Require Import Prelude Numpy Rng M_Weights M_Niw M_Utils M_Mix M_Query M_VarTheta S_Niw S_VarTheta S_DensQ S_Mix S_Query S_VarFit S_MixEx P_MixEx P_Niw P_QueryEx P_VarTheta P_DensQ P_VarThetaEx.
Open Scope Q_scope.

(* ---- C42 ---- *)

Theorem c42_location :
  
  forall inv y h vd a, var_theta_row inv y h vd = Ok (Some a) ->
  ~ mass vd == 0 /\ ~ n_lam h + mass vd == 0 /\ exists mu lam p nu, a = (mu, lam, p, nu) /\ inv (scale_before_inv y h vd) = Ok p /\ location_posterior vd y h mu lam nu.
Proof. exact c42_row_shape_proof. Qed.
Print Assumptions c42_location.

Theorem c42_scale_matrix :
  
  forall y h vd i j, ~ mass vd == 0 -> (i < length (n_mu h))%nat -> (j < length (n_mu h))%nat ->
  exists m, is_wmean vd y m /\
  entry (scale_before_inv y h vd) i j == entry (n_psi h) i j + about vd y m i j / mass vd
    + n_lam h * mass vd / (n_lam h + mass vd) * sum_over (fun l => (m l - coord l (n_mu h)) * (m l - coord l (n_mu h))) (seq 0 (length (n_mu h))).
Proof. exact c42_scale_proof. Qed.
Print Assumptions c42_scale_matrix.

Theorem c42_conjugate_scale_matrix :
  
  forall y h vd mu lam nu psi m i j, length vd = length y -> ~ n_lam h + mass vd == 0 -> ~ mass vd == 0 -> is_wmean vd y m ->
  location_posterior vd y h mu lam nu -> scale_posterior vd y h mu lam psi -> (i < length (n_mu h))%nat -> (j < length (n_mu h))%nat ->
  entry psi i j == entry (n_psi h) i j + about vd y m i j + n_lam h * mass vd / (n_lam h + mass vd) * ((m i - coord i (n_mu h)) * (m j - coord j (n_mu h))).
Proof. exact c42_conjugate_proof. Qed.
Print Assumptions c42_conjugate_scale_matrix.

Theorem c42_hard_assignments :
  
  forall inv y h sel a, length sel = length y -> var_theta_row inv y h (hard sel) = Ok (Some a) ->
  exists mu lam p nu h', a = (mu, lam, p, nu) /\ is_posterior (chosen_rows sel y) h h' /\ lam == n_lam h' /\ nu == n_nu h' /\
    forall i, (i < length (n_mu h))%nat -> coord i mu == coord i (n_mu h').
Proof. exact c42_hard_location_proof. Qed.
Print Assumptions c42_hard_assignments.

Theorem c42_one_dimension :
  
  forall y h vd mu lam nu psi m, length (n_mu h) = 1%nat -> length vd = length y -> ~ n_lam h + mass vd == 0 -> ~ mass vd == 0 ->
  location_posterior vd y h mu lam nu -> scale_posterior vd y h mu lam psi -> is_wmean vd y m ->
  (entry (scale_before_inv y h vd) 0 0 == entry psi 0 0 <-> mass vd == 1 \/ about vd y m 0 0 == 0).
Proof. exact c42_one_dimension_proof. Qed.
Print Assumptions c42_one_dimension.

Theorem c42_symmetric :
  
  forall y h vd, symmetric (length (n_mu h)) (n_psi h) -> symmetric (length (n_mu h)) (scale_before_inv y h vd).
Proof. exact c42_symmetric_proof. Qed.
Print Assumptions c42_symmetric.

Theorem c42_positive_definite :
  
  forall y h vd, Forall (fun x => 0 <= x) vd -> 0 < mass vd -> 0 < n_lam h ->
  pos_def (length (n_mu h)) (n_psi h) -> pos_def (length (n_mu h)) (scale_before_inv y h vd).
Proof. exact c42_posdef_proof. Qed.
Print Assumptions c42_positive_definite.

Theorem c42_empty_group_is_nan :
  
  forall inv y h vd, mass vd == 0 -> var_theta_row inv y h vd = Ok None.
Proof. exact c42_nan_proof. Qed.
Print Assumptions c42_empty_group_is_nan.

Theorem c42_after_fit :
  
  forall E inv c y k warm tol meth o s g s' g', resp_env E -> theta_env inv E -> (1 <= s_total s)%Z ->
  fit_variational E c y k warm tol meth o s g = (Ok tt, s', g') -> s_y s' <> [] -> 0 < s_lam s' ->
  exists k h, vk (s_var s') = Some k /\ prior_niw s' = Ok h /\ ((0 < k)%Z -> length (vtheta (s_var s')) = Z.to_nat k /\
    forall j, (j < Z.to_nat k)%nat -> exists mu lam p nu, nth j (vtheta (s_var s')) ([], 0, [], 0) = (mu, lam, p, nu) /\
      location_posterior (nth j (vresp (s_var s')) []) (s_y s') h mu lam nu /\
      inv (scale_before_inv (s_y s') h (nth j (vresp (s_var s')) [])) = Ok p /\
      n_lam h < lam /\ n_nu h < nu /\
      (pos_def (length (n_mu h)) (n_psi h) -> pos_def (length (n_mu h)) (scale_before_inv (s_y s') h (nth j (vresp (s_var s')) [])))).
Proof. exact c42_after_fit_proof. Qed.
Print Assumptions c42_after_fit.

Theorem c42_scale_matrix_refuted :
  
  exists y h sel mu lam nu psi, length sel = length y /\ 0 < n_lam h /\ pos_def (length (n_mu h)) (n_psi h) /\
  is_posterior (chosen_rows sel y) h (NIW mu lam psi nu) /\
  ~ entry (scale_before_inv y h (hard sel)) 0 1 == entry psi 0 1 /\ ~ entry (scale_before_inv y h (hard sel)) 0 0 == entry psi 0 0.
Proof. exact c42_scale_refuted_proof. Qed.
Print Assumptions c42_scale_matrix_refuted.

Example c42_nontrivial : let h := NIW [0] 1 [[1]] 3 in let y := [[1]; [2]; [6]] in let vd := [1; 1 # 2; 1 # 2] in
  length vd = length y /\ Forall (fun x => 0 <= x) vd /\ 0 < mass vd /\ 0 < n_lam h /\ is_wmean vd y (fun i => match i with 0%nat => 5 # 2 | _ => 0 end) /\
  (exists a, var_theta_row inv1 y h vd = Ok (Some a)) /\ entry (scale_before_inv y h vd) 0 0 == 113 # 12 /\
  (exists mu lam nu psi, location_posterior vd y h mu lam nu /\ scale_posterior vd y h mu lam psi /\ entry psi 0 0 == 41 # 3).
Proof.
  cbv zeta. split; [reflexivity|]. split; [repeat constructor; discriminate|]. split; [reflexivity|]. split; [reflexivity|].
  split; [intros [|[|i]]; reflexivity|]. split; [eexists; vm_compute; reflexivity|]. split; [vm_compute; reflexivity|].
  exists [5 # 3], 3, 5, [[(41 # 3)]]. split; [|split; [|reflexivity]].
  - split; [reflexivity|]. split; [reflexivity|]. split; [reflexivity|]. intros [|i] Hi; [reflexivity|simpl in Hi; lia].
  - split; [split; [reflexivity|intros [|i] Hi; [reflexivity|simpl in Hi; lia]]|]. intros [|i] [|j] Hi Hj; simpl in Hi, Hj; try lia. vm_compute. reflexivity.
Qed.
Example c42_hard_nontrivial : exists a, var_theta_row inv1 [[1]; [2]; [6]] (NIW [0] 1 [[1]] 3) (hard [true; false; true]) = Ok (Some a) /\ chosen_rows [true; false; true] [[1]; [2]; [6]] = [[1]; [6]].
Proof. eexists. split; [vm_compute; reflexivity|vm_compute; reflexivity]. Qed.
Example c42_fit_nontrivial : theta_env inv1 theta_ex /\ resp_env theta_ex /\ let s := fst (ex_run theta_ex (CDP 1) 0 5 1 1 o_half []) in (1 <= s_total s)%Z /\
  exists s' g', fit_variational theta_ex (CDP 1) y3 (SInt 2) false 1 IKmeans o_half s [] = (Ok tt, s', g') /\ vk (s_var s') = Some 2%Z /\ s_y s' <> [] /\ 0 < s_lam s' /\ length (vtheta (s_var s')) = 2%nat.
Proof. split; [apply theta_ex_ok|]. split; [apply theta_ex_ok|]. exact theta_run_ex. Qed.

(* ---- C53 ---- *)

Theorem c53_map_density_default_raises :
  
  forall QE s y comp, s_vfit s = true ->
  (forall r, var_map_density QE s y DNone comp <> Ok r) /\
  (forall x, cast_obs s y = Ok x -> var_map_density QE s y DNone comp = Err TypeError).
Proof. exact c53_map_default_proof. Qed.
Print Assumptions c53_map_density_default_raises.

Theorem c53_int_dim_raises :
  
  forall QE s y i comp, vtheta (s_var s) <> [] ->
  (forall r, var_map_density QE s y (DInt i) comp <> Ok r) /\ (forall r, var_eap_density QE s y (DInt i) comp <> Ok r).
Proof. exact c53_int_dim_proof. Qed.
Print Assumptions c53_int_dim_raises.

Theorem c53_map_density_sum :
  
  forall QE s y idx v x, per_row (q_normal QE) -> cast_obs s y = Ok x -> var_map_density QE s y (DList idx) None = Ok v ->
  exists ws ls, weighted_sum_of (length (fst x)) ws ls v /\ length ls = length (vtheta (s_var s)) /\
  forall j mu lam prec scale, nth_error (vtheta (s_var s)) j = Some (mu, lam, prec, scale) ->
    exists m p, sub_vec idx mu = Ok m /\ sub_mat idx prec = Ok p /\
      q_normal QE (fst x) m (map (map (fun z => z * (scale - nq (length idx)))) p) = Ok (nth j ls []) /\ q_mode_w QE (s_var s) (s_wm s) (Z.of_nat j) = Ok (nth j ws 0).
Proof. exact c53_map_sum_proof. Qed.
Print Assumptions c53_map_density_sum.

Theorem c53_eap_density_sum :
  
  forall QE s y idx v x, (forall nu, per_row (fun x m p => q_student QE x m p nu)) -> cast_obs s y = Ok x -> var_eap_density QE s y (DList idx) None = Ok v ->
  exists ws ls, weighted_sum_of (length (fst x)) ws ls v /\ length ls = length (vtheta (s_var s)) /\
  forall j mu lam prec scale, nth_error (vtheta (s_var s)) j = Some (mu, lam, prec, scale) ->
    let df := scale + 1 - nq (length idx) in
    exists m p, sub_vec idx mu = Ok m /\ sub_mat idx prec = Ok p /\
      q_student QE (fst x) m (map (map (fun z => z * (df * lam / (1 + lam)))) p) df = Ok (nth j ls []) /\ q_mean_w QE (s_var s) (s_wm s) (Z.of_nat j) = Ok (nth j ws 0).
Proof. exact c53_eap_sum_proof. Qed.
Print Assumptions c53_eap_density_sum.

Theorem c53_eap_density_default :
  
  forall QE s y comp x, cast_obs s (Some y) = Ok (x, false) ->
  var_eap_density QE s (Some y) DNone comp = var_eap_density QE s (Some y) (DList (map Z.of_nat (seq 0 (match y with YFrame _ k | YList2 _ k | YArr2 _ k => k | _ => 1%nat end)))) comp.
Proof. exact c53_eap_default_proof. Qed.
Print Assumptions c53_eap_density_default.

Theorem c53_marginal_block :
  
  forall k idx mu lam prec sc, length mu = k -> square k prec -> Forall (fun i => (i < k)%nat) idx ->
  exists m p, v_sub (DList (map Z.of_nat idx)) (mu, lam, prec, sc) = Ok (m, p) /\ part_of idx mu m /\ block_of idx prec p.
Proof. exact c53_block_proof. Qed.
Print Assumptions c53_marginal_block.

Theorem c53_marginal_right_iff_uncorrelated :
  
  forall m0 m1 lam a b c sc C, inverse_of 2 [[a; b]; [b; c]] C ->
  v_sub (DList [0%Z]) ([m0; m1], lam, [[a; b]; [b; c]], sc) = Ok ([m0], [[a]]) /\ (a * entry C 0 0 == 1 <-> b == 0).
Proof. exact c53_marginal_proof. Qed.
Print Assumptions c53_marginal_right_iff_uncorrelated.

Example c53_query_nontrivial : per_row (q_normal flat_qenv) /\ (forall nu, per_row (fun x m p => q_student flat_qenv x m p nu)) /\
  exists s, s_vfit s = true /\ vtheta (s_var s) <> [] /\ (exists x, cast_obs s (Some y3) = Ok x) /\
  (exists v, var_map_density flat_qenv s (Some y3) (DList [0%Z]) None = Ok v /\ length v = 3%nat) /\
  (exists v, var_eap_density flat_qenv s (Some y3) (DList [0%Z]) None = Ok v /\ length v = 3%nat) /\
  exists x, cast_obs s (Some (YList2 [[1]] 1)) = Ok (x, false).
Proof.
  split; [intros x m p l [= <-]; apply map_length|]. split; [intros nu x m p l [= <-]; apply map_length|].
  destruct theta_fit_ex as (s & F & T & C & M1 & M2 & C2). exists s. auto 10.
Qed.
Example c53_marginal_nontrivial : inverse_of 2 [[2; 1]; [1; 1]] [[1; -1]; [-1; 2]] /\ ~ 2 * entry [[1; -1]; [-1; 2]] 0 0 == 1.
Proof. split; [intros [|[|i]] [|[|j]] Hi Hj; simpl in Hi, Hj; try lia; reflexivity|intros H; discriminate H]. Qed.
Example c53_block_nontrivial : square 2 [[2; 1]; [1; 3]] /\ Forall (fun i => (i < 2)%nat) [1; 0]%nat /\ v_sub (DList [1; 0]%Z) ([5; 6], 1, [[2; 1]; [1; 3]], 4) = Ok ([6; 5], [[3; 1]; [1; 2]]).
Proof. split; [split; [reflexivity|intros [|[|i]] Hi; try lia; reflexivity]|]. split; [repeat constructor|reflexivity]. Qed.
