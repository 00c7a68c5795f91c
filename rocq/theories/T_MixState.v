(* The state of a mixture object across fits: theorems. *)
From Verif Require Import Prelude Numpy Rng M_Weights M_Niw M_Utils M_Mix M_Query S_Oracle S_Niw S_Mix S_Map S_Fresh S_Flags S_Sort S_MixEx P_Map P_Fresh P_Flags P_Sort P_Fail P_MixEx.
Open Scope Q_scope.
Open Scope m_scope.

(* ---- C35 ---- *)

Theorem c35_map_is_best_visited :
  
  forall E c fuel y ig warm meth o s g s' g', fit_gibbs E c fuel y ig warm meth o s g = (Ok tt, s', g') ->
  exists tr s1, replay E c fuel y ig warm meth (Z.to_nat (s_burn s) + Z.to_nat (s_total s - s_burn s)) o s g = (Ok tr, s1, g') /\
    length tr = ((if warm then 0 else 1) + Z.to_nat (s_burn s) + Z.to_nat (s_total s - s_burn s))%nat /\
    get_run_params s1 = get_run_params s' /\ is_best (s_map s) (s_mapll s) tr (s_map s') (s_mapll s').
Proof. exact c35_best_proof. Qed.
Print Assumptions c35_map_is_best_visited.

Example c35_nontrivial : let s := fst (ex_run steep_env (CDP 1) 0 3 1 1 o_half []) in
  exists s' g' r, fit_gibbs steep_env (CDP 1) 60 y3 SNone false IKmeans o_half s [] = (Ok tt, s', g') /\ s_map s' = Some r /\
  (exists x, s_mapll s' = LQ x) /\ length (r_d r) = 3%nat.
Proof. eexists _, _, _. split; [vm_compute; reflexivity|]. split; [reflexivity|]. split; [eexists; reflexivity|reflexivity]. Qed.
Example c35_best_example : is_best None LNeg [(RP [1] [] [] [], LQ 1); (RP [2] [] [] [], LNan); (RP [3] [] [] [], LQ 2); (RP [4] [] [] [], LQ 2)] (Some (RP [3] [] [] [])) (LQ 2).
Proof.
  left. exists 2%nat, (RP [3] [] [] []). split; [reflexivity|]. split; [reflexivity|]. split; [reflexivity|]. split.
  - intros [|[|[|[|[]]]]] q H; try discriminate H; injection H as <-; reflexivity.
  - intros [|[|j]] q Hj H; [| |lia]; injection H as <-; auto.
Qed.

(* ---- C36 ---- *)

Theorem c36_fresh_fit :
  
  forall E c fuel y ig meth o s1 s2 g s' g', without_run s1 = without_run s2 ->
  fit_gibbs E c fuel y ig false meth o s1 g = (Ok tt, s', g') -> fit_gibbs E c fuel y ig false meth o s2 g = (Ok tt, s', g').
Proof. exact c36_fresh_proof. Qed.
Print Assumptions c36_fresh_fit.

Theorem c36_priors_frozen :
  
  forall E c fuel op ops o s g r s1 g1 s2 g2, is_data (mop_data op) = true ->
  exec_mop E c fuel op o s g = (r, s1, g1) -> run_mops E c fuel ops o s1 g1 = (s2, g2) ->
  s_mu s2 = s_mu s1 /\ s_psi s2 = s_psi s1 /\ s_lam s2 = s_lam s1 /\ (s_nu s1 <> None -> s_nu s2 = s_nu s1).
Proof. exact c36_priors_frozen_proof. Qed.
Print Assumptions c36_priors_frozen.

Theorem c36_prior_mean_of_first_data :
  
  forall E c fuel op o s g r s' g', is_data (mop_data op) = true -> rows_of (mop_data op) <> [] -> s_mu s = PNone ->
  exec_mop E c fuel op o s g = (r, s', g') -> exists m, s_mu s' = PVal m /\
    forall i, (i < length m)%nat -> coord i m == sum_over (coord i) (rows_of (mop_data op)) / nq (length (rows_of (mop_data op))).
Proof. exact c36_prior_mean_proof. Qed.
Print Assumptions c36_prior_mean_of_first_data.

Theorem c36_map_survives_refuted :
  
  exists E c fuel o s0 g0 s1 g1 s2 g2 r,
  valid_oracle o /\ finite_env E /\ new_mix c 0 0 None 1 None None 2 1 1 o = Ok (s0, g0) /\
  fit_gibbs E c fuel (YList1 [5; -6; 7]) SNone false IKmeans o s0 g0 = (Ok tt, s1, g1) /\
  fit_gibbs E c fuel (YList1 [-1; 1]) SNone false IKmeans o s1 g1 = (Ok tt, s2, g2) /\
  s_map s2 = Some r /\ s_map s1 = Some r /\ length (r_d r) = 3%nat /\ s_y s2 = [[-1]; [1]] /\ s_mapll s2 = s_mapll s1.
Proof. exact c36_map_survives_refuted_proof. Qed.
Print Assumptions c36_map_survives_refuted.

Example c36_nontrivial : exists a b, without_run a = without_run b /\ a <> b /\ length (get_sim_params a) = 2%nat /\ get_sim_params b = [] /\
  exists s' g', fit_gibbs flat_env (CDP 1) 60 y2 SNone false IKmeans o_half b [] = (Ok tt, s', g').
Proof.
  assert (X : exists a, a = fst (ex_run flat_env (CDP 1) 0 3 1 1 o_half [cold y3])) by (eexists; reflexivity). destruct X as [a Ea].
  assert (Ga : s_gfit a = true) by (rewrite Ea; vm_compute; reflexivity). assert (La : length (get_sim_params a) = 2%nat) by (rewrite Ea; vm_compute; reflexivity).
  assert (Fa : exists s' g', fit_gibbs flat_env (CDP 1) 60 y2 SNone false IKmeans o_half (without_run a) [] = (Ok tt, s', g')) by (rewrite Ea; eexists _, _; vm_compute; reflexivity).
  exists a, (without_run a). split; [reflexivity|]. split; [intros F; rewrite F in Ga; discriminate Ga|]. auto.
Qed.
Example c36_nontrivial_priors : let s := fst (ex_run flat_env (CDP 1) 0 3 1 1 o_half []) in
  is_data y3 = true /\ rows_of y3 <> [] /\ s_mu s = PNone /\
  let r := exec_mop flat_env (CDP 1) 60 (cold y3) o_half s [] in
  s_mu (ex_st r) = PVal [4 # 3] /\ s_mu (fst (run_mops flat_env (CDP 1) 60 [cold y2] o_half (ex_st r) (snd r))) = PVal [4 # 3].
Proof. split; [reflexivity|]. split; [discriminate|]. split; [reflexivity|]. vm_compute. split; reflexivity. Qed.

(* ---- C47 ---- *)

Theorem c47_flags_of_history :
  
  forall E c fuel ops o s g s' g', run_mops E c fuel ops o s g = (s', g') ->
  s_gfit s' = s_gfit s || existsb gibbs_ok (outcomes E c fuel ops o s g) /\
  (s_vfit s || existsb var_ok (outcomes E c fuel ops o s g) = true -> s_vfit s' = true) /\
  (s_vfit s' = true -> s_vfit s || existsb var_ok (outcomes E c fuel ops o s g) || existsb nested_var (outcomes E c fuel ops o s g) = true).
Proof. exact c47_history_proof. Qed.
Print Assumptions c47_flags_of_history.

Theorem c47_gibbs_queries_guarded :
  
  forall QE s, (s_gfit s = false -> gibbs_guarded QE s) /\ (s_gfit s = true -> quiet QE -> gibbs_open QE s).
Proof. exact c47_gibbs_guard_proof. Qed.
Print Assumptions c47_gibbs_queries_guarded.

Theorem c47_variational_queries_guarded :
  
  forall QE s, (s_vfit s = false -> var_guarded QE s) /\ (s_vfit s = true -> quiet QE -> var_open QE s).
Proof. exact c47_var_guard_proof. Qed.
Print Assumptions c47_variational_queries_guarded.

Example c47_nontrivial : let s := fst (ex_run flat_env (CDP 1) 0 3 1 1 o_half []) in
  let ops := [MGibbs y3 SNone false IOther; MGibbs y3 SNone false IKmeans; MVar y3 SNone false 1 IKmeans; MVar y3 (SInt 2) false 1 IKmeans] in
  map snd (outcomes flat_env (CDP 1) 60 ops o_half s []) = [Err AttributeError; Ok tt; Err AttributeError; Ok tt] /\
  quiet flat_qenv /\ s_gfit s = false /\ s_gfit (fst (run_mops flat_env (CDP 1) 60 (firstn 2 ops) o_half s [])) = true /\
  s_vfit (fst (run_mops flat_env (CDP 1) 60 (firstn 3 ops) o_half s [])) = false /\ s_vfit (fst (run_mops flat_env (CDP 1) 60 ops o_half s [])) = true.
Proof. split; [vm_compute; reflexivity|]. split; [constructor; intros; discriminate|]. vm_compute. auto. Qed.
Example c47_nested : let s := fst (ex_run flat_env (CDP 1) 0 3 1 1 o_half []) in
  let s' := ex_st (fit_gibbs flat_env (CDP 1) 60 y3 (SInt 2) false IVariational o_half s []) in s_gfit s' = true /\ s_vfit s' = true.
Proof. vm_compute. auto. Qed.

(* ---- C48 ---- *)

Theorem c48_bad_type_changes_nothing :
  
  forall E c fuel op o s g, is_data (mop_data op) = false -> exec_mop E c fuel op o s g = (Err TypeError, s, g).
Proof. exact c48_type_error_proof. Qed.
Print Assumptions c48_bad_type_changes_nothing.

Theorem c48_unknown_method :
  
  forall E c fuel y ig o s g r s' g', is_data y = true -> has_nu s y ->
  fit_gibbs E c fuel y ig false IOther o s g = (r, s', g') ->
  is_ok r = false /\ get_sim_params s' = [] /\ get_n_groups s' = [] /\ s_y s' = rows_of y /\ s_gfit s' = s_gfit s.
Proof. exact c48_unknown_method_proof. Qed.
Print Assumptions c48_unknown_method.

Theorem c48_no_groups :
  
  forall E c y tol meth o s g, is_data y = true -> has_nu s y -> s_n s = None ->
  exists s', fit_variational E c y SNone false tol meth o s g = (Err AttributeError, s', g) /\ s_y s' = rows_of y /\
    s_var s' = s_var s /\ s_sims s' = s_sims s /\ s_gfit s' = s_gfit s /\ s_vfit s' = s_vfit s.
Proof. exact c48_no_groups_proof. Qed.
Print Assumptions c48_no_groups.

Theorem c48_results_lost_refuted :
  
  exists E QE c fuel o s0 g0 s1 g1 s2 g2,
  valid_oracle o /\ finite_env E /\ new_mix c 0 0 None 1 None None 2 1 1 o = Ok (s0, g0) /\
  fit_gibbs E c fuel (YList1 [-1; 2; 3]) SNone false IKmeans o s0 g0 = (Ok tt, s1, g1) /\
  fit_gibbs E c fuel (YList1 [-1; 2; 3]) SNone false IOther o s1 g1 = (Err AttributeError, s2, g2) /\ s_gfit s2 = true /\
  length (get_sim_params s1) = 1%nat /\ get_sim_params s2 = [] /\
  (exists l, gibbs_eap_density QE s1 None DNone None None = Ok (Some l)) /\ gibbs_eap_density QE s2 None DNone None None = Ok None.
Proof. exact c48_refuted_proof. Qed.
Print Assumptions c48_results_lost_refuted.

Theorem c48_data_replaced_refuted :
  
  exists E QE c fuel o s0 g0 s1 g1 s2 g2 a b,
  valid_oracle o /\ finite_env E /\ new_mix c 0 0 None 1 None None 2 1 1 o = Ok (s0, g0) /\
  fit_gibbs E c fuel (YList1 [-1; 2; 3]) SNone false IKmeans o s0 g0 = (Ok tt, s1, g1) /\
  fit_variational E c (YList1 [-1; 1]) SNone false 1 IKmeans o s1 g1 = (Err AttributeError, s2, g2) /\
  gibbs_eap_density QE s1 None DNone None None = Ok (Some a) /\ gibbs_eap_density QE s2 None DNone None None = Ok (Some b) /\
  length a = 3%nat /\ length b = 2%nat.
Proof. exact c48_var_refuted_proof. Qed.
Print Assumptions c48_data_replaced_refuted.

Example c48_nontrivial : let s := fst (ex_run flat_env (CDP 1) 0 3 1 1 o_half [cold y3]) in
  is_data (YNum 1) = false /\ is_data y2 = true /\ has_nu s y2 /\ s_n s = None /\ length (get_sim_params s) = 2%nat.
Proof. split; [reflexivity|]. split; [reflexivity|]. split; [right; discriminate|]. split; [vm_compute; reflexivity|vm_compute; reflexivity]. Qed.

(* ---- C57 ---- *)

Theorem c57_truncation :
  
  forall x, (0 <= x -> zq (py_int x) <= x /\ x < zq (py_int x) + 1) /\ (x <= 0 -> x <= zq (py_int x) /\ zq (py_int x) - 1 < x).
Proof. exact c57_truncation_proof. Qed.
Print Assumptions c57_truncation.

Theorem c57_rejected :
  
  forall c parg narg mu lam psi nu total burn sub o x, new_ws c parg narg o = Ok x -> total <= burn ->
  new_mix c parg narg mu lam psi nu total burn sub o = Err AssertionError.
Proof. exact c57_rejected_proof. Qed.
Print Assumptions c57_rejected.

Theorem c57_accepted :
  
  forall c parg narg mu lam psi nu total burn sub o x, new_ws c parg narg o = Ok x -> burn < total ->
  exists s g, new_mix c parg narg mu lam psi nu total burn sub o = Ok (s, g) /\ s_total s = py_int total /\ s_burn s = py_int burn /\ s_sub s = py_int sub.
Proof. exact c57_accepted_proof. Qed.
Print Assumptions c57_accepted.

Theorem c57_at_least_one_saved :
  
  forall E c fuel parg narg mu lam psi nu t b k o s0 g0 ops s g y ig meth s' g',
  (1 <= k)%Z -> new_mix c parg narg mu lam psi nu (zq t) (zq b) (zq k) o = Ok (s0, g0) -> run_mops E c fuel ops o s0 g0 = (s, g) ->
  fit_gibbs E c fuel y ig false meth o s g = (Ok tt, s', g') -> get_sim_params s' <> [].
Proof. exact c57_saves_proof. Qed.
Print Assumptions c57_at_least_one_saved.

Theorem c57_nothing_saved :
  
  forall E c fuel y ig meth o s g s' g', s_total s = s_burn s ->
  fit_gibbs E c fuel y ig false meth o s g = (Ok tt, s', g') -> get_sim_params s' = [] /\ s_gfit s' = true.
Proof. exact c57_nothing_saved_proof. Qed.
Print Assumptions c57_nothing_saved.

Theorem c57_fractional_refuted :
  
  exists E QE c fuel o s0 g0 s g,
  valid_oracle o /\ finite_env E /\ new_mix c 0 0 None 1 None None (19 # 10) (12 # 10) 1 o = Ok (s0, g0) /\
  fit_gibbs E c fuel (YList1 [-1; 2; 3]) SNone false IKmeans o s0 g0 = (Ok tt, s, g) /\
  get_sim_params s = [] /\ gibbs_eap_density QE s None DNone None None = Ok None.
Proof. exact c57_fractional_refuted_proof. Qed.
Print Assumptions c57_fractional_refuted.

Theorem c57_zero_step :
  
  forall E c fuel y ig warm meth o s g r s' g', s_sub s = 0%Z -> (s_burn s < s_total s)%Z ->
  fit_gibbs E c fuel y ig warm meth o s g = (r, s', g') -> is_ok r = false /\ s_gfit s' = s_gfit s.
Proof. exact c57_zero_step_proof. Qed.
Print Assumptions c57_zero_step.

Example c57_nontrivial : (exists x, new_ws (CDP 1) 0 0 o_half = Ok x) /\ py_int (19 # 10) = 1%Z /\ py_int (- 19 # 10) = (-1)%Z /\
  (exists s0 g0, new_mix (CDP 1) 0 0 None 1 None None (zq 3) (zq 1) (zq 1) o_half = Ok (s0, g0) /\
     let q := run_mops flat_env (CDP 1) 60 [cold y2] o_half s0 g0 in
     exists s' g', fit_gibbs flat_env (CDP 1) 60 y3 SNone false IKmeans o_half (fst q) (snd q) = (Ok tt, s', g')).
Proof.
  split; [eexists; vm_compute; reflexivity|]. split; [reflexivity|]. split; [reflexivity|].
  eexists _, _. split; [vm_compute; reflexivity|]. eexists _, _. vm_compute. reflexivity.
Qed.
Example c57_nontrivial_zero : let s := fst (ex_run flat_env (CDP 1) 0 3 1 0 o_half []) in
  s_sub s = 0%Z /\ (s_burn s < s_total s)%Z /\ fst (fst (fit_gibbs flat_env (CDP 1) 60 y3 SNone false IKmeans o_half s [])) = Err ZeroDivisionError.
Proof. vm_compute. auto. Qed.

(* ---- C58 ---- *)

Theorem c58_never_fits :
  
  forall E c y k warm tol meth o s g r s' g', supports_var c = false -> warm = false \/ (1 <= s_total s)%Z ->
  fit_variational E c y k warm tol meth o s g = (r, s', g') -> is_ok r = false /\ s_vfit s' = s_vfit s.
Proof. exact c58_never_fits_proof. Qed.
Print Assumptions c58_never_fits.

Theorem c58_never_fitted_history :
  
  forall E c fuel ops o s g s' g', supports_var c = false -> (1 <= s_total s)%Z -> s_vfit s = false ->
  run_mops E c fuel ops o s g = (s', g') -> s_vfit s' = false.
Proof. exact c58_history_proof. Qed.
Print Assumptions c58_never_fitted_history.

Theorem c58_without_groups :
  
  forall E c fuel parg narg mu lam psi nu t b k o s0 g0 ops s g y tol meth,
  supports_var c = false -> new_mix c parg narg mu lam psi nu t b k o = Ok (s0, g0) -> run_mops E c fuel ops o s0 g0 = (s, g) ->
  is_data y = true -> has_nu s y -> fst (fst (fit_variational E c y SNone false tol meth o s g)) = Err AttributeError.
Proof. exact c58_no_groups_proof. Qed.
Print Assumptions c58_without_groups.

Theorem c58_with_groups :
  
  forall E c y k tol o s g, argsorts (e_argsort E) -> supports_var c = false ->
  is_data y = true -> (forall l, y <> YSeries l) -> (1 <= k <= Z.of_nat (length (rows_of y)))%Z ->
  fst (fst (fit_variational E c y (SInt k) false tol IKmeans o s g)) = Err NotImplementedError.
Proof. exact c58_groups_proof. Qed.
Print Assumptions c58_with_groups.

Theorem c58_marked_fitted_refuted :
  
  exists E c o s0 g0 s g, valid_oracle o /\ finite_env E /\ supports_var c = false /\
  new_mix c 0 0 None 1 None None 0 (-1) 1 o = Ok (s0, g0) /\
  fit_variational E c (YList1 [-1; 2; 3]) SNone true 1 IKmeans o s0 g0 = (Ok tt, s, g) /\ s_vfit s = true.
Proof. exact c58_marked_refuted_proof. Qed.
Print Assumptions c58_marked_fitted_refuted.

Example c58_nontrivial : map supports_var [CDP 1; CBIB 0 1 1 1 PStatic; CBID 1 1; CBB 1 1; CBBin 1 1; CGeom 1 1] = [true; false; false; false; false; true] /\
  argsorts (e_argsort sorted_env) /\ (1 <= 2 <= Z.of_nat (length (rows_of y3)))%Z /\ (forall l, y3 <> YSeries l) /\
  let s := fst (ex_run sorted_env (CBB 1 1) 0 3 1 1 o_half [cold y3]) in s_gfit s = true /\ s_vfit s = false /\ (1 <= s_total s)%Z /\ s_n s = None.
Proof. split; [reflexivity|]. split; [exact stable_argsorts|]. split; [simpl; lia|]. split; [discriminate|]. vm_compute. repeat split; discriminate. Qed.

(* ---- C45 ---- *)

Theorem c45_size_biased :
  
  forall argsort S (s : S) y k o g, argsorts argsort -> (1 <= k <= Z.of_nat (length y))%Z ->
  exists l', kmeans_cluster_size_biased argsort y k o s g = (Ok l', s, g ++ [RKMeans y (Z.to_nat k)]) /\
    let l := o_kmeans o g y (Z.to_nat k) in same_partition l l' /\ contiguous (distinct l) l' /\ by_size (distinct l) l'.
Proof. exact c45_relabel_proof. Qed.
Print Assumptions c45_size_biased.

Theorem c45_bad_k :
  
  forall argsort S (s : S) y k o g, (k <= 0 \/ Z.of_nat (length y) < k)%Z ->
  kmeans_cluster_size_biased argsort y k o s g = (Err ValueError, s, g).
Proof. exact c45_bad_k_proof. Qed.
Print Assumptions c45_bad_k.

Example c45_nontrivial : argsorts stable_argsort /\ size_biased stable_argsort [4; 7; 7; 2; 2; 2; 4]%nat = Some [1; 2; 2; 0; 0; 0; 1]%nat.
Proof. split; [exact stable_argsorts|reflexivity]. Qed.
