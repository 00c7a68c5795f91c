(* Derived priors; the two kinds of fits on one object: theorems. *)
From Coq Require Import Permutation.
From Verif Require Import Prelude Numpy Rng M_Weights M_Niw M_Utils M_Mix M_Query S_Oracle S_Niw S_Mix S_Query S_Fresh S_MixEx S_Prior S_Cross P_MixEx P_Prior P_Cross.
Open Scope Q_scope.

(* ---- C67 ---- *)

Theorem c67_default_priors :
  
  forall E c fuel op o s g r s' g', is_data (mop_data op) = true -> exec_mop E c fuel op o s g = (r, s', g') ->
  let y := rows_of (mop_data op) in let k := cols_of (mop_data op) in
  (s_mu s = PNone -> y <> [] -> exists m, s_mu s' = PVal m /\ column_means k y m) /\
  (s_psi s = PNone -> (2 <= length y)%nat -> exists m P, s_psi s' = PVal P /\ column_means k y m /\ sample_covariance k y m P) /\
  (s_nu s = None -> (forall l, mop_data op <> YSeries l) -> s_nu s' = Some (nq k)).
Proof. exact c67_default_proof. Qed.
Print Assumptions c67_default_priors.

Theorem c67_too_few_rows_not_finite :
  
  forall E c fuel op o s g r s' g', is_data (mop_data op) = true -> exec_mop E c fuel op o s g = (r, s', g') ->
  (s_mu s = PNone -> rows_of (mop_data op) = [] -> s_mu s' = PNaN) /\ (s_psi s = PNone -> (length (rows_of (mop_data op)) <= 1)%nat -> s_psi s' = PNaN).
Proof. exact c67_not_finite_proof. Qed.
Print Assumptions c67_too_few_rows_not_finite.

Theorem c67_explicit_priors_kept :
  
  forall E c fuel ops o s g s' g', run_mops E c fuel ops o s g = (s', g') ->
  (forall m, s_mu s = PVal m -> s_mu s' = PVal m) /\ (forall P, s_psi s = PVal P -> s_psi s' = PVal P) /\
  (forall n, s_nu s = Some n -> s_nu s' = Some n) /\ s_lam s' = s_lam s.
Proof. exact c67_explicit_proof. Qed.
Print Assumptions c67_explicit_priors_kept.

Theorem c67_scale_semidefinite :
  
  forall E c fuel op o s g r s' g', is_data (mop_data op) = true -> exec_mop E c fuel op o s g = (r, s', g') ->
  let y := rows_of (mop_data op) in let k := cols_of (mop_data op) in s_psi s = PNone -> (2 <= length y)%nat ->
  exists P, s_psi s' = PVal P /\ square k P /\ symmetric k P /\ (forall x, 0 <= quad k P x) /\ (forall x, quad k P x == 0 <-> in_hyperplane k x y).
Proof. exact c67_definite_proof. Qed.
Print Assumptions c67_scale_semidefinite.

Theorem c67_few_rows_singular :
  
  forall E c fuel op o s g r s' g', is_data (mop_data op) = true -> exec_mop E c fuel op o s g = (r, s', g') ->
  let y := rows_of (mop_data op) in let k := cols_of (mop_data op) in s_psi s = PNone -> (2 <= length y <= k)%nat ->
  exists P x, s_psi s' = PVal P /\ nonzero k x /\ quad k P x == 0.
Proof. exact c67_few_rows_proof. Qed.
Print Assumptions c67_few_rows_singular.

Theorem c67_row_order :
  
  forall E c fuel op op' o s g r t g' r' t' g'', is_data (mop_data op) = true -> is_data (mop_data op') = true ->
  s_mu s = PNone -> s_psi s = PNone -> (2 <= length (rows_of (mop_data op)))%nat ->
  Permutation (rows_of (mop_data op)) (rows_of (mop_data op')) -> cols_of (mop_data op) = cols_of (mop_data op') ->
  exec_mop E c fuel op o s g = (r, t, g') -> exec_mop E c fuel op' o s g = (r', t', g'') ->
  exists m P m' P', s_mu t = PVal m /\ s_psi t = PVal P /\ s_mu t' = PVal m' /\ s_psi t' = PVal P' /\
    (forall i, (i < cols_of (mop_data op))%nat -> coord i m == coord i m') /\
    (forall i j, (i < cols_of (mop_data op))%nat -> (j < cols_of (mop_data op))%nat -> entry P i j == entry P' i j).
Proof. exact c67_order_proof. Qed.
Print Assumptions c67_row_order.

Theorem c67_change_of_units :
  
  forall E c fuel op op' o s g r t g' r' t' g'' a b, is_data (mop_data op) = true -> is_data (mop_data op') = true ->
  s_mu s = PNone -> s_psi s = PNone -> (2 <= length (rows_of (mop_data op)))%nat ->
  rows_of (mop_data op') = map (affine a b (cols_of (mop_data op))) (rows_of (mop_data op)) -> cols_of (mop_data op) = cols_of (mop_data op') ->
  exec_mop E c fuel op o s g = (r, t, g') -> exec_mop E c fuel op' o s g = (r', t', g'') ->
  exists m P m' P', s_mu t = PVal m /\ s_psi t = PVal P /\ s_mu t' = PVal m' /\ s_psi t' = PVal P' /\
    (forall i, (i < cols_of (mop_data op))%nat -> coord i m' == a * coord i m + coord i b) /\
    (forall i j, (i < cols_of (mop_data op))%nat -> (j < cols_of (mop_data op))%nat -> entry P' i j == a * a * entry P i j).
Proof. exact c67_affine_proof. Qed.
Print Assumptions c67_change_of_units.

Example c67_nontrivial : exists s g, new_mix (CDP 1) 0 0 None 1 None None 2 1 1 o_half = Ok (s, g) /\ s_mu s = PNone /\ s_psi s = PNone /\ s_nu s = None /\
  is_data y3 = true /\ length (rows_of y3) = 3%nat /\
  s_mu (snd (fst (exec_mop flat_env (CDP 1) 60 (cold y3) o_half s g))) = PVal [4 # 3].
Proof. eexists _, _. split; [vm_compute; reflexivity|]. vm_compute. repeat split; reflexivity. Qed.
Example c67_nontrivial_few : let y := YArr2 [[1; 2]; [3; 5]] 2%nat in (2 <= length (rows_of y) <= cols_of y)%nat /\ nonzero 2%nat [3; -(2)] /\ in_hyperplane 2 [3; -(2)] [[1; 2]; [3; 5]].
Proof.
  cbv zeta. split; [simpl; lia|]. split; [exists 0%nat; split; [lia|discriminate]|]. intros r r' [<-|[<-|[]]] [<-|[<-|[]]]; reflexivity.
Qed.
Example c67_nontrivial_order : Permutation (rows_of (YList1 [1; 2; 4])) (rows_of (YList1 [4; 1; 2])) /\ rows_of (YList1 [12; 14; 18]) = map (affine 2 [10] 1) (rows_of (YList1 [1; 2; 4])).
Proof. split; [|vm_compute; reflexivity]. simpl. apply Permutation_sym, (Permutation_cons_app [[1]; [2]] [] [4]). apply Permutation_refl. Qed.

(* ---- C69 ---- *)

Theorem c69_variational_fit_keeps_gibbs_results :
  
  forall E c y k warm tol meth o s g r s' g', fit_variational E c y k warm tol meth o s g = (r, s', g') ->
  same_gibbs s' s /\ (c <> CEqual -> s_wm s' = s_wm s) /\ set_wn 0 (s_wm s') = set_wn 0 (s_wm s).
Proof. exact c69_var_keeps_proof. Qed.
Print Assumptions c69_variational_fit_keeps_gibbs_results.

Theorem c69_variational_fit_keeps_gibbs_answers :
  
  forall QE E c y k warm tol meth o s g r s' g', fit_variational E c y k warm tol meth o s g = (r, s', g') -> same_gibbs_answers QE s' s.
Proof. exact c69_gibbs_answers_proof. Qed.
Print Assumptions c69_variational_fit_keeps_gibbs_answers.

Theorem c69_queries_without_data_use_last_data :
  
  forall QE E c y k warm tol meth o s g s' g', fit_variational E c y k warm tol meth o s g = (Ok tt, s', g') -> plain_data y = true ->
  gibbs_default_data QE s' y.
Proof. exact c69_default_data_proof. Qed.
Print Assumptions c69_queries_without_data_use_last_data.

Theorem c69_gibbs_fit_keeps_variational_results :
  
  forall E c fuel y ig warm meth o s g r s' g', warm = true \/ meth <> IVariational ->
  fit_gibbs E c fuel y ig warm meth o s g = (r, s', g') -> same_variational s' s.
Proof. exact c69_gibbs_keeps_proof. Qed.
Print Assumptions c69_gibbs_fit_keeps_variational_results.

Theorem c69_gibbs_fit_keeps_variational_answers :
  
  forall QE E c fuel y ig warm meth o s g r s' g', reads_var_only c QE -> warm = true \/ meth <> IVariational ->
  fit_gibbs E c fuel y ig warm meth o s g = (r, s', g') -> same_var_answers QE s' s.
Proof. exact c69_var_answers_proof. Qed.
Print Assumptions c69_gibbs_fit_keeps_variational_answers.

Theorem c69_equal_weights_follow_variational_groups :
  
  forall E y k warm tol meth o s g s' g', (1 <= s_total s)%Z -> fit_variational E CEqual y k warm tol meth o s g = (Ok tt, s', g') ->
  wn (s_wm s') = Z.of_nat (length (vresp (s_var s'))).
Proof. exact c69_equal_proof. Qed.
Print Assumptions c69_equal_weights_follow_variational_groups.

Theorem c69_equal_weights_unchanged_refuted :
  
  exists E o s0 g0 s1 g1 s2 g2 a b x y ga gb,
  valid_oracle o /\ new_mix CEqual 0 4 None 1 None None 2 1 1 o = Ok (s0, g0) /\
  fit_gibbs E CEqual 60 y4 SNone false IKmeans o s0 g0 = (Ok tt, s1, g1) /\
  fit_variational E CEqual y4 (SInt 2) false 1 IKmeans o s1 g1 = (Ok tt, s2, g2) /\
  wm_random CEqual SNone o (s_wm s1) g1 = (Ok a, x, ga) /\ wm_random CEqual SNone o (s_wm s2) g2 = (Ok b, y, gb) /\
  length a = 4%nat /\ length b = 2%nat.
Proof. exact c69_equal_refuted_proof. Qed.
Print Assumptions c69_equal_weights_unchanged_refuted.

Theorem c69_variational_start_overwrites_refuted :
  
  exists E o s0 g0 s1 g1 s2 g2,
  valid_oracle o /\ new_mix (CDP 1) 0 0 None 1 None None 2 1 1 o = Ok (s0, g0) /\
  fit_variational E (CDP 1) y3 (SInt 3) false 1 IKmeans o s0 g0 = (Ok tt, s1, g1) /\
  fit_gibbs E (CDP 1) 60 y4 SNone false IVariational o s1 g1 = (Ok tt, s2, g2) /\
  length (vtheta (s_var s1)) = 3%nat /\ length (vtheta (s_var s2)) <> 3%nat.
Proof. exact c69_nested_refuted_proof. Qed.
Print Assumptions c69_variational_start_overwrites_refuted.

Example c69_nontrivial : fst (fst cross_ex2) = Ok tt /\ s_gfit (fst cross_ex) = true /\ length (s_sims (fst cross_ex)) = 2%nat /\ s_y (fst cross_ex) = rows_of y3 /\ s_y (snd (fst cross_ex2)) = rows_of y4 /\
  s_vfit (fst cross_ex) = false /\ s_vfit (snd (fst cross_ex2)) = true /\ plain_data y4 = true.
Proof. destruct cross_ex_ok as (A & B & C & D & F & G & H). repeat (split; [assumption|]). reflexivity. Qed.
Example c69_nontrivial_gibbs : fst (fst cross_ex4) = Ok tt /\ s_vfit (snd (fst cross_ex4)) = true /\ length (vtheta (s_var (snd (fst cross_ex4)))) = 2%nat /\ reads_var_only (CDP 1) flat_qenv.
Proof. destruct cross_ex4_ok as (A & B & C). repeat (split; [assumption|]). apply flat_reads. Qed.
