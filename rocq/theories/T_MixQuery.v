(* Densities, clusterings, affinities and data shapes: theorems. *)
From Coq Require Import Lqa.
From Verif Require Import Prelude Numpy Rng M_Weights M_Niw M_Utils M_Mix M_Query S_Oracle S_Weights S_Niw S_Mix S_Fresh S_Sort S_Query S_VarFit S_MixEx P_MixEx P_MixOk P_Dens P_Clu P_VarQ P_Shape P_QueryEx.
Open Scope Q_scope.

(* ---- C64 ---- *)

Theorem c64_weights_are_subprobabilities :
  
  forall E c fuel parg narg mu lam psi nu t b k o s0 g0 ops s g, valid_oracle o ->
  (forall x al a b pm, c = CBIB x al a b pm -> in01 parg) ->
  new_mix c parg narg mu lam psi nu t b k o = Ok (s0, g0) -> run_mops E c fuel ops o s0 g0 = (s, g) ->
  subprob (w (s_wm s)) /\ (forall r, In r (get_sim_params s) -> subprob (r_w r)) /\ (forall r, s_map s = Some r -> subprob (r_w r)).
Proof. exact c64_subprob_proof. Qed.
Print Assumptions c64_weights_are_subprobabilities.

Example c64_nontrivial : exists s0 g0 s g r, valid_oracle o_half /\ new_mix (CDP 1) 0 0 None 1 None None 2 1 1 o_half = Ok (s0, g0) /\
  run_mops off_env (CDP 1) 60 [cold y3] o_half s0 g0 = (s, g) /\ s_map s = Some r /\ get_sim_params s = [r] /\ r_w r = [1 # 2; 1 # 4; 1 # 8].
Proof.
  destruct ex_fit_facts as (s0 & g0 & s & g & r & H0 & H1 & M & P & Y & D1 & W & T & F). exists s0, g0, s, g, r. split; [apply o_half_valid|]. split; [exact H0|].
  split; [unfold run_mops, exec_mop, cold, y3; rewrite H1; reflexivity|]. auto.
Qed.

(* ---- C43 ---- *)

Theorem c43_density_of_one_mixture :
  
  forall QE x fl r v, r_w r <> [] -> mixture_density QE x fl (r_w r) (r_theta r) DNone None = Ok v -> mixes QE x r v.
Proof. exact c43_mixture_proof. Qed.
Print Assumptions c43_density_of_one_mixture.

Theorem c43_sum_of_components :
  
  forall QE x fl r dim v, mixture_density QE x fl (r_w r) (r_theta r) dim None = Ok v ->
  exists vs, length vs = length (r_w r) /\
    (forall j, (j < length (r_w r))%nat -> mixture_density QE x fl (r_w r) (r_theta r) dim (Some (Z.of_nat j)) = Ok (nth j vs [])) /\
    forall i, nth i v 0 == sum_over (fun vj => nth i vj 0) vs.
Proof. exact c43_components_proof. Qed.
Print Assumptions c43_sum_of_components.

Theorem c43_average_over_window :
  
  forall QE s y dim comp periods v, gibbs_eap_density QE s y dim comp periods = Ok (Some v) ->
  (forall p, periods = Some p -> (1 <= p)%Z) ->
  let window := match periods with None => get_sim_params s | Some p => last_n (Z.to_nat p) (get_sim_params s) end in
  window <> [] /\ exists x fl rows, cast_obs s y = Ok (x, fl) /\ length rows = length window /\
    (forall t r0, (t < length window)%nat -> let r := nth t window r0 in mixture_density QE x fl (r_w r) (r_theta r) dim comp = Ok (nth t rows [])) /\
    is_mean rows v /\ (forall r, In r rows -> length r = length v).
Proof. exact c43_average_proof. Qed.
Print Assumptions c43_average_over_window.

Theorem c43_average_sum_of_components :
  
  forall QE s y dim periods v k, dim <> DOther -> gibbs_eap_density QE s y dim None periods = Ok (Some v) ->
  (0 < k)%nat -> (forall r, In r (get_sim_params s) -> length (r_w r) = k) ->
  exists vs, length vs = k /\
    (forall j, (j < k)%nat -> gibbs_eap_density QE s y dim (Some (Z.of_nat j)) periods = Ok (Some (nth j vs []))) /\
    forall i, (i < length v)%nat -> nth i v 0 == sum_over (fun vj => nth i vj 0) vs.
Proof. exact c43_average_components_proof. Qed.
Print Assumptions c43_average_sum_of_components.

Theorem c43_missing_component :
  
  forall QE s y dim periods r j, dim <> DOther -> In r (last_periods (get_sim_params s) periods) -> (length (r_w r) <= j)%nat ->
  forall v, gibbs_eap_density QE s y dim (Some (Z.of_nat j)) periods <> Ok v.
Proof. exact c43_missing_component_proof. Qed.
Print Assumptions c43_missing_component.

Theorem c43_zero_periods_uses_all :
  
  forall QE s y dim comp, gibbs_eap_density QE s y dim comp (Some 0%Z) = gibbs_eap_density QE s y dim comp None.
Proof. exact c43_zero_periods_proof. Qed.
Print Assumptions c43_zero_periods_uses_all.

Theorem c43_negative_periods_drop_oldest :
  
  forall QE s y dim comp k, gibbs_eap_density QE s y dim comp (Some (- Z.of_nat k)%Z) =
  gibbs_eap_density QE (upd_sims (s_saved s) (skipn k (get_sim_params s)) (s_groups s) (s_atoms s) s) y dim comp None.
Proof. exact c43_negative_periods_proof. Qed.
Print Assumptions c43_negative_periods_drop_oldest.

Theorem c43_average_nonnegative :
  
  forall E QE c fuel parg narg mu lam psi nu t b k o s0 g0 ops s g y dim comp periods v, valid_oracle o ->
  (forall x al a b pm, c = CBIB x al a b pm -> in01 parg) -> pdf_ok QE ->
  new_mix c parg narg mu lam psi nu t b k o = Ok (s0, g0) -> run_mops E c fuel ops o s0 g0 = (s, g) ->
  gibbs_eap_density QE s y dim comp periods = Ok (Some v) -> nonneg v.
Proof. exact c43_nonnegative_proof. Qed.
Print Assumptions c43_average_nonnegative.

Theorem c43_map_nonnegative :
  
  forall E QE c fuel parg narg mu lam psi nu t b k o s0 g0 ops s g y dim comp v, valid_oracle o ->
  (forall x al a b pm, c = CBIB x al a b pm -> in01 parg) -> pdf_ok QE ->
  new_mix c parg narg mu lam psi nu t b k o = Ok (s0, g0) -> run_mops E c fuel ops o s0 g0 = (s, g) ->
  gibbs_map_density QE s y dim comp = Ok v -> nonneg v.
Proof. exact c43_map_nonnegative_proof. Qed.
Print Assumptions c43_map_nonnegative.

Example c43_nontrivial : exists s0 g0 s g, valid_oracle o_half /\ pdf_ok left_qenv /\ new_mix (CDP 1) 0 0 None 1 None None 2 1 1 o_half = Ok (s0, g0) /\
  run_mops off_env (CDP 1) 60 [cold y3] o_half s0 g0 = (s, g) /\ (forall r, In r (get_sim_params s) -> length (r_w r) = 3%nat) /\
  (exists v, gibbs_eap_density left_qenv s None DNone None None = Ok (Some v) /\ length v = 3%nat /\ nth 0 v 0 == 1 # 4) /\
  (exists v, gibbs_eap_density left_qenv s None DNone (Some 1%Z) (Some 1%Z) = Ok (Some v) /\ nth 2 v 0 == 1 # 4) /\
  (exists v, gibbs_map_density left_qenv s (Some (YNum 5)) (DInt 0) None = Ok v /\ length v = 1%nat /\ nth 0 v 0 == 1 # 4).
Proof.
  destruct ex_fit_facts as (s0 & g0 & s & g & r & H0 & H1 & M & P & Y & D1 & W & T & F). exists s0, g0, s, g. split; [apply o_half_valid|]. split; [apply left_ok|]. split; [exact H0|].
  split; [unfold run_mops, exec_mop, cold, y3; rewrite H1; reflexivity|]. split; [rewrite P; intros r' [<-|[]]; rewrite W; reflexivity|]. unfold get_sim_params in P.
  unfold gibbs_eap_density, gibbs_map_density, get_map, cast_obs. rewrite F, M, P, Y, D1. cbn [negb rbind fst snd last_periods length skipn]. 
  clear H0 H1 M P. destruct r as [rw rt rd ru]. cbn in W, T. subst rw rt. split; [|split]; eexists.
  - split; [vm_compute; reflexivity|]. split; reflexivity.
  - split; [vm_compute; reflexivity|]. reflexivity.
  - split; [vm_compute; reflexivity|]. split; reflexivity.
Qed.
Example c43_mixture_nontrivial : let r := RP [1 # 2; 1 # 4; 1 # 8] ex_theta [] [] in r_w r <> [] /\
  (exists v, mixture_density left_qenv [[0]; [1]] false (r_w r) (r_theta r) DNone None = Ok v) /\
  (exists v, mixture_density left_qenv [[0]; [1]] false (r_w r) (r_theta r) (DInt 0) None = Ok v) /\
  (forall v, mixture_density left_qenv [[0]; [1]] false (r_w r) (r_theta r) (DList [0%Z]) (Some 3%Z) <> Ok v).
Proof. split; [discriminate|]. split; [eexists; vm_compute; reflexivity|]. split; [eexists; vm_compute; reflexivity|]. intros v. vm_compute. discriminate. Qed.

(* ---- C44 ---- *)

Theorem c44_map_clusters :
  
  forall E QE c fuel parg narg mu lam psi nu t b k o s0 g0 ops s g y lab unc, valid_oracle o ->
  (forall x al a b pm, c = CBIB x al a b pm -> in01 parg) -> pdf_ok QE ->
  new_mix c parg narg mu lam psi nu t b k o = Ok (s0, g0) -> run_mops E c fuel ops o s0 g0 = (s, g) ->
  gibbs_map_cluster QE s y = Ok (lab, unc) ->
  exists x fl r grp, cast_obs s y = Ok (x, fl) /\ s_map s = Some r /\ clusters QE x r grp lab unc.
Proof. exact c44_clusters_proof. Qed.
Print Assumptions c44_map_clusters.

Theorem c44_uncertainty_range :
  
  forall QE x r grp lab unc i v, pdf_ok QE -> nonneg (r_w r) -> clusters QE x r grp lab unc ->
  (i < length x)%nat -> nth i unc None = Some v -> (0 < length (r_w r))%nat /\ 0 <= v /\ v <= 1 - 1 / nq (length (r_w r)).
Proof. exact c44_uncertainty_proof. Qed.
Print Assumptions c44_uncertainty_range.

Theorem c44_single_row_fails :
  
  forall QE s y x fl v, cast_obs s y = Ok (x, fl) -> length x = 1%nat -> gibbs_map_cluster QE s y <> Ok v.
Proof. exact c44_single_row_proof. Qed.
Print Assumptions c44_single_row_fails.

Theorem c44_affinity_of_new_data :
  
  forall E QE c fuel parg narg mu lam psi nu t b k o s0 g0 ops s g ya m, valid_oracle o ->
  (forall x al a b pm, c = CBIB x al a b pm -> in01 parg) -> pdf_ok QE ->
  new_mix c parg narg mu lam psi nu t b k o = Ok (s0, g0) -> run_mops E c fuel ops o s0 g0 = (s, g) ->
  gibbs_eap_affinity_matrix QE s (Some ya) = Ok m -> get_sim_params s <> [] ->
  exists x fl grps, cast_obs s (Some ya) = Ok (x, fl) /\ length grps = length (get_sim_params s) /\
    (forall n r0, (n < length grps)%nat -> exists lab unc, clusters QE x (nth n (get_sim_params s) r0) (nth n grps []) lab unc) /\
    length m = length x /\ forall i j, (i < length x)%nat -> (j < length x)%nat ->
      exists q, nth j (nth i m []) None = Some q /\
        q * nq (length grps) == nq (length (filter (fun l => Nat.eqb (nth i l 0%nat) (nth j l 0%nat)) grps)).
Proof. exact c44_affinity_proof. Qed.
Print Assumptions c44_affinity_of_new_data.

Theorem c44_labels_are_components_refuted :
  
  exists E QE c fuel o s0 g0 s g lab unc r grp,
  valid_oracle o /\ pdf_ok QE /\ new_mix c 0 0 None 1 None None 2 1 1 o = Ok (s0, g0) /\
  fit_gibbs E c fuel (YList1 [-1; 2; 3]) SNone false IKmeans o s0 g0 = (Ok tt, s, g) /\ gibbs_map_cluster QE s None = Ok (lab, unc) /\
  s_map s = Some r /\ clusters QE (s_y s) r grp lab unc /\ lab = [0; 0; 0]%nat /\ grp = [1; 1; 1]%nat.
Proof. exact c44_index_refuted_proof. Qed.
Print Assumptions c44_labels_are_components_refuted.

Example c44_nontrivial : exists s0 g0 s g lab unc m, new_mix (CDP 1) 0 0 None 1 None None 2 1 1 o_half = Ok (s0, g0) /\
  run_mops off_env (CDP 1) 60 [cold y3] o_half s0 g0 = (s, g) /\ pdf_ok (ex_qenv (fun r m => if qltb (vat r 0 * (vat m 0 - 1)) 0 then 0 else 1)) /\
  let QE := ex_qenv (fun r m => if qltb (vat r 0 * (vat m 0 - 1)) 0 then 0 else 1) in
  gibbs_map_cluster QE s (Some (YList1 [-1; 2; -3; 4])) = Ok (lab, unc) /\ lab = [1; 0; 1; 0]%nat /\ (exists u, nth 1 unc None = Some u /\ u == 1 # 5) /\
  gibbs_eap_affinity_matrix QE s (Some (YList1 [-1; 2; -3; 4])) = Ok m /\ get_sim_params s <> [] /\ nth 1 (nth 0 m []) None = Some 0.
Proof.
  destruct ex_fit_facts as (s0 & g0 & s & g & r & H0 & H1 & M & P & Y & D1 & W & T & F). exists s0, g0, s, g. eexists _, _, _. split; [exact H0|].
  split; [unfold run_mops, exec_mop, cold, y3; rewrite H1; reflexivity|]. split; [apply ex_qenv_ok; intros r0 m; destruct (qltb _ _); lra|]. cbv zeta.
  unfold gibbs_map_cluster, gibbs_eap_affinity_matrix, get_map, cast_obs. rewrite F, M. unfold get_sim_params in P. rewrite P. cbn [negb rbind fst snd rmap]. rewrite W, T.
  split; [vm_compute; reflexivity|]. split; [reflexivity|]. split; [eexists; split; reflexivity|]. split; [vm_compute; reflexivity|]. split; [unfold get_sim_params; rewrite P; discriminate|reflexivity].
Qed.
Example c44_single_row_nontrivial : cast_obs ex_blank (Some (YNum 3)) = Ok ([[3]], false) /\ length [[3]] = 1%nat.
Proof. split; reflexivity. Qed.

(* ---- C65 ---- *)

Theorem c65_marginal_uses_first_column :
  
  forall QE x r i v, r_w r <> [] ->
  mixture_density QE x false (r_w r) (r_theta r) (DInt (Z.of_nat i)) None = Ok v -> marginal_at 0 QE x r i v.
Proof. exact c65_column0_proof. Qed.
Print Assumptions c65_marginal_uses_first_column.

Theorem c65_ignores_other_columns :
  
  forall QE x x' r i comp, map (coord 0) x = map (coord 0) x' ->
  mixture_density QE x false (r_w r) (r_theta r) (DInt i) comp = mixture_density QE x' false (r_w r) (r_theta r) (DInt i) comp.
Proof. exact c65_first_column_proof. Qed.
Print Assumptions c65_ignores_other_columns.

Theorem c65_marginal_at_own_column_refuted :
  
  exists QE x r i v, pdf_ok QE /\ r_w r <> [] /\
  mixture_density QE x false (r_w r) (r_theta r) (DInt (Z.of_nat i)) None = Ok v /\ ~ marginal_at i QE x r i v.
Proof. exact c65_column_refuted_proof. Qed.
Print Assumptions c65_marginal_at_own_column_refuted.

Example c65_nontrivial : let r := RP [1 # 2; 1 # 2] [(0%nat, ([0; 3], [[1; 0]; [0; 1]])); (1%nat, ([1; 2], [[1; 0]; [0; 1]]))] [] [] in
  r_w r <> [] /\ (exists v, mixture_density square_qenv [[1; 2]; [3; 4]] false (r_w r) (r_theta r) (DInt 1) None = Ok v /\ nth 1 v 0 == 9) /\
  map (coord 0) [[1; 2]; [3; 4]] = map (coord 0) [[1; 7]; [3; -5]].
Proof. split; [discriminate|]. split; [eexists; split; [vm_compute; reflexivity|reflexivity]|reflexivity]. Qed.

(* ---- C49 ---- *)

Theorem c49_loop :
  
  forall E c y k warm tol meth o s g s' g', fit_variational E c y k warm tol meth o s g = (Ok tt, s', g') ->
  exists s1 g1 es s2, (warm = true -> init_common y o s g = (Ok tt, s1, g1)) /\
    var_run E c o s1 g1 es s2 g' /\ s' = upd_flags (s_gfit s2) true (s_vconv s') s2 /\
    (length es <= Z.to_nat (s_total s))%nat /\ ((1 <= s_total s)%Z -> es <> []) /\
    (forall i, (S i < length es)%nat -> moves tol (elbo_before es i) (nth i es LNan)) /\
    (forall i, S i = length es -> (length es < Z.to_nat (s_total s))%nat -> ~ moves tol (elbo_before es i) (nth i es LNan)) /\
    (s_vconv s' = true <-> s_vconv s = true \/ (Z.of_nat (length es) < s_total s)%Z).
Proof. exact c49_loop_proof. Qed.
Print Assumptions c49_loop.

Theorem c49_nan_counts_as_converged :
  
  forall E c y k warm tol meth o s g s' g', fit_variational E c y k warm tol meth o s g = (Ok tt, s', g') ->
  (2 <= s_total s)%Z -> (forall y h v, e_elbo E y h v = Ok LNan) -> s_vconv s' = true.
Proof. exact c49_nan_proof. Qed.
Print Assumptions c49_nan_counts_as_converged.

Example c49_nontrivial : let s := fst (ex_run flat_env (CDP 1) 0 5 1 1 o_half []) in
  (exists s' g', fit_variational flat_env (CDP 1) y3 (SInt 2) false 1 IKmeans o_half s [] = (Ok tt, s', g') /\ s_vconv s' = true) /\ s_total s = 5%Z.
Proof. split; [eexists _, _; split; [vm_compute; reflexivity|reflexivity]|reflexivity]. Qed.
Example c49_nontrivial_limit : let s := fst (ex_run flat_env (CDP 1) 0 1 0 1 o_half []) in
  exists s' g', fit_variational flat_env (CDP 1) y3 (SInt 2) false 1 IKmeans o_half s [] = (Ok tt, s', g') /\ s_vconv s' = false /\ s_vfit s' = true.
Proof. eexists _, _; split; [vm_compute; reflexivity|]. split; reflexivity. Qed.
Example c49_nontrivial_nan : let s := fst (ex_run nan_env (CDP 1) 0 5 1 1 o_half []) in (2 <= s_total s)%Z /\ (forall y h v, e_elbo nan_env y h v = Ok LNan) /\
  exists s' g', fit_variational nan_env (CDP 1) y3 (SInt 2) false 1 IKmeans o_half s [] = (Ok tt, s', g').
Proof. split; [vm_compute; discriminate|]. split; [reflexivity|]. eexists _, _; vm_compute; reflexivity. Qed.
Example c49_moves : moves 1 LNeg (LQ 3) /\ moves 1 (LQ 0) (LQ 3) /\ ~ moves 1 (LQ 0) (LQ 1) /\ ~ moves 1 (LQ 0) LNan.
Proof. repeat split; simpl; try lra; intros H; try exact H; destruct H; lra. Qed.

(* ---- C51 ---- *)

Theorem c51_training_affinity :
  
  forall E QE c y k warm tol meth o s g s' g', resp_env E -> (1 <= s_total s)%Z ->
  fit_variational E c y k warm tol meth o s g = (Ok tt, s', g') ->
  exists kk, vk (s_var s') = Some kk /\ (0 <= kk)%Z /\ ((0 < kk)%Z -> exists m, var_eap_affinity_matrix QE s' None = Ok m /\ affinity_like (Z.to_nat kk) (length (s_y s')) m).
Proof. exact c51_affinity_proof. Qed.
Print Assumptions c51_training_affinity.

Theorem c51_affinity_of_new_data :
  
  forall QE s ya D, s_vfit s = true -> vk (s_var s) <> None -> q_resp QE ya (s_var s) (s_wm s) = Ok D ->
  match ya with
  | YArr2 l _ | YFrame l _ => forall k, responsibilities k (length l) D -> exists m, var_eap_affinity_matrix QE s (Some ya) = Ok m /\ affinity_like k (length l) m
  | _ => exists e, var_eap_affinity_matrix QE s (Some ya) = Err e
  end.
Proof. exact c51_explicit_proof. Qed.
Print Assumptions c51_affinity_of_new_data.

Example c51_nontrivial : resp_env flat_env /\ let s := fst (ex_run flat_env (CDP 1) 0 5 1 1 o_half []) in (1 <= s_total s)%Z /\
  exists s' g', fit_variational flat_env (CDP 1) y3 (SInt 2) false 1 IKmeans o_half s [] = (Ok tt, s', g') /\ vk (s_var s') = Some 2%Z /\
  var_eap_affinity_matrix flat_qenv s' (Some y3) = Err AttributeError /\ var_eap_affinity_matrix flat_qenv s' (Some (YArr1 [1])) = Err IndexError.
Proof. split; [apply flat_resp|]. split; [vm_compute; discriminate|]. eexists _, _. split; [vm_compute; reflexivity|]. repeat split; reflexivity. Qed.
Example c51_responsibilities : responsibilities 2 3 [[1 # 2; 1 # 3; 1 # 4]; [1 # 2; 2 # 3; 3 # 4]].
Proof.
  split; [reflexivity|]. split; [repeat constructor|]. intros [|[|[|]]] Hi; try lia; (split; [intros [|[|]] Hj; try lia; reflexivity|reflexivity]).
Qed.

(* ---- C52 ---- *)

Theorem c52_training_clusters :
  
  forall E QE c y k warm tol meth o s g s' g', resp_env E -> (1 <= s_total s)%Z ->
  fit_variational E c y k warm tol meth o s g = (Ok tt, s', g') ->
  exists kk, vk (s_var s') = Some kk /\ (0 <= kk)%Z /\ ((0 < kk)%Z -> exists D lab unc, responsibilities (Z.to_nat kk) (length (s_y s')) D /\
    var_map_cluster QE s' None false = Ok (VCPlain lab) /\ var_map_cluster QE s' None true = Ok (VCVec lab unc) /\
    length lab = length (s_y s') /\ length unc = length (s_y s') /\
    forall i, (i < length (s_y s'))%nat -> first_max (column_of D i) (nth i lab 0%nat) /\
      nth i unc 0 == 1 - entry D (nth i lab 0%nat) i /\ 0 <= nth i unc 0 /\ nth i unc 0 <= 1 - 1 / nq (Z.to_nat kk)).
Proof. exact c52_training_proof. Qed.
Print Assumptions c52_training_clusters.

Theorem c52_clusters_of_new_data :
  
  forall QE s ya x fl D, s_vfit s = true -> vk (s_var s) <> None -> cast_obs s (Some ya) = Ok (x, fl) ->
  q_resp QE ya (s_var s) (s_wm s) = Ok D -> D <> [] ->
  exists lab, var_map_cluster QE s (Some ya) false = Ok (VCPlain lab) /\ length lab = length x /\
    (forall i, (i < length x)%nat -> first_max (column_of D i) (nth i lab 0%nat)) /\
    exists rows, var_map_cluster QE s (Some ya) true = Ok (VCMat lab rows) /\ length rows = length x /\
      forall i j, (i < length x)%nat -> entry rows i j = entry D (nth i lab 0%nat) j.
Proof. exact c52_explicit_proof. Qed.
Print Assumptions c52_clusters_of_new_data.

Example c52_nontrivial : let s := fst (ex_run flat_env (CDP 1) 0 5 1 1 o_half [MVar y3 (SInt 2) false 1 IKmeans]) in
  s_vfit s = true /\ vk (s_var s) <> None /\ cast_obs s (Some y3) = Ok (rows_of y3, false) /\
  (exists D, q_resp two_resp y3 (s_var s) (s_wm s) = Ok D /\ D <> []) /\
  var_map_cluster two_resp s (Some y3) true = Ok (VCMat [0; 1; 1]%nat [[1 # 2; 1 # 3; 1 # 4]; [1 # 2; 2 # 3; 3 # 4]; [1 # 2; 2 # 3; 3 # 4]]).
Proof. vm_compute. repeat split; try discriminate. eexists; split; [reflexivity|discriminate]. Qed.

(* ---- C54 ---- *)

Theorem c54_stored_data :
  
  forall E c fuel op o s g s' g', exec_mop E c fuel op o s g = (Ok tt, s', g') ->
  is_data (mop_data op) = true /\ s_y s' = rows_of (mop_data op) /\ s_dim s' = cols_of (mop_data op).
Proof. exact c54_stored_proof. Qed.
Print Assumptions c54_stored_data.

Theorem c54_other_types_rejected :
  
  forall E c fuel op o s g r s' g', is_data (mop_data op) = false -> exec_mop E c fuel op o s g = (r, s', g') ->
  r = Err TypeError /\ s' = s.
Proof. exact c54_rejected_proof. Qed.
Print Assumptions c54_other_types_rejected.

Theorem c54_series_without_nu_fails :
  
  forall E c fuel op l o s g r s' g', mop_data op = YSeries l -> s_nu s = None -> exec_mop E c fuel op o s g = (r, s', g') -> r = Err IndexError.
Proof. exact c54_series_nu_proof. Qed.
Print Assumptions c54_series_without_nu_fails.

Theorem c54_series_never_fits_variationally :
  
  forall E c l k warm tol meth o s g s' g', (1 <= s_total s)%Z ->
  fit_variational E c (YSeries l) k warm tol meth o s g <> (Ok tt, s', g').
Proof. exact c54_series_variational_proof. Qed.
Print Assumptions c54_series_never_fits_variationally.

Theorem c54_queries_reject_series :
  
  forall QE s y, (exists l, y = YSeries l) \/ y = YOther -> all_queries QE s y TypeError.
Proof. exact c54_query_proof. Qed.
Print Assumptions c54_queries_reject_series.

Theorem c54_single_observation_fails :
  
  forall E c fuel y ig warm meth o s g s' g', length (rows_of y) = 1%nat -> (s_burn s < s_total s)%Z ->
  fit_gibbs E c fuel y ig warm meth o s g <> (Ok tt, s', g').
Proof. exact c54_single_proof. Qed.
Print Assumptions c54_single_observation_fails.

Example c54_nontrivial : exists s0 g0 s g, new_mix (CDP 1) 0 0 None 1 None (Some 2) 2 1 1 o_half = Ok (s0, g0) /\
  exec_mop flat_env (CDP 1) 60 (MGibbs (YSeries [-1; 2; 3]) SNone false IRandom) o_half s0 g0 = (Ok tt, s, g) /\ s_y s = [[-1]; [2]; [3]] /\ s_1d s = true /\
  (s_burn s0 < s_total s0)%Z /\ length (rows_of (YNum 1)) = 0%nat /\ length (rows_of (YArr1 [1])) = 1%nat.
Proof. eexists _, _, _, _. split; [vm_compute; reflexivity|]. split; [vm_compute; reflexivity|]. repeat split; reflexivity. Qed.
