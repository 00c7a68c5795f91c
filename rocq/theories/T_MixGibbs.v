(* Gibbs fits of the mixture classes: theorems. *)
From Coq Require Import Permutation.
From Verif Require Import Prelude Numpy Rng M_Weights M_Niw M_Utils M_Mix M_Query S_Oracle S_Niw S_Mix S_MixEx P_Mix33 P_Mix34 P_Mix38 P_MixEx P_Niw.
Open Scope Q_scope.
Open Scope m_scope.

(* ---- C33 ---- *)

Theorem c33_saved_states :
  
  forall E c fuel y ig meth o s g s' g', (1 <= s_sub s)%Z ->
  fit_gibbs E c fuel y ig false meth o s g = (Ok tt, s', g') ->
  length (get_sim_params s') = planned_saves s /\ length (get_n_groups s') = planned_saves s /\
  length (get_n_theta s') = planned_saves s /\ s_saved s' = planned_saves s.
Proof. exact c33_cold_proof. Qed.
Print Assumptions c33_saved_states.

Theorem c33_warm_start_adds :
  
  forall E c fuel y ig meth o s g s' g', (1 <= s_sub s)%Z ->
  fit_gibbs E c fuel y ig true meth o s g = (Ok tt, s', g') ->
  length (get_sim_params s') = (length (get_sim_params s) + planned_saves s)%nat /\
  length (get_n_groups s') = (length (get_n_groups s) + planned_saves s)%nat /\
  length (get_n_theta s') = (length (get_n_theta s) + planned_saves s)%nat /\
  s_saved s' = (s_saved s + planned_saves s)%nat /\ planned_saves s' = planned_saves s.
Proof. exact c33_warm_proof. Qed.
Print Assumptions c33_warm_start_adds.

Example c33_nontrivial : let r := ex_last flat_env (CDP 1) 0 7 1 2 o_half [] (cold y3) in
  ex_out r = Ok tt /\ s_sub (fst (ex_run flat_env (CDP 1) 0 7 1 2 o_half [])) = 2%Z /\ length (get_sim_params (ex_st r)) = 3%nat /\
  let r2 := ex_last flat_env (CDP 1) 0 7 1 2 o_half [cold y3] (MGibbs y3 SNone true IKmeans) in
  ex_out r2 = Ok tt /\ length (get_sim_params (ex_st r2)) = 6%nat.
Proof. vm_compute. repeat split; reflexivity. Qed.
Example c33_ceil : ceil_div 6 2 = 3%Z /\ ceil_div 7 2 = 4%Z /\ ceil_div 1 3 = 1%Z.
Proof. repeat split; reflexivity. Qed.

(* ---- C34 ---- *)

Theorem c34_affinity_frequency :
  
  forall E QE c fuel o s g, valid_oracle o -> gibbs_history E c fuel o s g -> get_sim_params s <> [] ->
  exists m n, gibbs_eap_affinity_matrix QE s None = Ok m /\ length m = n /\ (forall r, In r (get_sim_params s) -> length (r_d r) = n) /\
    forall i, (i < n)%nat -> length (nth i m []) = n /\
    forall k, (k < n)%nat -> nth k (nth i m []) None = Some (nq (n_together i k (get_sim_params s)) / nq (length (get_sim_params s))).
Proof. exact c34_frequency_proof. Qed.
Print Assumptions c34_affinity_frequency.

Theorem c34_affinity_shape :
  
  forall E QE c fuel o s g, valid_oracle o -> gibbs_history E c fuel o s g -> get_sim_params s <> [] ->
  exists m, gibbs_eap_affinity_matrix QE s None = Ok m /\
    forall i k, (i < length m)%nat -> (k < length m)%nat ->
      exists q, nth k (nth i m []) None = Some q /\ nth i (nth k m []) None = Some q /\ 0 <= q /\ q <= 1 /\ (i = k -> q == 1).
Proof. exact c34_shape_proof. Qed.
Print Assumptions c34_affinity_shape.

Theorem c34_after_failed_fit_refuted :
  
  exists E QE c fuel o ops s0 g0 s g,
  valid_oracle o /\ new_mix c 0 0 None 1 None None 2 1 1 o = Ok (s0, g0) /\ run_mops E c fuel ops o s0 g0 = (s, g) /\
  s_gfit s = true /\ (exists r, get_sim_params s = [r] /\ length (r_d r) = 3%nat) /\
  gibbs_eap_affinity_matrix QE s None = Ok [[None; None]; [None; None]].
Proof. exact c34_refuted_proof. Qed.
Print Assumptions c34_after_failed_fit_refuted.

Example c34_nontrivial : exists s g, gibbs_history flat_env (CDP 1) 60 o_half s g /\ length (get_sim_params s) = 3%nat /\
  exists m, gibbs_eap_affinity_matrix flat_qenv s None = Ok m /\ nth 1 (nth 0 m []) None = Some (0 # 3) /\ nth 2 (nth 1 m []) None = Some (3 # 3).
Proof.
  eexists _, _. split; [apply (ex_history flat_env (CDP 1) 0 7 1 2 o_half [] y3 SNone IKmeans); vm_compute; reflexivity|].
  split; [vm_compute; reflexivity|]. eexists. split; [vm_compute; reflexivity|split; reflexivity].
Qed.

(* ---- C37 ---- *)

Theorem c37_labels_in_range :
  
  forall E c fuel o s g s' g', valid_oracle o -> sweep E c fuel o s g = (Ok tt, s', g') ->
  length (labels_of s') = length (s_y s') /\ Forall (fun j => (j < length (w (s_wm s')))%nat) (labels_of s').
Proof. exact c37_labels_proof. Qed.
Print Assumptions c37_labels_in_range.

Theorem c37_labels_after_step :
  
  forall E c fuel o s g s' g', valid_oracle o -> gibbs_step E c fuel o s g = (Ok tt, s', g') ->
  length (labels_of s') = length (s_y s) /\ Forall (fun j => (j < length (w (s_wm s')))%nat) (labels_of s').
Proof. exact c37_step_proof. Qed.
Print Assumptions c37_labels_after_step.

Theorem c37_next_slice :
  
  forall E c fuel o s g s' g' x s2 g2, valid_oracle o -> sweep E c fuel o s g = (Ok tt, s', g') ->
  (onw (wm_fit (labels_of s')) ;; onw (wm_random c SNone)) o s' g' = (Ok x, s2, g2) ->
  Forall (fun j => (j < length x)%nat) (labels_of s').
Proof. exact c37_slice_proof. Qed.
Print Assumptions c37_next_slice.

Theorem c37_likelihood_in_range :
  
  forall E c fuel o s g s' g', valid_oracle o -> draws_no_index o -> env_no_index E ->
  gibbs_step E c fuel o s g = (Ok tt, s', g') -> fst (fst (run_loglik E c o s' g')) <> Err IndexError.
Proof. exact c37_likelihood_proof. Qed.
Print Assumptions c37_likelihood_in_range.

Theorem c37_frequency_refit_refuted :
  
  exists E c fuel o s0 g0 s1 g1 s2 g2,
  valid_oracle o /\ finite_env E /\ new_mix c 0 0 None 1 None None 2 1 1 o = Ok (s0, g0) /\
  fit_gibbs E c fuel (YList1 [-1; -2]) SNone false IKmeans o s0 g0 = (Ok tt, s1, g1) /\
  fit_gibbs E c fuel (YList1 [-1; 2; 3; 4]) SNone false IKmeans o s1 g1 = (Err IndexError, s2, g2).
Proof. exact c37_frequency_refuted_proof. Qed.
Print Assumptions c37_frequency_refit_refuted.

Theorem c37_equal_refit_refuted :
  
  exists E c fuel o s0 g0 s1 g1 s2 g2 s3 g3,
  valid_oracle o /\ finite_env E /\ new_mix c 0 4 None 1 None None 2 1 1 o = Ok (s0, g0) /\
  fit_gibbs E c fuel (YList1 [-1; 2; 3; 4]) SNone false IKmeans o s0 g0 = (Ok tt, s1, g1) /\
  fit_variational E c (YList1 [-1; 2; 3; 4]) (SInt 2) false 1 IKmeans o s1 g1 = (Ok tt, s2, g2) /\
  fit_gibbs E c fuel (YList1 [-1; 2; 3; 4]) SNone true IKmeans o s2 g2 = (Err IndexError, s3, g3).
Proof. exact c37_equal_refuted_proof. Qed.
Print Assumptions c37_equal_refit_refuted.

Example c37_nontrivial : let q := ex_run flat_env (CDP 1) 0 7 1 2 o_half [cold y3] in
  let r := sweep flat_env (CDP 1) 60 o_half (fst q) (snd q) in
  fst (fst r) = Ok tt /\ labels_of (snd (fst r)) = [1; 0; 0]%nat /\ length (w (s_wm (snd (fst r)))) = 3%nat /\
  fst (fst ((onw (wm_fit (labels_of (snd (fst r)))) ;; onw (wm_random (CDP 1) SNone)) o_half (snd (fst r)) (snd r))) = Ok [1 # 2; 1 # 4].
Proof. vm_compute. repeat split; reflexivity. Qed.
Example c37_nontrivial_step : let q := ex_run flat_env (CDP 1) 0 7 1 2 o_half [cold y3] in
  draws_no_index o_half /\ env_no_index flat_env /\ fst (fst (gibbs_step flat_env (CDP 1) 60 o_half (fst q) (snd q))) = Ok tt.
Proof. split; [split; discriminate|]. split; [discriminate|]. vm_compute; reflexivity. Qed.

(* ---- C38 ---- *)

Theorem c38_respects_slice :
  
  forall E c fuel o s g s' g' i, valid_oracle o -> finite_env E ->
  gibbs_step E c fuel o s g = (Ok tt, s', g') -> (i < length (labels_of s'))%nat ->
  (exists j, (j < length (w (s_wm s')))%nat /\ nth i (s_u s') 0 < nth j (w (s_wm s')) 0) ->
  nth i (s_u s') 0 < nth (nth i (labels_of s') 0%nat) (w (s_wm s')) 0.
Proof. exact c38_respects_proof. Qed.
Print Assumptions c38_respects_slice.

Theorem c38_slice_above_all :
  
  forall E c fuel o s g s' g' i, valid_oracle o -> finite_env E ->
  gibbs_step E c fuel o s g = (Ok tt, s', g') -> (i < length (labels_of s'))%nat ->
  (forall j, (j < length (w (s_wm s')))%nat -> nth j (w (s_wm s')) 0 <= nth i (s_u s') 0) ->
  nth i (labels_of s') 0%nat = 0%nat.
Proof. exact c38_above_proof. Qed.
Print Assumptions c38_slice_above_all.

Theorem c38_zero_weight_refuted :
  
  exists E c fuel o s0 g0 s g i,
  valid_oracle o /\ finite_env E /\ new_mix c 0 0 None 1 None None 2 0 1 o = Ok (s0, g0) /\
  fit_gibbs E c fuel (YList1 [-1; -2; 3]) SNone false IKmeans o s0 g0 = (Ok tt, s, g) /\ (i < length (labels_of s))%nat /\
  nth (nth i (labels_of s) 0%nat) (w (s_wm s)) 0 == 0 /\ 0 < nth i (s_u s) 0.
Proof. exact c38_zero_weight_refuted_proof. Qed.
Print Assumptions c38_zero_weight_refuted.

Example c38_nontrivial : let q := ex_run flat_env (CDP 1) 0 7 1 2 o_half [cold y3] in
  let r := gibbs_step flat_env (CDP 1) 60 o_half (fst q) (snd q) in
  finite_env flat_env /\ fst (fst r) = Ok tt /\ (0 < length (labels_of (snd (fst r))))%nat /\
  nth 0 (s_u (snd (fst r))) 0 < nth 1 (w (s_wm (snd (fst r)))) 0 /\ nth 2 (w (s_wm (snd (fst r)))) 0 <= nth 0 (s_u (snd (fst r))) 0.
Proof. split; [apply flat_finite|]. vm_compute. repeat split; try lia; discriminate. Qed.
Example c38_nontrivial_above : let q := ex_run flat_env (CFreq 3) 0 1 0 1 o_top [cold (YList1 [-1; -2; 3])] in
  let r := gibbs_step flat_env (CFreq 3) 60 o_top (fst q) (snd q) in
  fst (fst r) = Ok tt /\ (0 < length (labels_of (snd (fst r))))%nat /\
  forallb (fun x => qleb x (nth 0 (s_u (snd (fst r))) 0)) (w (s_wm (snd (fst r)))) = true.
Proof. vm_compute. repeat split; lia. Qed.

(* ---- C39 ---- *)

Theorem c39_saved_self_contained :
  
  forall E c fuel o s g r, valid_oracle o -> gibbs_history E c fuel o s g -> In r (get_sim_params s) ->
  self_contained r /\ Forall (fun j => (j < length (r_w r))%nat) (r_d r).
Proof. exact c39_saved_proof. Qed.
Print Assumptions c39_saved_self_contained.

Theorem c39_eap_density :
  
  forall E QE c fuel o s g y dim comp periods, valid_oracle o -> gibbs_history E c fuel o s g -> no_key QE ->
  (forall r, In r (get_sim_params s) -> comp_ok comp r) -> gibbs_eap_density QE s y dim comp periods <> Err KeyError.
Proof. exact c39_density_proof. Qed.
Print Assumptions c39_eap_density.

Theorem c39_eap_affinity :
  
  forall E QE c fuel o s g y, valid_oracle o -> gibbs_history E c fuel o s g -> no_key QE ->
  gibbs_eap_affinity_matrix QE s y <> Err KeyError.
Proof. exact c39_affinity_proof. Qed.
Print Assumptions c39_eap_affinity.

Theorem c39_map_refuted :
  
  exists E QE c fuel o s0 g0 s g,
  valid_oracle o /\ finite_env E /\ no_key QE /\ new_mix c 0 4 None 1 None None 2 1 1 o = Ok (s0, g0) /\
  fit_gibbs E c fuel (YList1 [-1; 2; 3; 4]) SNone false IKmeans o s0 g0 = (Ok tt, s, g) /\
  gibbs_map_density QE s None DNone None = Err KeyError /\ gibbs_map_cluster QE s None = Err KeyError.
Proof. exact c39_map_refuted_proof. Qed.
Print Assumptions c39_map_refuted.

Example c39_nontrivial : exists s g, gibbs_history flat_env (CDP 1) 60 o_half s g /\ no_key flat_qenv /\
  (exists r, nth_error (get_sim_params s) 2 = Some r /\ length (r_w r) = 3%nat /\ map fst (r_theta r) = [0; 1; 2]%nat) /\
  Forall (comp_ok (Some 2%Z)) (get_sim_params s) /\
  gibbs_eap_density flat_qenv s (Some (YNum 0)) DNone (Some 2%Z) (Some 2%Z) = Ok (Some [16 # 128]).
Proof.
  eexists _, _. split; [apply (ex_history flat_env (CDP 1) 0 7 1 2 o_half [] y3 SNone IKmeans); vm_compute; reflexivity|].
  split; [split; intros; discriminate|]. split; [eexists; split; [vm_compute; reflexivity|split; reflexivity]|].
  split; [vm_compute; repeat constructor; try discriminate|vm_compute; reflexivity].
Qed.

(* ---- C40 ---- *)

Theorem c40_counts :
  
  forall E c fuel o s g, valid_oracle o -> gibbs_history E c fuel o s g ->
  length (get_n_groups s) = length (get_sim_params s) /\ length (get_n_theta s) = length (get_sim_params s) /\
  forall t r, nth_error (get_sim_params s) t = Some r ->
    nth t (get_n_groups s) 0%nat = distinct (r_d r) /\ nth t (get_n_theta s) 0%nat = length (r_theta r) /\
    (nth t (get_n_groups s) 0 <= nth t (get_n_theta s) 0)%nat /\ (nth t (get_n_groups s) 0 <= length (r_d r))%nat /\
    forall t', (t <= t')%nat -> (t' < length (get_n_theta s))%nat -> (nth t (get_n_theta s) 0 <= nth t' (get_n_theta s) 0)%nat.
Proof. exact c40_counts_proof. Qed.
Print Assumptions c40_counts.

Theorem c40_atoms_redrawn :
  
  forall E c fuel o s g s' g', gibbs_step E c fuel o s g = (Ok tt, s', g') ->
  (forall j, In j (labels_of s) -> redrawn o s j (s_theta s')) /\
  (forall j a, ~ In j (labels_of s) -> lookup j (s_theta s) = Some a -> lookup j (s_theta s') = Some a).
Proof. exact c40_redraw_proof. Qed.
Print Assumptions c40_atoms_redrawn.

Example c40_nontrivial : exists s g, gibbs_history flat_env (CDP 1) 60 o_half s g /\
  get_n_groups s = [2; 2; 2]%nat /\ get_n_theta s = [3; 3; 3]%nat /\
  let r := gibbs_step flat_env (CDP 1) 60 o_half s g in
  fst (fst r) = Ok tt /\ labels_of s = [1; 0; 0]%nat /\ map fst (s_theta (snd (fst r))) = [0; 1; 2]%nat.
Proof.
  eexists _, _. split; [apply (ex_history flat_env (CDP 1) 0 7 1 2 o_half [] y3 SNone IKmeans); vm_compute; reflexivity|].
  vm_compute. repeat split; reflexivity.
Qed.

(* ---- C41 ---- *)

Theorem c41_natural_parameters :
  
  forall y h, y <> [] -> ~ n_lam h + nq (length y) == 0 -> is_posterior y h (niw_post y h).
Proof. exact c41_natural_proof. Qed.
Print Assumptions c41_natural_parameters.

Theorem c41_sequential :
  
  forall y1 y2 h, y1 <> [] -> y2 <> [] -> 0 < n_lam h ->
  same_niw (niw_post (y1 ++ y2) h) (niw_post y2 (niw_post y1 h)).
Proof. exact c41_split_proof. Qed.
Print Assumptions c41_sequential.

Theorem c41_order :
  
  forall y y' h, Permutation y y' -> y <> [] -> 0 < n_lam h -> same_niw (niw_post y h) (niw_post y' h).
Proof. exact c41_order_proof. Qed.
Print Assumptions c41_order.

Theorem c41_symmetric :
  
  forall y h, symmetric (length (n_mu h)) (n_psi h) -> symmetric (length (n_mu h)) (n_psi (niw_post y h)).
Proof. exact c41_symmetric_proof. Qed.
Print Assumptions c41_symmetric.

Theorem c41_positive_definite :
  
  forall y h, y <> [] -> 0 < n_lam h ->
  pos_def (length (n_mu h)) (n_psi h) -> pos_def (length (n_mu h)) (n_psi (niw_post y h)).
Proof. exact c41_posdef_proof. Qed.
Print Assumptions c41_positive_definite.

Theorem c41_call :
  
  forall y h, y <> [] -> 0 < n_lam h -> niw_fits y h = true -> exists h', niw_post_call y h = Ok h' /\ is_posterior y h h'.
Proof. exact c41_call_proof. Qed.
Print Assumptions c41_call.

Example c41_nontrivial : let h := NIW [0; 1] 1 [[2; 1]; [1; 2]] 3 in let y := [[1; 2]; [3; 0]] in
  0 < n_lam h /\ niw_fits y h = true /\ symmetric 2 (n_psi h) /\ pos_def 2 (n_psi h) /\
  n_lam (niw_post y h) == 3 /\ coord 0 (n_mu (niw_post y h)) == 4 # 3 /\ entry (n_psi (niw_post y h)) 0 1 == (-1).
Proof.
  split; [reflexivity|]. split; [reflexivity|]. split.
  { intros [|[|i]] [|[|j]] Hi Hj; try lia; reflexivity. }
  split; [|repeat split; reflexivity].
  intros x (i & Hi & Hx). unfold quad, entry. cbn [seq sum_over n_psi nth].
  set (a := coord 0 x) in *. set (b := coord 1 x) in *.
  assert (H : ~ (a == 0 /\ b == 0)) by (destruct i as [|[|i]]; [intros [A _]; auto|intros [_ A]; auto|lia]).
  assert (E : a * 2 * a + (a * 1 * b + 0) + (b * 1 * a + (b * 2 * b + 0) + 0) == a * a + b * b + (a + b) * (a + b)) by ring.
  rewrite E. pose proof (sq_nonneg a). pose proof (sq_nonneg b). pose proof (sq_nonneg (a + b)).
  destruct (Qlt_le_dec 0 (a * a)) as [L|L]; [Lqa.lra|]. destruct (Qlt_le_dec 0 (b * b)) as [L2|L2]; [Lqa.lra|].
  exfalso. apply H. split; [assert (X : a * a == 0) by Lqa.lra|assert (X : b * b == 0) by Lqa.lra]; apply Qmult_integral in X; tauto.
Qed.
