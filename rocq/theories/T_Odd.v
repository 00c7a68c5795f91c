(* Property theorems: unusual densities, affinity matrices and settings. *)
From Verif Require Import Prelude Numpy Rng M_Weights M_Niw M_Utils M_Mix M_Query S_Oracle S_Mix S_Flags S_SliceStep S_MixEx S_Odd P_MixEx P_Odd.
Open Scope Q_scope.

(* ---- C90 ---- *)

Theorem c90_label_chosen :
  forall E c fuel o s g s' g' i, valid_oracle o -> gibbs_step E c fuel o s g = (Ok tt, s', g') -> (i < length (labels_of s'))%nat ->
  (exists ls, scores_at E s' i ls) /\ forall ls, scores_at E s' i ls -> chosen ls (nth i (labels_of s') 0%nat).
Proof. exact c90_label_proof. Qed.
Print Assumptions c90_label_chosen.

Theorem c90_undefined_density_captures :
  forall E c fuel o s g s' g' i j a l, valid_oracle o -> gibbs_step E c fuel o s g = (Ok tt, s', g') -> (i < length (labels_of s'))%nat ->
  (j < length (w (s_wm s')))%nat -> lookup j (s_theta s') = Some a -> e_logpdf E (s_y s') a = Ok l ->
  nth i l LNan = LNan \/ (nth i l LNan = LPos /\ nth j (w (s_wm s')) 0 <= nth i (s_u s') 0) ->
  (nth i (labels_of s') 0 <= j)%nat.
Proof. exact c90_below_proof. Qed.
Print Assumptions c90_undefined_density_captures.

(* ---- C91 ---- *)

Theorem c91_saving_fails :
  forall E c fuel y ig meth o s g r s' g', valid_oracle o -> length (s_aff s) <> length (labels_of s) -> (0 < s_total s - s_burn s)%Z ->
  fit_gibbs E c fuel y ig true meth o s g = (r, s', g') ->
  is_ok r = false /\ s_saved s' = s_saved s /\ s_aff s' = s_aff s /\
  (s_sims s' = s_sims s \/ (r = Err ValueError /\ length (s_sims s') = S (length (s_sims s)) /\ length (s_groups s') = S (length (s_groups s)))).
Proof. exact c91_stuck_proof. Qed.
Print Assumptions c91_saving_fails.

Theorem c91_failed_cold_start_refuted :
  exists E c fuel o s0 g0 s1 g1 s2 g2 s3 g3, valid_oracle o /\ new_mix c 0 0 None 1 None None 3 1 1 o = Ok (s0, g0) /\
  fit_gibbs E c fuel y3 SNone false IKmeans o s0 g0 = (Ok tt, s1, g1) /\
  fit_gibbs E c fuel y4 (SInt 9) false IKmeans o s1 g1 = (Err ValueError, s2, g2) /\
  fit_gibbs E c fuel y3 SNone true IKmeans o s2 g2 = (Err ValueError, s3, g3) /\
  length (s_aff s2) = 4%nat /\ length (labels_of s2) = 3%nat /\ length (s_sims s3) = 1%nat /\ s_saved s3 = 0%nat.
Proof. exact c91_refuted_proof. Qed.
Print Assumptions c91_failed_cold_start_refuted.

(* ---- C92 ---- *)

Theorem c92_fitted_without_a_sweep :
  forall E c fuel y ig meth o s g, is_data y = true -> has_nu s y -> (s_burn s <= 0)%Z -> (s_total s <= s_burn s)%Z ->
  exists s', fit_gibbs E c fuel y ig true meth o s g = (Ok tt, s', g) /\ s_gfit s' = true /\ s_y s' = rows_of y /\ s_sims s' = s_sims s /\ s_map s' = s_map s /\ s_d s' = s_d s.
Proof. exact c92_no_sweep_proof. Qed.
Print Assumptions c92_fitted_without_a_sweep.

Theorem c92_queries_without_a_state :
  forall QE s, s_gfit s = true -> s_map s = None -> s_sims s = [] -> forall y x, cast_obs s y = Ok x ->
  (forall dim comp, gibbs_map_density QE s y dim comp = Err TypeError) /\ gibbs_map_cluster QE s y = Err TypeError /\
  forall dim comp periods, gibbs_eap_density QE s y dim comp periods = Ok None.
Proof. exact c92_queries_proof. Qed.
Print Assumptions c92_queries_without_a_state.

(* the density of every atom is NaN at the second observation: it gets label 0 *)
Example c90_nontrivial :
  exists s' g' ls, gibbs_step nan_env (CDP 1) 60 o_half (fst nan_pre) (snd nan_pre) = (Ok tt, s', g') /\ (1 < length (labels_of s'))%nat /\
    nth 1 (labels_of s') 7%nat = 0%nat /\ (1 < length ls)%nat /\ scores_at nan_env s' 1 ls.
Proof.
  assert (L : (1 < length (labels_of (snd (fst nan_step))))%nat) by (vm_compute; lia).
  destruct (proj1 (c90_label_chosen nan_env (CDP 1) 60%nat o_half (fst nan_pre) (snd nan_pre) (snd (fst nan_step)) (snd nan_step) 1%nat o_half_valid nan_step_ok L)) as (ls & Sc).
  exists (snd (fst nan_step)), (snd nan_step), ls. split; [exact nan_step_ok|]. split; [exact L|]. split; [vm_compute; reflexivity|]. split; [|exact Sc].
  replace (length ls) with (length (w (s_wm (snd (fst nan_step))))) by (symmetry; exact (proj1 Sc)). vm_compute. lia.
Qed.
(* total_iter = 0.9 and burn_in = 0.5 are accepted and truncated to 0 *)
Example c92_nontrivial : exists s g s' g', new_mix (CDP 1) 0 0 None 1 None None (9 # 10) (1 # 2) 1 o_half = Ok (s, g) /\ (s_burn s <= 0)%Z /\ (s_total s <= s_burn s)%Z /\
  is_data y3 = true /\ has_nu s y3 /\ fit_gibbs flat_env (CDP 1) 60 y3 SNone true IKmeans o_half s g = (Ok tt, s', g') /\ s_gfit s' = true /\ s_map s' = None /\ s_sims s' = [] /\ exists x, cast_obs s' None = Ok x.
Proof.
  eexists _, _, _, _. split; [vm_compute; reflexivity|]. split; [vm_compute; discriminate|]. split; [vm_compute; discriminate|]. split; [reflexivity|]. split; [right; discriminate|].
  split; [vm_compute; reflexivity|]. repeat split. eexists. vm_compute. reflexivity.
Qed.
