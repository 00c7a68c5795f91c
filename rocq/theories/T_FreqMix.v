(* C80: frequency weights never open a group. *)
From Verif Require Import Prelude Numpy Rng M_Weights M_Niw M_Utils M_Mix M_Query S_Weights S_Oracle S_Mix S_Map S_Sort S_FreqMix S_MixEx P_MixEx P_Sort P_Fail P_FreqMix.
Open Scope Q_scope.

Theorem c80_weights_are_frequencies :
  
  forall E n fuel o s g s' g', gibbs_step E (CFreq n) fuel o s g = (Ok tt, s', g') ->
  length (w (s_wm s')) = S (list_max (labels_of s)) /\ forall j, nth j (w (s_wm s')) 0 == nq (n_eq j (labels_of s)) / nq (length (labels_of s)).
Proof. exact c80_step_proof. Qed.
Print Assumptions c80_weights_are_frequencies.

Theorem c80_labels_were_in_use :
  
  forall E n fuel o s g s' g' i, valid_oracle o -> finite_env E -> gibbs_step E (CFreq n) fuel o s g = (Ok tt, s', g') ->
  (i < length (labels_of s'))%nat ->
  In (nth i (labels_of s') 0%nat) (labels_of s) \/
  (nth i (labels_of s') 0%nat = 0%nat /\ forall j, (j < length (w (s_wm s')))%nat -> nth j (w (s_wm s')) 0 <= nth i (s_u s') 0).
Proof. exact c80_labels_proof. Qed.
Print Assumptions c80_labels_were_in_use.

Theorem c80_group_count :
  
  forall E n fuel o s g s' g', valid_oracle o -> finite_env E -> gibbs_step E (CFreq n) fuel o s g = (Ok tt, s', g') ->
  (distinct (labels_of s') <= S (distinct (labels_of s)))%nat /\ (In 0%nat (labels_of s) -> (distinct (labels_of s') <= distinct (labels_of s))%nat).
Proof. exact c80_groups_proof. Qed.
Print Assumptions c80_group_count.

Theorem c80_warm_start :
  
  forall E n fuel y ig meth o s g s' g', valid_oracle o -> finite_env E ->
  fit_gibbs E (CFreq n) fuel y ig true meth o s g = (Ok tt, s', g') ->
  exists l, s_sims s' = s_sims s ++ l /\ Forall (fun r => incl (r_d r) (0%nat :: labels_of s)) l /\ shrinking l /\ incl (labels_of s') (0%nat :: labels_of s).
Proof. exact c80_warm_proof. Qed.
Print Assumptions c80_warm_start.

Theorem c80_one_group_forever :
  
  forall E n fuel y ig meth o s g s' g', valid_oracle o -> finite_env E ->
  fit_gibbs E (CFreq n) fuel y ig true meth o s g = (Ok tt, s', g') -> Forall (eq 0%nat) (labels_of s) ->
  exists l, s_sims s' = s_sims s ++ l /\ Forall (fun r => Forall (eq 0%nat) (r_d r)) l /\ Forall (eq 0%nat) (labels_of s').
Proof. exact c80_one_group_proof. Qed.
Print Assumptions c80_one_group_forever.

Theorem c80_cold_start :
  
  forall E n fuel y ig meth o s g s' g', valid_oracle o -> finite_env E ->
  fit_gibbs E (CFreq n) fuel y ig false meth o s g = (Ok tt, s', g') ->
  exists p ll s0 g0, replay E (CFreq n) fuel y ig false meth 0 o s g = (Ok [(p, ll)], s0, g0) /\
    Forall (fun r => incl (r_d r) (0%nat :: r_d p)) (s_sims s') /\ shrinking (s_sims s') /\ incl (labels_of s') (0%nat :: r_d p).
Proof. exact c80_cold_proof. Qed.
Print Assumptions c80_cold_start.

Theorem c80_kmeans_start :
  
  forall E n fuel y ig o s g s' g', valid_oracle o -> finite_env E -> argsorts (e_argsort E) -> s_n s = Some n ->
  fit_gibbs E (CFreq n) fuel y ig false IKmeans o s g = (Ok tt, s', g') ->
  exists p ll s0 g0, replay E (CFreq n) fuel y ig false IKmeans 0 o s g = (Ok [(p, ll)], s0, g0) /\
    (distinct (r_d p) <= Z.to_nat n)%nat /\
    Forall (fun r => incl (r_d r) (r_d p) /\ (distinct (r_d r) <= distinct (r_d p))%nat) (s_sims s').
Proof. exact c80_kmeans_proof. Qed.
Print Assumptions c80_kmeans_start.

(* not so for DirichletProcess *)
Theorem c80_dirichlet_process_refuted :
  
  exists E fuel o s g s' g' al y, valid_oracle o /\ finite_env E /\
  Forall (eq 0%nat) (labels_of s) /\ labels_of s <> [] /\
  fit_gibbs E (CDP al) fuel y SNone true IKmeans o s g = (Ok tt, s', g') /\ ~ incl (labels_of s') (0%nat :: labels_of s).
Proof. exact c80_dp_opens_proof. Qed.
Print Assumptions c80_dirichlet_process_refuted.

(* a fit whose last state has lost the group 0, continued by a warm start *)
Example c80_nontrivial : let q := ex_run sorted_env (CFreq 3) 3 2 0 1 o_lose [cold y4] in
  valid_oracle o_lose /\ finite_env sorted_env /\ argsorts (e_argsort sorted_env) /\
  ex_out (ex_last sorted_env (CFreq 3) 3 2 0 1 o_lose [] (cold y4)) = Ok tt /\ s_n (fst q) = Some 3%Z /\
  map r_d (s_sims (fst q)) = [[1; 0; 0; 0]; [1; 1; 1; 1]]%nat /\
  ex_out (ex_last sorted_env (CFreq 3) 3 2 0 1 o_lose [cold y4] (MGibbs y4 SNone true IKmeans)) = Ok tt.
Proof. split; [exact o_lose_valid|]. split; [exact flat_finite|]. split; [exact stable_argsorts|]. exact lose_example. Qed.
Example c80_nontrivial_one_group : let q := ex_run flat_env (CFreq 3) 3 2 0 1 o_open [cold y4] in
  labels_of (fst q) = [0; 0; 0; 0]%nat /\ ex_out (ex_last flat_env (CFreq 3) 3 2 0 1 o_open [cold y4] (MGibbs y4 SNone true IKmeans)) = Ok tt.
Proof. exact zero_example. Qed.
