(* C93: a Gibbs fit does not depend on the coordinates.  Take every data row x
   to A x + t (any matrix A, any t, the same in both runs), the priors to their
   images, and give the second run the same random numbers in the new
   coordinates: the fit ends in the same way, with the same weights, labels,
   slices, saved counts and affinity, and every atom is the image of the atom
   of the first run; densities differ by one factor, clusters by nothing. *)
From Verif Require Import Prelude Numpy Rng M_Weights M_Niw M_Utils M_Mix M_Query S_Oracle S_MixEx S_Niw S_Mix S_Query S_GAffine P_GAffQ P_GAffEx.
Open Scope Q_scope.

Theorem c93_fit : forall C r o o' E E' c fuel y y' ig warm meth s s' g g',
  valid_oracle o -> draws_moved C o o' -> env_moved C r E E' -> arg_moved C y y' -> meth <> IVariational \/ warm = true ->
  mix_moved C (nq (length (rows_of y)) * r) s s' -> log_moved C g g' ->
  match fit_gibbs E c fuel y ig warm meth o s g with (x, t, h) => exists t' h',
    fit_gibbs E' c fuel y' ig warm meth o' s' g' = (x, t', h') /\ mix_moved C (nq (length (rows_of y)) * r) t t' /\ log_moved C h h' end.
Proof. exact c93_fit_proof. Qed.
Print Assumptions c93_fit.

Theorem c93_new : forall C q o o' c parg narg mu mu' lam psi psi' nu total burn sub,
  draws_moved C o o' -> opt_moved (point_moved C) mu mu' -> opt_moved (cov_moved C) psi psi' ->
  res_moved (fun x x' => mix_moved C q (fst x) (fst x') /\ log_moved C (snd x) (snd x'))
    (new_mix c parg narg mu lam psi nu total burn sub o) (new_mix c parg narg mu' lam psi' nu total burn sub o').
Proof. exact c93_new_proof. Qed.
Print Assumptions c93_new.

Theorem c93_map_density : forall C rho Q1 Q2, qenv_moved C rho Q1 Q2 -> forall q s s' y y' comp, mix_moved C q s s' -> query_moved C y y' ->
  res_moved (scaled rho) (gibbs_map_density Q1 s y DNone comp) (gibbs_map_density Q2 s' y' DNone comp).
Proof. exact c93_map_density_proof. Qed.
Print Assumptions c93_map_density.

Theorem c93_eap_density : forall C rho Q1 Q2, qenv_moved C rho Q1 Q2 -> forall q s s' y y' comp periods, mix_moved C q s s' -> query_moved C y y' ->
  res_moved (opt_moved (scaled rho)) (gibbs_eap_density Q1 s y DNone comp periods) (gibbs_eap_density Q2 s' y' DNone comp periods).
Proof. exact c93_eap_density_proof. Qed.
Print Assumptions c93_eap_density.

Theorem c93_clusters : forall C rho Q1 Q2, qenv_moved C rho Q1 Q2 -> ~ rho == 0 -> forall q s s' y y', mix_moved C q s s' -> query_moved C y y' ->
  res_moved same_clusters (gibbs_map_cluster Q1 s y) (gibbs_map_cluster Q2 s' y') /\
  gibbs_eap_affinity_matrix Q2 s' y' = gibbs_eap_affinity_matrix Q1 s y /\
  forall k, gibbs_spectral Q2 s' y' k = gibbs_spectral Q1 s y k.
Proof. exact c93_clusters_proof. Qed.
Print Assumptions c93_clusters.

(* a quarter turn with doubled units: all hypotheses hold, both fits finish *)
Example c93_ex : valid_oracle turn_o /\ draws_moved turn turn_o turn_o /\ env_moved turn (-(7)) (turn_env 0) (turn_env (-(7))) /\
  arg_moved turn (YArr2 turn_y 2) (YList2 (map turned turn_y) 2) /\ qenv_moved turn (1 # 4) (turn_qenv 1) (turn_qenv (1 # 4)) /\
  point_moved turn [1; 2] [-(3); 2] /\ cov_moved turn [[3; 1]; [1; 2]] [[8; -(4)]; [-(4); 12]].
Proof. exact (conj turn_valid (conj turn_draws (conj turn_env_moved (conj turn_args (conj turn_qenv_moved (conj turn_mu turn_psi)))))). Qed.
Example c93_ex_run :
  match turn_fit 0 (YArr2 turn_y 2) turn_s1, turn_fit (-(7)) (YList2 (map turned turn_y) 2) turn_s2 with
  | (Ok _, t, _), (Ok _, t', _) => s_d t' = s_d t /\ length (s_sims t) = 3%nat /\
      match s_mapll t, s_mapll t' with LQ a, LQ b => Qeq_bool b (a - 28) = true | _, _ => False end /\
      match s_theta t, s_theta t' with (_, (m, _)) :: _, (_, (m', _)) :: _ => map Qred m' = map Qred (turned m) /\ map Qred m' <> map Qred m | _, _ => False end
  | _, _ => False
  end.
Proof. vm_compute. repeat split; discriminate. Qed.
