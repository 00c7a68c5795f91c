(* C79: mixtures over coinciding weight models. *)
From Verif Require Import Prelude Numpy Rng M_Weights M_Niw M_Utils M_Mix M_Query S_Weights S_Hist S_Oracle S_Twin S_MixEx P_MixEx P_TwinMix.
Open Scope Q_scope.

Theorem c79_beta_in_beta_zero_mixture :
  
  forall E fuel x al a b pm o s1 s2 g1 g2 ops op, x == 0 -> born_twins (CBIB x al a b pm) (CDP al) o s1 s2 g1 g2 ->
  Forall plain_gibbs ops -> plain_gibbs op ->
  let q1 := run_mops E (CBIB x al a b pm) fuel ops o s1 g1 in let q2 := run_mops E (CDP al) fuel ops o s2 g2 in
  snd q1 = snd q2 /\ twins (fst q1) (fst q2) /\
  same_fit (exec_mop E (CBIB x al a b pm) fuel op o (fst q1) (snd q1)) (exec_mop E (CDP al) fuel op o (fst q2) (snd q2)).
Proof. exact c79_bib_proof. Qed.
Print Assumptions c79_beta_in_beta_zero_mixture.

Theorem c79_pitman_yor_zero_mixture :
  
  forall E fuel pd al o s1 s2 g1 g2 ops op, pd == 0 -> born_twins (CPY pd al) (CDP al) o s1 s2 g1 g2 ->
  Forall plain_gibbs ops -> plain_gibbs op ->
  let q1 := run_mops E (CPY pd al) fuel ops o s1 g1 in let q2 := run_mops E (CDP al) fuel ops o s2 g2 in
  snd q1 = snd q2 /\ twins (fst q1) (fst q2) /\
  same_fit (exec_mop E (CPY pd al) fuel op o (fst q1) (snd q1)) (exec_mop E (CDP al) fuel op o (fst q2) (snd q2)).
Proof. exact c79_py_proof. Qed.
Print Assumptions c79_pitman_yor_zero_mixture.

Theorem c79_single_fit :
  
  forall E fuel x al a b pm y ig warm meth o s1 s2 g, x == 0 -> meth <> IVariational -> twins s1 s2 ->
  same_fit (fit_gibbs E (CBIB x al a b pm) fuel y ig warm meth o s1 g) (fit_gibbs E (CDP al) fuel y ig warm meth o s2 g).
Proof. exact c79_fit_proof. Qed.
Print Assumptions c79_single_fit.

Theorem c79_same_answers :
  
  forall Q s1 s2, twins s1 s2 ->
  (forall y dim comp periods, gibbs_eap_density Q s1 y dim comp periods = gibbs_eap_density Q s2 y dim comp periods) /\
  (forall y dim comp, gibbs_map_density Q s1 y dim comp = gibbs_map_density Q s2 y dim comp) /\
  (forall y, gibbs_map_cluster Q s1 y = gibbs_map_cluster Q s2 y) /\
  (forall y, gibbs_eap_affinity_matrix Q s1 y = gibbs_eap_affinity_matrix Q s2 y) /\
  (forall y k, gibbs_spectral Q s1 y k = gibbs_spectral Q s2 y k) /\
  get_n_groups s1 = get_n_groups s2 /\ get_n_theta s1 = get_n_theta s2 /\ get_sim_params s1 = get_sim_params s2.
Proof. exact c79_queries_proof. Qed.
Print Assumptions c79_same_answers.

Theorem c79_pitman_yor_zero_weights :
  
  forall pd al p1 p2 n1 n2 o ops s1 s2 g1 g2, pd == 0 -> Forall plain_sized ops ->
  new_ws (CPY pd al) p1 n1 o = Ok (s1, g1) -> new_ws (CDP al) p2 n2 o = Ok (s2, g2) ->
  same_view (fst (run_ops (CPY pd al) ops o s1 g1)) (fst (run_ops (CDP al) ops o s2 g2)) /\
  snd (run_ops (CPY pd al) ops o s1 g1) = snd (run_ops (CDP al) ops o s2 g2).
Proof. exact c79_weights_proof. Qed.
Print Assumptions c79_pitman_yor_zero_weights.

(* random(0) empties the weights of one class and keeps the old ones of the other *)
Theorem c79_size_zero_refuted :
  
  exists o al, valid_oracle o /\ 0 < al /\
  w (fst (run_ops (CPY 0 al) [OpRandom (SInt 1); OpRandom (SInt 0)] o (ws_init 0 0) [])) = [] /\
  w (fst (run_ops (CDP al) [OpRandom (SInt 1); OpRandom (SInt 0)] o (ws_init 0 0) [])) <> [].
Proof. exact c79_zero_proof. Qed.
Print Assumptions c79_size_zero_refuted.

(* init_method="variational" is not available for BetaInBeta *)
Theorem c79_variational_start_refuted :
  
  exists E fuel o al a b pm s1 s2 g1 g2 t1 h1 t2 h2, valid_oracle o /\
  born_twins (CBIB 0 al a b pm) (CDP al) o s1 s2 g1 g2 /\
  fit_gibbs E (CBIB 0 al a b pm) fuel y3 SNone false IVariational o s1 g1 = (Err NotImplementedError, t1, h1) /\
  fit_gibbs E (CDP al) fuel y3 SNone false IVariational o s2 g2 = (Ok tt, t2, h2).
Proof. exact c79_variational_proof. Qed.
Print Assumptions c79_variational_start_refuted.

(* the hypotheses are met by a fit that ends normally with several weights *)
Example c79_nontrivial : exists s1 s2 g, born_twins (CPY 0 1) (CDP 1) o_half s1 s2 g g /\
  fst (fst (fit_gibbs flat_env (CPY 0 1) 60 y3 SNone false IKmeans o_half s1 g)) = Ok tt /\
  (1 < length (w (s_wm (snd (fst (fit_gibbs flat_env (CPY 0 1) 60 y3 SNone false IKmeans o_half s1 g))))))%nat.
Proof. exact twin_example. Qed.
Example c79_plain : plain_gibbs (MGibbs y3 SNone false IKmeans) /\ Forall plain_sized [OpRandom (SInt 2); OpComplete (SInt 4); OpFit [0%nat; 1%nat]; OpRandom SNone].
Proof. split; [discriminate|]. repeat constructor. Qed.
