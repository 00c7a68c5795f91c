(* What gibbs_map_pairplot draws: theorems. *)
From Verif Require Import Prelude Numpy Rng M_Weights M_Niw M_Utils M_Mix M_Query M_Plot S_Oracle S_Weights S_Niw S_Mix S_Sort S_Query S_MixEx S_Plot P_MixEx P_QueryEx P_Plot P_PlotEx.
Open Scope Q_scope.

(* ---- C72 ---- *)

Theorem c72_what_is_drawn :
  
  forall E QE c fuel parg narg mu lam psi nu t b k o s0 g0 ops s g cmds, valid_oracle o ->
  (forall x al a b pm, c = CBIB x al a b pm -> in01 parg) -> pdf_ok QE ->
  new_mix c parg narg mu lam psi nu t b k o = Ok (s0, g0) -> run_mops E c fuel ops o s0 g0 = (s, g) ->
  gibbs_map_pairplot QE s = Ok cmds ->
  exists r grp lab unc col, s_map s = Some r /\ clusters QE (s_y s) r grp lab unc /\ (2 <= s_dim s)%nat /\ distinct grp <> 11%nat /\
    (forall j, (j < distinct grp)%nat -> col j = palette (distinct grp) j) /\
    (told_apart (distinct grp) col <-> (distinct grp <= 10)%nat) /\ shows QE s r (distinct grp) lab col cmds.
Proof. exact c72_shows_proof. Qed.
Print Assumptions c72_what_is_drawn.

Theorem c72_right_components_iff_first_ones :
  
  forall QE x r grp lab unc, clusters QE x r grp lab unc ->
  (lab = grp <-> contiguous (distinct grp) grp).
Proof. exact c72_rows_proof. Qed.
Print Assumptions c72_right_components_iff_first_ones.

Theorem c72_component_of_rows_refuted :
  
  exists E QE c fuel o s0 g0 s g r grp lab unc cmds, valid_oracle o /\ pdf_ok QE /\ new_mix c 0 0 None 1 None None 2 1 1 o = Ok (s0, g0) /\
  fit_gibbs E c fuel (YList2 [[-1; 0]; [2; 1]; [3; 2]] 2) SNone false IKmeans o s0 g0 = (Ok tt, s, g) /\ gibbs_map_pairplot QE s = Ok cmds /\
  s_map s = Some r /\ clusters QE (s_y s) r grp lab unc /\ grp = [1; 1; 1]%nat /\
  (exists a xs ys, atom_of 0 (r_theta r) = Some a /\ In (PScatter 0 1 xs ys [0; 0; 0]%nat) cmds /\ exists sg, In (PContour 0 1 0 [coord 0 (fst a); coord 1 (fst a)] sg) cmds) /\
  (exists a, atom_of 1 (r_theta r) = Some a /\ forall k sg, ~ In (PContour 0 1 k [coord 0 (fst a); coord 1 (fst a)] sg) cmds).
Proof. exact c72_refuted_proof. Qed.
Print Assumptions c72_component_of_rows_refuted.

Theorem c72_eleven_clusters_fail :
  
  forall QE s r lab unc, s_1d s = false -> s_map s = Some r -> (2 <= s_dim s)%nat -> norm_total QE -> atoms_of_dim (s_dim s) r ->
  pdf_ok QE -> nonneg (r_w r) -> gibbs_map_cluster QE s None = Ok (lab, unc) -> s_y s <> [] ->
  (distinct lab <> 11%nat -> exists cmds, gibbs_map_pairplot QE s = Ok cmds) /\
  (distinct lab = 11%nat -> gibbs_map_pairplot QE s = Err IndexError).
Proof. exact c72_outcome_proof. Qed.
Print Assumptions c72_eleven_clusters_fail.

Theorem c72_other_failures :
  
  forall QE s,
  (s_1d s = true -> gibbs_map_pairplot QE s = Err IndexError) /\
  (s_1d s = false -> s_gfit s = false -> gibbs_map_pairplot QE s = Err NotFittedError) /\
  (forall lab unc, s_1d s = false -> s_dim s = 1%nat -> gibbs_map_cluster QE s None = Ok (lab, unc) -> lab <> [] -> gibbs_map_pairplot QE s = Err TypeError).
Proof. exact c72_errors_proof. Qed.
Print Assumptions c72_other_failures.

Theorem c72_unfitted_is_index_error :
  
  forall QE c parg narg mu lam psi nu t b k o s g, new_mix c parg narg mu lam psi nu t b k o = Ok (s, g) -> gibbs_map_pairplot QE s = Err IndexError.
Proof. exact c72_unfitted_proof. Qed.
Print Assumptions c72_unfitted_is_index_error.

Example c72_nontrivial : exists s0 g0 s g cmds, valid_oracle o_near /\ pdf_ok near_qenv /\ new_mix CEqual 0 12 None (1 # 100) None None 1 0 1 o_near = Ok (s0, g0) /\
  run_mops near_env CEqual 60 [cold (parabola 12)] o_near s0 g0 = (s, g) /\ gibbs_map_pairplot near_qenv s = Ok cmds.
Proof.
  destruct twelve_facts as (s0 & g0 & s & g & r & unc & cmds & H0 & H1 & _ & _ & _ & _ & _ & _ & _ & Hp). exists s0, g0, s, g, cmds. split; [apply o_near_valid|]. split; [apply near_ok|]. split; [exact H0|].
  split; [|exact Hp]. unfold run_mops, exec_mop, cold. rewrite H1. reflexivity.
Qed.
Example c72_eleven_nontrivial : exists s r unc, s_1d s = false /\ s_map s = Some r /\ (2 <= s_dim s)%nat /\ norm_total near_qenv /\ atoms_of_dim (s_dim s) r /\
  pdf_ok near_qenv /\ nonneg (r_w r) /\ gibbs_map_cluster near_qenv s None = Ok (seq 0 11, unc) /\ s_y s <> [] /\ distinct (seq 0 11) = 11%nat.
Proof.
  destruct eleven_facts as (s0 & g0 & s & g & r & unc & _ & _ & D & M & K & A & W & C & Y). exists s, r, unc. rewrite K.
  split; [exact D|]. split; [exact M|]. split; [lia|]. split; [apply near_total|]. split; [exact A|]. split; [apply near_ok|]. split; [exact W|]. split; [exact C|]. split; [exact Y|reflexivity].
Qed.
Example c72_one_feature_nontrivial : exists s0 g0 s g lab unc, new_mix (CDP 1) 0 0 None 1 None None 2 1 1 o_half = Ok (s0, g0) /\
  fit_gibbs off_env (CDP 1) 60 (YList1 [-1; 2; 3]) SNone false IKmeans o_half s0 g0 = (Ok tt, s, g) /\ s_1d s = false /\ s_dim s = 1%nat /\ gibbs_map_cluster left_qenv s None = Ok (lab, unc) /\ lab <> [].
Proof. eexists _, _, _, _, _, _. split; [vm_compute; reflexivity|]. split; [vm_compute; reflexivity|]. split; [reflexivity|]. split; [reflexivity|]. split; [vm_compute; reflexivity|discriminate]. Qed.
