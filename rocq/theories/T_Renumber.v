(* Property theorems C105: the numbering of the components and the order of the saved states. *)
From Coq Require Import Lqa Permutation.
From Verif Require Import Prelude Numpy Rng M_Weights M_Niw M_Utils M_Mix M_Query S_Niw S_Mix S_Sort S_Query S_Renumber P_Renumber.
Open Scope Q_scope.

Theorem c105_density :
  forall QE x fl dim r r' v, same_mixture r r' -> mixture_density QE x fl (r_w r) (r_theta r) dim None = Ok v ->
  exists v', mixture_density QE x fl (r_w r') (r_theta r') dim None = Ok v' /\ agree v v'.
Proof. exact density_proof. Qed.
Print Assumptions c105_density.

Theorem c105_one_component :
  forall QE x fl dim pi r r' j, renumbers pi r r' -> (j < length (r_w r))%nat ->
  mixture_density QE x fl (r_w r') (r_theta r') dim (Some (Z.of_nat (pi j))) = mixture_density QE x fl (r_w r) (r_theta r) dim (Some (Z.of_nat j)).
Proof. exact one_component_proof. Qed.
Print Assumptions c105_one_component.

Theorem c105_eap_density :
  forall QE s s' y dim periods v, same_data s s' -> Forall2 same_mixture (get_sim_params s) (get_sim_params s') ->
  gibbs_eap_density QE s y dim None periods = Ok (Some v) ->
  exists v', gibbs_eap_density QE s' y dim None periods = Ok (Some v') /\ agree v v'.
Proof. exact eap_proof. Qed.
Print Assumptions c105_eap_density.

Theorem c105_eap_density_order :
  forall QE s s' y dim comp v, same_data s s' -> Permutation (get_sim_params s) (get_sim_params s') ->
  gibbs_eap_density QE s y dim comp None = Ok (Some v) ->
  exists v', gibbs_eap_density QE s' y dim comp None = Ok (Some v') /\ agree v v'.
Proof. exact eap_order_proof. Qed.
Print Assumptions c105_eap_density_order.

Theorem c105_map_density :
  forall QE s s' y dim r r' v, same_data s s' -> s_map s = Some r -> s_map s' = Some r' -> same_mixture r r' ->
  gibbs_map_density QE s y dim None = Ok v -> exists v', gibbs_map_density QE s' y dim None = Ok v' /\ agree v v'.
Proof. exact map_proof. Qed.
Print Assumptions c105_map_density.

Theorem c105_map_cluster :
  forall QE s s' y r r' lab unc, same_data s s' -> s_map s = Some r -> s_map s' = Some r' -> same_mixture r r' ->
  gibbs_map_cluster QE s y = Ok (lab, unc) ->
  exists lab' unc', gibbs_map_cluster QE s' y = Ok (lab', unc') /\ Forall2 agree_nan unc unc' /\
    ((forall x fl, cast_obs s y = Ok (x, fl) -> decided QE x r) -> same_partition lab lab').
Proof. exact map_cluster_proof. Qed.
Print Assumptions c105_map_cluster.

Theorem c105_affinity :
  forall QE s s' y m, same_data s s' -> Forall2 same_mixture (get_sim_params s) (get_sim_params s') ->
  (forall x fl r, cast_obs s (Some y) = Ok (x, fl) -> In r (get_sim_params s) -> decided QE x r) ->
  gibbs_eap_affinity_matrix QE s (Some y) = Ok m -> gibbs_eap_affinity_matrix QE s' (Some y) = Ok m.
Proof. exact affinity_proof. Qed.
Print Assumptions c105_affinity.

(* the label numbers do depend on the numbering *)
Theorem c105_labels_refuted :
  exists QE x r r' lab unc lab' unc', pdf_ok QE /\ same_mixture r r' /\ decided QE x r /\
  cluster QE x (r_w r) (r_theta r) = Ok (lab, unc) /\ cluster QE x (r_w r') (r_theta r') = Ok (lab', unc') /\ lab <> lab'.
Proof. exact labels_proof. Qed.
Print Assumptions c105_labels_refuted.

(* and so does the partition when two components are equally probable *)
Theorem c105_partition_tie_refuted :
  exists QE x r r' lab unc lab' unc', pdf_ok QE /\ same_mixture r r' /\
  (forall y m c l, q_pdf QE y m c = Ok l -> Forall (fun v => 0 < v) l) /\ Forall (fun v => 0 < v) (r_w r) /\
  cluster QE x (r_w r) (r_theta r) = Ok (lab, unc) /\ cluster QE x (r_w r') (r_theta r') = Ok (lab', unc') /\ ~ same_partition lab lab'.
Proof. exact tie_proof. Qed.
Print Assumptions c105_partition_tie_refuted.

(* and when all densities at a row vanish *)
Theorem c105_partition_zero_refuted :
  exists QE x r r' lab unc lab' unc', pdf_ok QE /\ same_mixture r r' /\ nth 0 (r_w r) 0 > nth 1 (r_w r) 0 /\
  cluster QE x (r_w r) (r_theta r) = Ok (lab, unc) /\ cluster QE x (r_w r') (r_theta r') = Ok (lab', unc') /\
  nth 1 unc (Some 0) = None /\ ~ same_partition lab lab'.
Proof. exact zero_proof. Qed.
Print Assumptions c105_partition_zero_refuted.

Example c105_ex_same : same_mixture two_a two_b /\ same_mixture two_b two_a.
Proof. split; apply swap_same. Qed.
Example c105_ex_renumbers : renumbers (fun j => (1 - j)%nat) two_a two_b.
Proof.
  unfold renumbers. cbn [r_w two_a length]. split; [reflexivity|]. split; [intros; lia|]. split; [intros; lia|].
  intros [|[|j]] Hj; [split; reflexivity|split; reflexivity|lia].
Qed.
Example c105_ex_density : exists v, mixture_density (near_qenv (1 # 2)) [[0]; [1]] false (r_w two_a) (r_theta two_a) DNone None = Ok v /\ agree v [9 # 8; 3 # 4].
Proof. eexists. split; [vm_compute; reflexivity|]. constructor; [reflexivity|constructor; [reflexivity|constructor]]. Qed.
Example c105_ex_states : same_data (ren_s [two_a; two_b]) (ren_s [two_b; two_a]) /\
  Forall2 same_mixture (get_sim_params (ren_s [two_a; two_b])) (get_sim_params (ren_s [two_b; two_a])) /\
  Permutation (get_sim_params (ren_s [two_a; two_b])) (get_sim_params (ren_s [two_b; two_a])) /\
  exists v, gibbs_eap_density (near_qenv (1 # 2)) (ren_s [two_a; two_b]) (Some (YArr1 [0; 1])) DNone None None = Ok (Some v).
Proof.
  split; [apply ren_facts|]. split; [constructor; [apply swap_same|constructor; [apply swap_same|constructor]]|]. split; [apply perm_swap|].
  eexists. vm_compute. reflexivity.
Qed.
Example c105_ex_decided : decided (near_qenv (1 # 2)) [[0]; [1]] two_a.
Proof. exact two_decided. Qed.
Example c105_ex_affinity : exists m, cast_obs (ren_s [two_a]) (Some (YArr1 [0; 1])) = Ok ([[0]; [1]], false) /\
  gibbs_eap_affinity_matrix (near_qenv (1 # 2)) (ren_s [two_a]) (Some (YArr1 [0; 1])) = Ok m /\ exists lab unc,
  gibbs_map_cluster (near_qenv (1 # 2)) (ren_s [two_a]) (Some (YArr1 [0; 1])) = Ok (lab, unc).
Proof. eexists. split; [reflexivity|]. split; [vm_compute; reflexivity|]. eexists _, _. vm_compute. reflexivity. Qed.
