(* Property theorems C106: the queries treat the rows of y one by one. *)
From Coq Require Import Lqa.
From Verif Require Import Prelude Numpy Rng M_Weights M_Niw M_Utils M_Mix M_Query S_Sort S_Rowwise P_Renumber P_Rowwise.
Open Scope Q_scope.

Theorem c106_eap_density :
  forall k QE s dim comp periods, rowwise k QE -> dim <> DOther -> (comp = None -> Forall (fun r => r_w r <> []) (get_sim_params s)) ->
  by_rows k (fun l => gibbs_eap_density QE s (Some (YArr2 l k)) dim comp periods).
Proof. exact eap_row. Qed.
Print Assumptions c106_eap_density.

Theorem c106_map_density :
  forall k QE s dim comp r, rowwise k QE -> dim <> DOther -> s_map s = Some r -> (comp = None -> r_w r <> []) ->
  row_function (has_columns k) (fun l => gibbs_map_density QE s (Some (YArr2 l k)) dim comp).
Proof. exact map_row. Qed.
Print Assumptions c106_map_density.

Theorem c106_map_cluster :
  forall k QE s r, rowwise k QE -> s_map s = Some r -> clusters_by_rows k (fun l => gibbs_map_cluster QE s (Some (YArr2 l k))).
Proof. exact map_cluster_row. Qed.
Print Assumptions c106_map_cluster.

Theorem c106_affinity :
  forall k QE s, rowwise k QE -> affinity_by_rows k (fun l => gibbs_eap_affinity_matrix QE s (Some (YArr2 l k))).
Proof. exact affinity_row. Qed.
Print Assumptions c106_affinity.

Theorem c106_var_eap_density :
  forall k QE s dim comp, rowwise k QE -> (forall v w j, q_mean_w QE v w j <> Diverge) ->
  row_function (has_columns k) (fun l => var_eap_density QE s (Some (YArr2 l k)) dim comp).
Proof. exact var_eap_row. Qed.
Print Assumptions c106_var_eap_density.

Theorem c106_var_map_density :
  forall k QE s dim comp, rowwise k QE -> (forall v w j, q_mode_w QE v w j <> Diverge) ->
  row_function (has_columns k) (fun l => var_map_density QE s (Some (YArr2 l k)) dim comp).
Proof. exact var_map_row. Qed.
Print Assumptions c106_var_map_density.

(* the number of a label depends on the other rows *)
Theorem c106_label_refuted :
  exists QE s l l' i j lab unc lab' unc', rowwise 1 QE /\ filled (has_columns 1) l /\ filled (has_columns 1) l' /\ nth_error l i = nth_error l' j /\ nth_error l i <> None /\
  gibbs_map_cluster QE s (Some (YArr2 l 1)) = Ok (lab, unc) /\ gibbs_map_cluster QE s (Some (YArr2 l' 1)) = Ok (lab', unc') /\
  nth_error lab i <> nth_error lab' j.
Proof. exact label_proof. Qed.
Print Assumptions c106_label_refuted.

(* with a dim of another type one number comes back, whatever the rows *)
Theorem c106_other_dim_refuted :
  exists QE s v, rowwise 1 QE /\ get_sim_params s <> [] /\
  forall l, gibbs_eap_density QE s (Some (YArr2 l 1)) DOther None None = Ok (Some v) /\ length v = 1%nat.
Proof. exact other_proof. Qed.
Print Assumptions c106_other_dim_refuted.

Example c106_ex_rowwise : rowwise 1 (near_qenv (1 # 2)) /\ (forall v w j, q_mean_w (near_qenv (1 # 2)) v w j <> Diverge) /\ forall v w j, q_mode_w (near_qenv (1 # 2)) v w j <> Diverge.
Proof. split; [apply near_rowwise|]. split; intros; discriminate. Qed.
Example c106_ex_weights : Forall (fun r => r_w r <> []) (get_sim_params (ren_s [two_a; two_b])) /\ s_map (ren_s [two_a; two_b]) = Some two_a.
Proof. split; [|reflexivity]. constructor; [discriminate|constructor; [discriminate|constructor]]. Qed.
Example c106_ex_values : exists a b c, a <> b /\
  gibbs_eap_density (near_qenv (1 # 2)) (ren_s [two_a]) (Some (YArr2 [[0]; [1]] 1)) DNone None None = Ok (Some [a; b]) /\
  gibbs_eap_density (near_qenv (1 # 2)) (ren_s [two_a]) (Some (YArr2 [[1]; [5]; [0]] 1)) DNone None None = Ok (Some [b; c; a]).
Proof. eexists _, _, _. split; [|split; vm_compute; reflexivity]. discriminate. Qed.
Example c106_ex_single : gibbs_map_cluster (near_qenv (1 # 2)) (ren_s [two_a]) (Some (YArr2 [[1]] 1)) = Err AxisError.
Proof. vm_compute. reflexivity. Qed.
Example c106_ex_var : exists s v, s_vfit s = true /\ var_map_density (near_qenv (1 # 2)) s (Some (YArr2 [[0]; [1]] 1)) (DList [0%Z]) None = Ok v /\ length v = 2%nat.
Proof.
  set (s0 := ren_s [two_a]).
  exists (MS (s_total s0) (s_burn s0) (s_sub s0) (s_n s0) (s_mu s0) (s_lam s0) (s_psi s0) (s_nu s0) (s_wm s0) (s_y s0) (s_dim s0) (s_1d s0) (s_d s0) (s_theta s0) (s_gen s0) (s_u s0) (s_aff s0) (s_map s0) (s_mapll s0) (s_saved s0) (s_sims s0) (s_groups s0) (s_atoms s0)
    (VST (Some 1%Z) [[1]] [([0], 1, [[1]], 3)] [[1]]) false true true).
  eexists. split; [reflexivity|]. split; [vm_compute; reflexivity|reflexivity].
Qed.
(* a density that raises on rows of the wrong length qualifies *)
Example c106_ex_strict : rowwise 2 (strict_qenv (1 # 2)) /\ q_pdf (strict_qenv (1 # 2)) [[0; 0]; [0]] [0; 0] [] = Err ValueError /\
  gibbs_map_density (strict_qenv (1 # 2)) (ren_s [two_a]) (Some (YArr2 [[0; 0]] 2)) DNone None = Err ValueError.
Proof. split; [apply strict_rowwise|]. split; vm_compute; reflexivity. Qed.
