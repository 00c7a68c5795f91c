(* How the arguments of the queries are read: C83. *)
From Verif Require Import Prelude Numpy Rng M_Weights M_Niw M_Utils M_Mix M_Query S_MixEx S_Forms P_Forms P_FormsEx.
Open Scope Q_scope.

Theorem c83_gibbs_argument_forms : forall QE s ya x k dim comp per n, as_matrix ya = Some (x, k) ->
  gibbs_eap_density QE s (Some ya) dim comp per = gibbs_eap_density QE s (Some (YArr2 x k)) dim comp per /\
  gibbs_map_density QE s (Some ya) dim comp = gibbs_map_density QE s (Some (YArr2 x k)) dim comp /\
  gibbs_map_cluster QE s (Some ya) = gibbs_map_cluster QE s (Some (YArr2 x k)) /\
  gibbs_eap_affinity_matrix QE s (Some ya) = gibbs_eap_affinity_matrix QE s (Some (YArr2 x k)) /\
  gibbs_spectral QE s (Some ya) n = gibbs_spectral QE s (Some (YArr2 x k)) n.
Proof. exact c83_gibbs_forms_proof. Qed.
Print Assumptions c83_gibbs_argument_forms.

Theorem c83_variational_argument_forms : forall QE s ya x k dim comp, as_matrix ya = Some (x, k) ->
  var_eap_density QE s (Some ya) dim comp = var_eap_density QE s (Some (YArr2 x k)) dim comp /\
  var_map_density QE s (Some ya) dim comp = var_map_density QE s (Some (YArr2 x k)) dim comp.
Proof. exact c83_var_forms_proof. Qed.
Print Assumptions c83_variational_argument_forms.

Theorem c83_no_argument_is_the_data : forall QE s dim comp per, s_1d s = false ->
  gibbs_eap_density QE s None dim comp per = gibbs_eap_density QE s (Some (YArr2 (s_y s) (s_dim s))) dim comp per /\
  gibbs_map_density QE s None dim comp = gibbs_map_density QE s (Some (YArr2 (s_y s) (s_dim s))) dim comp /\
  gibbs_map_cluster QE s None = gibbs_map_cluster QE s (Some (YArr2 (s_y s) (s_dim s))) /\
  var_eap_density QE s None dim comp = var_eap_density QE s (Some (YArr2 (s_y s) (s_dim s))) dim comp /\
  var_map_density QE s None dim comp = var_map_density QE s (Some (YArr2 (s_y s) (s_dim s))) dim comp.
Proof. exact c83_stored_proof. Qed.
Print Assumptions c83_no_argument_is_the_data.

Theorem c83_other_types_rejected : forall QE s ya dim comp per n full, as_matrix ya = None ->
  (s_gfit s = true -> gibbs_eap_density QE s (Some ya) dim comp per = Err TypeError /\ gibbs_map_density QE s (Some ya) dim comp = Err TypeError /\
     gibbs_map_cluster QE s (Some ya) = Err TypeError /\ gibbs_eap_affinity_matrix QE s (Some ya) = Err TypeError /\ gibbs_spectral QE s (Some ya) n = Err TypeError) /\
  (s_vfit s = true -> var_eap_density QE s (Some ya) dim comp = Err TypeError /\ var_map_density QE s (Some ya) dim comp = Err TypeError /\
     var_map_cluster QE s (Some ya) full = Err TypeError /\ var_eap_affinity_matrix QE s (Some ya) = Err TypeError /\ var_spectral QE s (Some ya) n = Err TypeError).
Proof. exact c83_other_proof. Qed.
Print Assumptions c83_other_types_rejected.

Theorem c83_gibbs_negative_dim : forall QE s y dim comp per d, dim_in_axis d dim -> Forall (state_dim d) (s_sims s) -> (forall r, s_map s = Some r -> state_dim d r) ->
  gibbs_eap_density QE s y dim comp per = gibbs_eap_density QE s y (dim_from_start d dim) comp per /\
  gibbs_map_density QE s y dim comp = gibbs_map_density QE s y (dim_from_start d dim) comp.
Proof. exact c83_gibbs_dim_proof. Qed.
Print Assumptions c83_gibbs_negative_dim.

Theorem c83_variational_negative_dim : forall QE s y dim comp d, dim <> DNone -> dim_in_axis d dim -> Forall (vatom_dim d) (vtheta (s_var s)) ->
  var_eap_density QE s y dim comp = var_eap_density QE s y (dim_from_start d dim) comp /\
  var_map_density QE s y dim comp = var_map_density QE s y (dim_from_start d dim) comp.
Proof. exact c83_var_dim_proof. Qed.
Print Assumptions c83_variational_negative_dim.

Theorem c83_dim_out_of_range : forall QE s y dim comp per d, ~ dim_in_axis d dim ->
  (forall r, s_map s = Some r -> state_dim d r -> r_w r <> [] -> forall v, gibbs_map_density QE s y dim comp <> Ok v) /\
  (forall r, In r (last_periods (s_sims s) per) -> state_dim d r -> r_w r <> [] -> forall v, gibbs_eap_density QE s y dim comp per <> Ok v).
Proof. exact c83_dim_out_proof. Qed.
Print Assumptions c83_dim_out_of_range.

Theorem c83_gibbs_negative_component : forall QE s y x k dim j per, (j < 0)%Z -> s_gfit s = true -> as_matrix y = Some (x, k) -> dim <> DOther ->
  (forall r, s_map s = Some r -> gibbs_map_density QE s (Some y) dim (Some j) = Err KeyError) /\
  (last_periods (s_sims s) per <> [] -> gibbs_eap_density QE s (Some y) dim (Some j) per = Err KeyError).
Proof. exact c83_negative_component_proof. Qed.
Print Assumptions c83_gibbs_negative_component.

Theorem c83_variational_negative_component : forall QE s y dim j n, length (vtheta (s_var s)) = n -> in_axis n j ->
  (q_mean_w QE (s_var s) (s_wm s) j = q_mean_w QE (s_var s) (s_wm s) (from_start n j) -> var_eap_density QE s y dim (Some j) = var_eap_density QE s y dim (Some (from_start n j))) /\
  (q_mode_w QE (s_var s) (s_wm s) j = q_mode_w QE (s_var s) (s_wm s) (from_start n j) -> var_map_density QE s y dim (Some j) = var_map_density QE s y dim (Some (from_start n j))).
Proof. exact c83_var_component_proof. Qed.
Print Assumptions c83_variational_negative_component.

Example c83_forms_nontrivial : as_matrix (YNum 3) = Some ([[3]], 1%nat) /\ as_matrix (YList1 [3; 4]) = Some ([[3]; [4]], 1%nat) /\
  exists v, gibbs_map_density form_qenv form_st (Some (YNum 3)) DNone None = Ok v /\ length v = 1%nat.
Proof. split; [reflexivity|]. split; [reflexivity|]. eexists. split; [vm_compute; reflexivity|reflexivity]. Qed.
Example c83_stored_nontrivial : s_1d form_st = false /\ exists v, gibbs_map_density form_qenv form_st None DNone None = Ok v /\ length v = 2%nat.
Proof. split; [reflexivity|]. eexists. split; [vm_compute; reflexivity|reflexivity]. Qed.
Example c83_other_nontrivial : as_matrix YOther = None /\ s_gfit form_st = true /\ s_vfit form_st = true.
Proof. split; [reflexivity|]. split; reflexivity. Qed.
Example c83_dim_nontrivial : dim_in_axis 2 (DList [-1]%Z) /\ dim_from_start 2 (DList [-1]%Z) = DList [1]%Z /\ Forall (state_dim 2) (s_sims form_st) /\
  (forall r, s_map form_st = Some r -> state_dim 2 r) /\ Forall (vatom_dim 2) (vtheta (s_var form_st)) /\
  exists v, gibbs_map_density form_qenv form_st (Some (YList1 [7])) (DList [-1]%Z) None = Ok v.
Proof.
  split; [repeat constructor; discriminate|]. split; [reflexivity|]. split; [constructor; [exact form_dim|constructor]|].
  split; [intros r E; injection E as <-; exact form_dim|]. split; [exact form_vdim|]. eexists. vm_compute. reflexivity.
Qed.
Example c83_dim_out_nontrivial : ~ dim_in_axis 2 (DList [2]%Z) /\ r_w form_state <> [] /\ s_map form_st = Some form_state /\ In form_state (last_periods (s_sims form_st) None).
Proof. split; [intro H; inversion H as [|z l A B]; subst; destruct A as [_ A]; apply (Z.lt_irrefl 2); exact A|]. split; [discriminate|]. split; [reflexivity|left; reflexivity]. Qed.
Example c83_component_nontrivial : gibbs_map_density form_qenv form_st (Some (YNum 3)) DNone (Some (-1)%Z) = Err KeyError /\
  in_axis (length (vtheta (s_var form_st))) (-1) /\ exists v, var_eap_density form_qenv form_st (Some (YArr2 [[1; 2]] 2)) DNone (Some (-1)%Z) = Ok v /\
    var_eap_density form_qenv form_st (Some (YArr2 [[1; 2]] 2)) DNone (Some 1%Z) = Ok v.
Proof. split; [reflexivity|]. split; [split; [discriminate|reflexivity]|]. eexists. split; [vm_compute; reflexivity|vm_compute; reflexivity]. Qed.
