(* Property theorems: warm starts on other data. *)
From Verif Require Import Prelude Numpy Rng M_Weights M_Niw M_Utils M_Mix M_Query S_Oracle S_Mix S_Flags S_MixEx P_MixEx P_Warm.
Open Scope Q_scope.

(* ---- C88 ---- *)

Theorem c88_other_length :
  forall E c fuel y ig meth o s g l, is_data y = true -> has_nu s y -> s_d s = Some l -> l <> [] -> length l <> length (rows_of y) ->
  (0 < s_burn s \/ 0 < s_total s - s_burn s)%Z ->
  exists s', fit_gibbs E c fuel y ig true meth o s g = (Err IndexError, s', g) /\ s_y s' = rows_of y /\ s_sims s' = s_sims s /\ s_d s' = s_d s /\
    s_theta s' = s_theta s /\ s_wm s' = s_wm s /\ s_gfit s' = s_gfit s.
Proof. exact c88_length_proof. Qed.
Print Assumptions c88_other_length.

Theorem c88_never_fitted :
  forall E c fuel y ig meth o s g r s' g', s_d s = None -> (0 < s_burn s \/ 0 < s_total s - s_burn s)%Z ->
  fit_gibbs E c fuel y ig true meth o s g = (r, s', g') -> is_ok r = false.
Proof. exact c88_unfitted_proof. Qed.
Print Assumptions c88_never_fitted.

(* three labels, four observations *)
Example c88_nontrivial : let q := ex_run flat_env (CDP 1) 0 3 1 1 o_half [MGibbs y3 SNone false IKmeans] in
  is_data y4 = true /\ has_nu (fst q) y4 /\ (exists l, s_d (fst q) = Some l /\ l <> [] /\ length l <> length (rows_of y4)) /\ (0 < s_burn (fst q))%Z.
Proof.
  split; [reflexivity|]. split; [right; discriminate|]. split; [|vm_compute; reflexivity]. eexists. split; [vm_compute; reflexivity|]. split; [discriminate|]. vm_compute. discriminate.
Qed.
(* as many observations as labels: the warm start succeeds *)
Example c88_same_length : let q := ex_run flat_env (CDP 1) 0 3 1 1 o_half [MGibbs y3 SNone false IKmeans] in
  exists s' g', fit_gibbs flat_env (CDP 1) 60 (YList1 [7; -8; 9]) SNone true IKmeans o_half (fst q) (snd q) = (Ok tt, s', g') /\ length (s_sims s') = 4%nat /\ s_y s' = [[7]; [-8]; [9]].
Proof. eexists _, _. split; [vm_compute; reflexivity|]. split; vm_compute; reflexivity. Qed.
Example c88_new_object : s_d (fst (ex_run flat_env (CDP 1) 0 3 1 1 o_half [])) = None.
Proof. vm_compute. reflexivity. Qed.
