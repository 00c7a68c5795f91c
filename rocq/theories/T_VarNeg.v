(* Variational weights at a negative index: C84. *)
From Coq Require Import Reals Lra Qreals.
From Verif Require Import Prelude Numpy Rng M_Weights M_Ext M_Var M_VarNeg S_Weights S_Draws S_Var P_Var P_Var27 P_VarNeg P_Var31 P_VarRun.
Open Scope R_scope.

Theorem c84_dirichlet_distribution : forall psi al D s sv i, length al = length (rows D) -> (1 <= i <= length (rows D))%nat ->
  let n := Z.of_nat (length al) in let c := CDirDist n al in let j := (length (rows D) - i)%nat in
  fit_var c D s = (Ok tt, sv) -> mean_w_neg c i sv = mean_w c j sv /\ mode_w_neg c i sv = mode_w c j sv /\ mean_log_w_neg psi c i sv = mean_log_w psi c j sv.
Proof. exact c84_dir_proof. Qed.
Print Assumptions c84_dirichlet_distribution.

Theorem c84_equal_weighting : forall psi D s sv i, (1 <= i <= length (rows D))%nat -> let j := (length (rows D) - i)%nat in
  fit_var CEqual D s = (Ok tt, sv) -> mean_w_neg CEqual i sv = mean_w CEqual j sv /\ mode_w_neg CEqual i sv = mode_w CEqual j sv /\ mean_log_w_neg psi CEqual i sv = mean_log_w psi CEqual j sv.
Proof. exact c84_equal_proof. Qed.
Print Assumptions c84_equal_weighting.

Theorem c84_frequency_weighting : forall psi n D s sv i, (1 <= i <= length (rows D))%nat -> (0 < cols D)%nat -> (length (rows D) <= cols D)%nat -> let j := (length (rows D) - i)%nat in
  fit_var (CFreq n) D s = (Ok tt, sv) ->
  mean_w_neg (CFreq n) i sv = mean_w (CFreq n) j sv /\ mode_w_neg (CFreq n) i sv = mode_w (CFreq n) j sv /\ mean_log_w_neg psi (CFreq n) i sv = mean_log_w psi (CFreq n) j sv.
Proof. exact c84_freq_proof. Qed.
Print Assumptions c84_frequency_weighting.

Theorem c84_pitman_yor_single_stick : forall psi pyd al D s sv i, good_mat D -> py_ok pyd al -> (1 <= i <= length (rows D))%nat ->
  let c := CPY pyd al in let j := (length (rows D) - i)%nat in
  let a := fun j => 1 - Q2R pyd + mass D j in let b := fun j => Q2R al + (1 + INR j) * Q2R pyd + mass_after D j in
  fit_var c D s = (Ok tt, sv) ->
  (exists x y, mean_w_neg c i sv = Ok (EF x) /\ mean_w c j sv = Ok (EF y) /\ x = a j / (a j + b j) /\ ((0 < j)%nat -> y < x) /\ (j = 0%nat -> y = x)) /\
  ((multimodal (a j) (b j) /\ mode_w_neg c i sv = Err ValueError) \/ (exists m, mode_w_neg c i sv = Ok (Some (EF m)) /\ is_beta_mode (a j) (b j) m)) /\
  mean_log_w_neg psi c i sv = Ok (EF (psi (a j) - psi (a j + b j))).
Proof. exact c84_py_proof. Qed.
Print Assumptions c84_pitman_yor_single_stick.

Theorem c84_dirichlet_process_single_stick : forall psi al D s sv i, good_mat D -> (0 < al)%Q -> (1 <= i <= length (rows D))%nat ->
  let c := CDP al in let j := (length (rows D) - i)%nat in
  let a := fun j => 1 + mass D j in let b := fun j => Q2R al + mass_after D j in
  fit_var c D s = (Ok tt, sv) ->
  (exists x y, mean_w_neg c i sv = Ok (EF x) /\ mean_w c j sv = Ok (EF y) /\ x = a j / (a j + b j) /\ ((0 < j)%nat -> (1 < i)%nat -> y < x) /\ (j = 0%nat -> (1 < i)%nat -> y = x)) /\
  ((multimodal (a j) (b j) /\ mode_w_neg c i sv = Err ValueError) \/ (exists m, mode_w_neg c i sv = Ok (Some (EF m)) /\ is_beta_mode (a j) (b j) m)) /\
  mean_log_w_neg psi c i sv = Ok (EF (psi (a j) - psi (a j + b j))).
Proof. exact c84_dp_proof. Qed.
Print Assumptions c84_dirichlet_process_single_stick.

Theorem c84_geometric_process : forall psi a b D s sv i, good_mat D -> rows D <> [] -> (0 < a)%Q -> (0 < b)%Q -> (1 <= i)%nat ->
  fit_var (CGeom a b) D s = (Ok tt, sv) ->
  exists p x, 0 < p < 1 /\ mean_w (CGeom a b) 0 sv = Ok (EF p) /\ mean_w_neg (CGeom a b) i sv = Ok (EF x) /\ x * (1 - p) ^ i = p /\ p < x /\
  mean_log_w_neg psi (CGeom a b) i sv = mean_log_w psi (CGeom a b) 0 sv.
Proof. exact c84_geom_proof. Qed.
Print Assumptions c84_geometric_process.

Theorem c84_geometric_mode : forall a b D s sv i x y, fit_var (CGeom a b) D s = (Ok tt, sv) -> vpar sv = PPair x y -> (1 <= i)%nat ->
  (multimodal x y /\ mode_w_neg (CGeom a b) i sv = Err ValueError) \/
  (exists m v, is_beta_mode x y m /\ mode_w_neg (CGeom a b) i sv = Ok (Some (EF v)) /\ (m < 1 -> v * (1 - m) ^ i = m /\ m <= v) /\ (m = 1 -> v = 0)).
Proof. exact c84_geom_mode_proof. Qed.
Print Assumptions c84_geometric_mode.

Theorem c84_geometric_at_most_one_refuted : exists D s sv x, good_mat D /\ rows D <> [] /\ fit_var (CGeom 1 1) D s = (Ok tt, sv) /\ mean_w_neg (CGeom 1 1) 1 sv = Ok (EF x) /\ 1 < x.
Proof. exact c84_geom_refuted_proof. Qed.
Print Assumptions c84_geometric_at_most_one_refuted.

Theorem c84_before_the_first : forall c D s sv i, (length (rows D) < i)%nat -> fit_var c D s = (Ok tt, sv) ->
  match c with
  | CDP _ => rows D <> [] -> mean_w_neg c i sv = Err IndexError
  | CPY _ _ => mean_w_neg c i sv = Err IndexError
  | CDirDist n al => length al = length (rows D) -> mean_w_neg c i sv = Err IndexError
  | CFreq _ => (0 < cols D)%nat -> mean_w_neg c i sv = Err IndexError
  | CEqual => rows D <> [] -> mean_w_neg c i sv = mean_w c 0 sv
  | _ => True
  end.
Proof. exact c84_out_proof. Qed.
Print Assumptions c84_before_the_first.

Example c84_nontrivial : good_mat d3 /\ rows d3 <> [] /\ (1 <= 1 <= length (rows d3))%nat /\ (0 < length (rows d3) - 1)%nat /\ (0 < cols d3)%nat /\ (length (rows d3) <= cols d3)%nat /\ py_ok (1 # 2) 1 /\
  forall s, exists sv, fit_var (CPY (1 # 2) 1) d3 s = (Ok tt, sv).
Proof.
  split; [exact d3_good|]. split; [discriminate|]. split; [cbn; lia|]. split; [cbn; lia|]. split; [cbn; lia|]. split; [cbn; lia|].
  split; [unfold py_ok; repeat split; reflexivity || discriminate|]. intro s. rewrite py_params. eexists. reflexivity.
Qed.
Example c84_dirichlet_nontrivial : forall s, exists al sv, length al = length (rows d3) /\ fit_var (CDirDist (Z.of_nat (length al)) al) d3 s = (Ok tt, sv).
Proof. intro s. exists (repeat 1%Q (length (rows d3))). eexists. split; [apply repeat_length|]. reflexivity. Qed.
Example c84_geometric_nontrivial : forall s, exists sv x y, fit_var (CGeom 2 2) d3 s = (Ok tt, sv) /\ vpar sv = PPair x y.
Proof. intro s. rewrite geom_params by discriminate. eexists _, _, _. split; reflexivity. Qed.
