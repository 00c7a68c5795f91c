(* Property theorems C102: the weights drawn on given labels are the posterior
   of the weights drawn without labels. *)
From Coq Require Import Lqa.
From Verif Require Import Prelude Numpy Rng M_Weights S_Weights S_Draws S_More S_Draws S_Moment S_Bayes P_Moment P_Bayes P_BayesEx.
Open Scope Q_scope.

Theorem c102_laws_exist :
  forall N, exists L, moments N L /\ dir_moments N L.
Proof. exact laws_exist. Qed.
Print Assumptions c102_laws_exist.

Theorem c102_dirichlet_process :
  forall N L al n size s0 s1 es, moments N L -> 0 < al -> d s0 = [] -> d s1 <> [] -> (list_max (d s1) < n)%nat ->
  post_size (d s1) n size -> (length (d s1) <= N)%nat -> Forall (fun e => (length (d s1) + fst e + snd e <= N)%nat) es ->
  bayes L (wm_random (CDP al) (SInt (Z.of_nat n))) s0 (wm_random (CDP al) size) s1 (label_chance (d s1)) (stick_powers es).
Proof. exact dp_bayes. Qed.
Print Assumptions c102_dirichlet_process.

Theorem c102_pitman_yor_process :
  forall N L pd al n size s0 s1 es, moments N L -> py_ok pd al -> d s0 = [] -> d s1 <> [] -> (list_max (d s1) < n)%nat ->
  post_size (d s1) n size -> (length (d s1) <= N)%nat -> Forall (fun e => (length (d s1) + fst e + snd e <= N)%nat) es ->
  bayes L (wm_random (CPY pd al) (SInt (Z.of_nat n))) s0 (wm_random (CPY pd al) size) s1 (label_chance (d s1)) (stick_powers es).
Proof. exact py_bayes. Qed.
Print Assumptions c102_pitman_yor_process.

Theorem c102_beta_in_beta_static :
  forall N L x al a b n size s0 s1 es, moments N L -> 0 < x -> x < 1 -> 0 < al -> 0 < a -> 0 < b ->
  0 <= p s0 <= 1 -> p s1 = p s0 -> d s0 = [] -> d s1 <> [] -> (list_max (d s1) < n)%nat ->
  post_size (d s1) n size -> (length (d s1) <= N)%nat -> Forall (fun e => (length (d s1) + fst e + snd e <= N)%nat) es ->
  bayes L (wm_random (CBIB x al a b PStatic) (SInt (Z.of_nat n))) s0 (wm_random (CBIB x al a b PStatic) size) s1
    (label_chance (d s1)) (stick_powers es).
Proof. exact bib_bayes. Qed.
Print Assumptions c102_beta_in_beta_static.

Theorem c102_geometric_process :
  forall N L a b n size s0 s1 e f, moments N L -> 0 < a -> 0 < b -> d s0 = [] -> d s1 <> [] -> (list_max (d s1) < n)%nat ->
  post_size (d s1) n size -> (length (d s1) + list_sum (d s1) + e + f <= N)%nat ->
  bayes L (wm_random (CGeom a b) (SInt (Z.of_nat n))) s0 (wm_random (CGeom a b) size) s1 (label_chance (d s1)) (p_powers e f).
Proof. exact geom_bayes. Qed.
Print Assumptions c102_geometric_process.

Theorem c102_dirichlet_distribution :
  forall N L k al size0 size s0 s1 es, moments N L -> dir_moments N L -> pos al -> d s0 = [] -> d s1 <> [] ->
  (list_max (d s1) < length al)%nat -> length es = length al -> (length (d s1) + list_sum es <= N)%nat ->
  bayes L (wm_random (CDirDist k al) size0) s0 (wm_random (CDirDist k al) size) s1 (label_chance (d s1)) (weight_powers es).
Proof. exact dd_bayes. Qed.
Print Assumptions c102_dirichlet_distribution.

(* ---- concrete cases: labels 0, 2, 1, 0, 0, the square of the second stick ---- *)
Definition ex_fit : ws := set_d [0; 2; 1; 0; 0]%nat (ws_init (1 # 2) 0).
Example c102_ex_sticks :
  exists L,
  bayes L (wm_random (CDP 1) (SInt 3)) (ws_init (1 # 2) 0) (wm_random (CDP 1) SNone) ex_fit (label_chance [0; 2; 1; 0; 0]%nat) (stick_powers [(0, 0); (2, 0)]%nat) /\
  bayes L (wm_random (CPY (1 # 3) 2) (SInt 5)) (ws_init (1 # 2) 0) (wm_random (CPY (1 # 3) 2) (SInt 5)) ex_fit (label_chance [0; 2; 1; 0; 0]%nat) (stick_powers [(0, 0); (2, 0); (1, 1)]%nat) /\
  bayes L (wm_random (CBIB (1 # 2) 1 1 1 PStatic) (SInt 3)) (ws_init (1 # 2) 0) (wm_random (CBIB (1 # 2) 1 1 1 PStatic) SNone) ex_fit (label_chance [0; 2; 1; 0; 0]%nat) (stick_powers [(1, 1)]%nat).
Proof.
  destruct (c102_laws_exist 7) as (L & ML & _). exists L. split; [|split].
  - apply (c102_dirichlet_process 7 L 1 3 SNone (ws_init (1 # 2) 0) ex_fit); [exact ML|lra|reflexivity|discriminate|cbn; lia|left; split; reflexivity|cbn; lia|cbn; constructor; [cbn; lia|constructor; [cbn; lia|constructor]]].
  - apply (c102_pitman_yor_process 7 L (1 # 3) 2 5 (SInt 5) (ws_init (1 # 2) 0) ex_fit); [exact ML|unfold py_ok; repeat split; lra|reflexivity|discriminate|cbn; lia|right; reflexivity|cbn; lia|cbn; constructor; [cbn; lia|constructor; [cbn; lia|constructor; [cbn; lia|constructor]]]].
  - apply (c102_beta_in_beta_static 7 L (1 # 2) 1 1 1 3 SNone (ws_init (1 # 2) 0) ex_fit); [exact ML|lra|lra|lra|lra|lra|cbn; lra|reflexivity|reflexivity|discriminate|cbn; lia|left; split; reflexivity|cbn; lia|cbn; constructor; [cbn; lia|constructor]].
Qed.
Example c102_ex_rest :
  exists L,
  bayes L (wm_random (CGeom 1 2) (SInt 3)) (ws_init (1 # 2) 0) (wm_random (CGeom 1 2) SNone) ex_fit (label_chance [0; 2; 1; 0; 0]%nat) (p_powers 1 1) /\
  bayes L (wm_random (CDirDist 3 [1; 2; 1 # 2]) SNone) (ws_init (1 # 2) 0) (wm_random (CDirDist 3 [1; 2; 1 # 2]) SNone) ex_fit (label_chance [0; 2; 1; 0; 0]%nat) (weight_powers [1; 0; 2]%nat).
Proof.
  destruct (c102_laws_exist 10) as (L & ML & DM). exists L. split.
  - apply (c102_geometric_process 10 L 1 2 3 SNone (ws_init (1 # 2) 0) ex_fit); [exact ML|lra|lra|reflexivity|discriminate|cbn; lia|left; split; reflexivity|cbn; lia].
  - apply (c102_dirichlet_distribution 10 L 3 [1; 2; 1 # 2] SNone SNone (ws_init (1 # 2) 0) ex_fit); [exact ML|exact DM|constructor; [reflexivity|constructor; [reflexivity|constructor; [reflexivity|constructor]]]|reflexivity|discriminate|cbn; lia|reflexivity|cbn; lia].
Qed.
