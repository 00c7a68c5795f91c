(* Property theorems C101: the means of the weights a call of random draws. *)
From Coq Require Import Lqa.
From Verif Require Import Prelude Numpy Rng M_Weights S_Weights S_Hist S_Draws S_Oracle S_More S_Urn S_Moment P_MomentLaw P_MomentEx P_Moment P_MomentInd P_MomentDep P_MomentUrn P_MomentBbin.
Open Scope Q_scope.

Theorem c101_the_mean_is_determined :
  forall N L c size s f x y, moments N L ->
  mean_of L (wm_random c size) s f x -> mean_of L (wm_random c size) s f y -> x == y.
Proof. intros N L c size. exact (mean_unique N L (wm_random c size)). Qed.
Print Assumptions c101_the_mean_is_determined.

(* ---- DirichletProcess ---- *)
Theorem c101_dirichlet_process_means :
  forall N L al n s j, moments N L -> (1 <= N)%nat -> 0 < al -> d s = [] -> (j < n)%nat ->
  mean_of L (wm_random (CDP al) (SInt (Z.of_nat n))) s (weight j) (1 / (1 + al) * qpow (al / (1 + al)) j).
Proof. exact dp_mean. Qed.
Print Assumptions c101_dirichlet_process_means.

Theorem c101_dirichlet_process_products :
  forall N L al n s i j, moments N L -> (2 <= N)%nat -> 0 < al -> d s = [] -> (i <= j)%nat -> (j < n)%nat ->
  mean_of L (wm_random (CDP al) (SInt (Z.of_nat n))) s (weights2 i j)
    (qpow (al / (2 + al)) i * (if Nat.eqb i j then 2 / ((1 + al) * (2 + al)) else al / ((1 + al) * (2 + al)) * qpow (al / (1 + al)) (j - i - 1) * (1 / (1 + al)))).
Proof. exact dp_mean2. Qed.
Print Assumptions c101_dirichlet_process_products.

Theorem c101_dirichlet_process_fitted_means :
  forall N L al s j, moments N L -> (1 <= N)%nat -> 0 < al -> d s <> [] -> (j <= list_max (d s))%nat ->
  mean_of L (wm_random (CDP al) SNone) s (weight j)
    ((1 + nq (n_eq j (d s))) / (1 + al + nq (n_eq j (d s)) + nq (n_gt j (d s))) *
     qproduct (map (fun i => (al + nq (n_gt i (d s))) / (1 + al + nq (n_eq i (d s)) + nq (n_gt i (d s)))) (seq 0 j))).
Proof. exact dp_post_mean. Qed.
Print Assumptions c101_dirichlet_process_fitted_means.

(* ---- PitmanYorProcess ---- *)
Theorem c101_pitman_yor_means :
  forall N L pd al n s j, moments N L -> (1 <= N)%nat -> py_ok pd al -> d s = [] -> (j < n)%nat ->
  mean_of L (wm_random (CPY pd al) (SInt (Z.of_nat n))) s (weight j)
    ((1 - pd) / (1 - pd + (al + nq j * pd)) * qproduct (map (fun i => (al + nq i * pd) / (1 - pd + (al + nq i * pd))) (seq 0 j))).
Proof. exact py_mean. Qed.
Print Assumptions c101_pitman_yor_means.

(* the first weight of the Pitman-Yor process with these parameters has mean
   (1-pyd)/(1+alpha); the code never has it when pyd > 0 *)
Theorem c101_pitman_yor_process_mean_refuted :
  forall N L pd al n s, moments N L -> (1 <= N)%nat -> 0 < pd -> pd < 1 -> 0 < al -> d s = [] -> (0 < n)%nat ->
  ~ mean_of L (wm_random (CPY pd al) (SInt (Z.of_nat n))) s (weight 0) ((1 - pd) / (1 + al)).
Proof. exact py_not_the_process. Qed.
Print Assumptions c101_pitman_yor_process_mean_refuted.

(* ---- GeometricProcess, fitted or not ---- *)
Theorem c101_geometric_means :
  forall N L a b n s j, moments N L -> (S j <= N)%nat -> 0 < a -> 0 < b -> (j < n)%nat ->
  mean_of L (wm_random (CGeom a b) (SInt (Z.of_nat n))) s (weight j)
    (beta_moment (a + nq (length (d s))) (b + nq (list_sum (d s))) 1 j).
Proof. exact geom_post. Qed.
Print Assumptions c101_geometric_means.

Theorem c101_geometric_products :
  forall N L a b n s i j, moments N L -> (2 + i + j <= N)%nat -> 0 < a -> 0 < b -> (i < n)%nat -> (j < n)%nat ->
  mean_of L (wm_random (CGeom a b) (SInt (Z.of_nat n))) s (weights2 i j)
    (beta_moment (a + nq (length (d s))) (b + nq (list_sum (d s))) 2 (i + j)).
Proof. exact geom_post2. Qed.
Print Assumptions c101_geometric_products.

(* ---- DirichletDistribution ---- *)
Theorem c101_dirichlet_distribution_means :
  forall N L n al size s j, moments N L -> al <> [] -> pos al -> d s = [] ->
  mean_of L (wm_random (CDirDist n al) size) s (weight j) (nth j al 0 / qsum al).
Proof. exact dd_prior_mean. Qed.
Print Assumptions c101_dirichlet_distribution_means.

Theorem c101_dirichlet_distribution_products :
  forall N L n al size s i j, moments N L -> pos al -> d s = [] -> (i < length al)%nat -> (j < length al)%nat ->
  mean_of L (wm_random (CDirDist n al) size) s (weights2 i j)
    (nth i al 0 * (nth j al 0 + (if Nat.eqb i j then 1 else 0)) / (qsum al * (qsum al + 1))).
Proof. exact dd_prior_mean2. Qed.
Print Assumptions c101_dirichlet_distribution_products.

Theorem c101_dirichlet_distribution_fitted_means :
  forall N L n al size s j, moments N L -> pos al -> d s <> [] -> (list_max (d s) < length al)%nat ->
  mean_of L (wm_random (CDirDist n al) size) s (weight j)
    (if (j <? length al)%nat then (nth j al 0 + nq (n_eq j (d s))) / (qsum al + nq (length (d s))) else 0).
Proof. exact dd_post_mean. Qed.
Print Assumptions c101_dirichlet_distribution_fitted_means.

(* ---- BetaInBeta ---- *)
Theorem c101_beta_in_beta_means :
  forall N L x al a b pm n s j, moments N L -> (1 <= N)%nat -> 0 < x -> x < 1 -> 0 < al -> 0 <= p s <= 1 -> d s = [] -> (j < n)%nat ->
  let c := x / (1 - x) in
  mean_of L (wm_random (CBIB x al a b pm) (SInt (Z.of_nat n))) s (weight j)
    ((1 + c * p s) / (1 + al + c) * qpow ((al + c * (1 - p s)) / (1 + al + c)) j).
Proof. exact bib_mean. Qed.
Print Assumptions c101_beta_in_beta_means.

(* ---- BetaBernoulli: each stick is a Beta(1, alpha) draw, and sticks i < j
   coincide with probability (1-p)^(j-i) ---- *)
Theorem c101_beta_bernoulli_stick :
  forall N L, moments N L -> forall al, 0 < al -> forall q k s phi j,
  0 <= q <= 1 -> d s = [] -> bern s <> [] -> (j < k)%nat ->
  mean_of L (wm_random (CBB q al) (SInt (Z.of_nat k))) s (stick_fun phi j) (one_stick L al phi).
Proof. exact bb_stick. Qed.
Print Assumptions c101_beta_bernoulli_stick.

Theorem c101_beta_bernoulli_pair :
  forall N L, moments N L -> forall al, 0 < al -> forall q k s g h i j,
  0 <= q <= 1 -> d s = [] -> bern s <> [] -> (i < j < k)%nat ->
  mean_of L (wm_random (CBB q al) (SInt (Z.of_nat k))) s (stick_pair g h i j) (two_sticks L al (qpow (1 - q) (j - i)) g h).
Proof. exact bb_two. Qed.
Print Assumptions c101_beta_bernoulli_pair.

Theorem c101_beta_bernoulli_means :
  forall N L, moments N L -> (3 <= N)%nat -> forall al, 0 < al -> forall q k s,
  0 <= q <= 1 -> d s = [] -> bern s <> [] -> (2 <= k)%nat ->
  mean_of L (wm_random (CBB q al) (SInt (Z.of_nat k))) s (weight 0) (1 / (1 + al)) /\
  mean_of L (wm_random (CBB q al) (SInt (Z.of_nat k))) s (weight 1) ((1 - q) * (al / ((1 + al) * (2 + al))) + q * (al / ((1 + al) * (1 + al)))) /\
  mean_of L (wm_random (CBB q al) (SInt (Z.of_nat k))) s (weights2 0 1)
    ((1 - q) * (2 * al / ((1 + al) * (2 + al) * (3 + al))) + q * (al / ((1 + al) * (1 + al) * (2 + al)))).
Proof. exact bb_w. Qed.
Print Assumptions c101_beta_bernoulli_means.

(* ---- BetaInDirichlet: any two sticks coincide with probability 1/(1+a) ---- *)
Theorem c101_beta_in_dirichlet_stick :
  forall N L, moments N L -> forall al a, 0 < al -> 0 <= a -> forall n s phi j, d s = [] -> (j < n)%nat ->
  mean_of L (wm_random (CBID al a) (SInt (Z.of_nat n))) s (stick_fun phi j) (one_stick L al phi).
Proof. exact bid_stick. Qed.
Print Assumptions c101_beta_in_dirichlet_stick.

Theorem c101_beta_in_dirichlet_pair :
  forall N L, moments N L -> forall al a, 0 < al -> 0 <= a -> forall n s g h i j, d s = [] -> (i < j < n)%nat ->
  mean_of L (wm_random (CBID al a) (SInt (Z.of_nat n))) s (stick_pair g h i j) (two_sticks L al (1 / (1 + a)) g h).
Proof. exact bid_two. Qed.
Print Assumptions c101_beta_in_dirichlet_pair.

Theorem c101_beta_in_dirichlet_means :
  forall N L, moments N L -> (3 <= N)%nat -> forall al, 0 < al -> forall a k s,
  0 <= a -> d s = [] -> (2 <= k)%nat ->
  mean_of L (wm_random (CBID al a) (SInt (Z.of_nat k))) s (weight 0) (1 / (1 + al)) /\
  mean_of L (wm_random (CBID al a) (SInt (Z.of_nat k))) s (weight 1) ((1 / (1 + a)) * (al / ((1 + al) * (2 + al))) + (a / (1 + a)) * (al / ((1 + al) * (1 + al)))) /\
  mean_of L (wm_random (CBID al a) (SInt (Z.of_nat k))) s (weights2 0 1)
    ((1 / (1 + a)) * (2 * al / ((1 + al) * (2 + al) * (3 + al))) + (a / (1 + a)) * (al / ((1 + al) * (1 + al) * (2 + al)))).
Proof. exact bid_w. Qed.
Print Assumptions c101_beta_in_dirichlet_means.

(* ---- BetaBinomial: the chain of sticks is stationary ---- *)
Theorem c101_beta_binomial_sticks :
  forall N L n al k s j, moments N L -> (2 <= N)%nat -> (0 <= n)%Z -> 0 < al -> d s = [] -> (j < k)%nat ->
  mean_of L (wm_random (CBBin n al) (SInt (Z.of_nat k))) s (stick_at j) (1 / (1 + al)) /\
  mean_of L (wm_random (CBBin n al) (SInt (Z.of_nat k))) s (stick2 j) (2 / ((1 + al) * (2 + al))).
Proof. exact bbin_stick_moments. Qed.
Print Assumptions c101_beta_binomial_sticks.

Theorem c101_beta_binomial_second_weight :
  forall N L, moments N L -> (2 <= N)%nat -> forall n al, (0 <= n)%Z -> 0 < al -> forall k s, d s = [] -> (2 <= k)%nat ->
  mean_of L (wm_random (CBBin n al) (SInt (Z.of_nat k))) s (weight 1) (al * (2 + al + zq n) / ((1 + al) * (2 + al) * (1 + al + zq n))).
Proof. exact bbin_w1. Qed.
Print Assumptions c101_beta_binomial_second_weight.

(* ---- non-vacuity ---- *)
(* a law with the required moments exists *)
Example c101_ex_law : moments 3 lob. Proof. exact lob_moments. Qed.
(* the values the repository's tests compare with: 1/2, 1/12, -1/24 for the
   Dirichlet process with alpha = 1 *)
Example c101_ex_dp :
  let m := wm_random (CDP 1) (SInt 2) in let s := ws_init 0 0 in
  mean_of lob m s (weight 0) (1 # 2) /\ cov (1 # 3) (1 # 2) (1 # 2) == 1 # 12 /\ mean_of lob m s (weights2 0 0) (1 # 3) /\
  mean_of lob m s (weight 1) (1 # 4) /\ mean_of lob m s (weights2 0 1) (1 # 12) /\ cov (1 # 12) (1 # 2) (1 # 4) == - (1 # 24).
Proof.
  cbv zeta. split; [|split; [|split; [|split; [|split]]]]; try (vm_compute; reflexivity).
  - eapply mean_eq; [apply (c101_dirichlet_process_means 3 lob 1 2 (ws_init 0 0) 0 lob_moments); try lia; try lra; reflexivity|vm_compute; reflexivity].
  - eapply mean_eq; [apply (c101_dirichlet_process_products 3 lob 1 2 (ws_init 0 0) 0 0 lob_moments); try lia; try lra; reflexivity|vm_compute; reflexivity].
  - eapply mean_eq; [apply (c101_dirichlet_process_means 3 lob 1 2 (ws_init 0 0) 1 lob_moments); try lia; try lra; reflexivity|vm_compute; reflexivity].
  - eapply mean_eq; [apply (c101_dirichlet_process_products 3 lob 1 2 (ws_init 0 0) 0 1 lob_moments); try lia; try lra; reflexivity|vm_compute; reflexivity].
Qed.
(* the geometric process with a = b = 1 and BetaInDirichlet with a = 0 have
   uncorrelated first weights; with a = 1 they do not *)
Example c101_ex_bid :
  let s := ws_init 0 0 in
  mean_of lob (wm_random (CBID 1 0) (SInt 2)) s (weight 1) (1 # 6) /\
  mean_of lob (wm_random (CBID 1 0) (SInt 2)) s (weights2 0 1) (1 # 12) /\ cov (1 # 12) (1 # 2) (1 # 6) == 0 /\
  mean_of lob (wm_random (CBID 1 1) (SInt 2)) s (weight 1) (5 # 24) /\
  mean_of lob (wm_random (CBID 1 1) (SInt 2)) s (weights2 0 1) (1 # 12) /\ cov (1 # 12) (1 # 2) (5 # 24) == - (1 # 48) /\
  mean_of lob (wm_random (CGeom 1 1) (SInt 2)) s (weight 1) (1 # 6) /\ mean_of lob (wm_random (CGeom 1 1) (SInt 2)) s (weights2 0 1) (1 # 12).
Proof.
  cbv zeta.
  pose proof (c101_beta_in_dirichlet_means 3 lob lob_moments ltac:(lia) 1 ltac:(lra) 0 2 (ws_init 0 0) ltac:(lra) eq_refl ltac:(lia)) as (_ & A1 & A2).
  pose proof (c101_beta_in_dirichlet_means 3 lob lob_moments ltac:(lia) 1 ltac:(lra) 1 2 (ws_init 0 0) ltac:(lra) eq_refl ltac:(lia)) as (_ & B1 & B2).
  split; [eapply mean_eq; [exact A1|vm_compute; reflexivity]|]. split; [eapply mean_eq; [exact A2|vm_compute; reflexivity]|]. split; [vm_compute; reflexivity|].
  split; [eapply mean_eq; [exact B1|vm_compute; reflexivity]|]. split; [eapply mean_eq; [exact B2|vm_compute; reflexivity]|]. split; [vm_compute; reflexivity|].
  split.
  - eapply mean_eq; [apply (c101_geometric_means 3 lob 1 1 2 (ws_init 0 0) 1 lob_moments); try lia; try lra|vm_compute; reflexivity].
  - eapply mean_eq; [apply (c101_geometric_products 3 lob 1 1 2 (ws_init 0 0) 0 1 lob_moments); try lia; try lra|vm_compute; reflexivity].
Qed.
(* Pitman-Yor with pyd = 1/2, alpha = 1: the code has 1/3, the process 1/4 *)
Example c101_ex_py :
  mean_of lob (wm_random (CPY (1 # 2) 1) (SInt 2)) (ws_init 0 0) (weight 0) (1 # 3) /\ (1 - (1 # 2)) / (1 + 1) == 1 # 4.
Proof.
  split; [|vm_compute; reflexivity].
  eapply mean_eq; [apply (c101_pitman_yor_means 3 lob (1 # 2) 1 2 (ws_init 0 0) 0 lob_moments); try lia; try reflexivity; unfold py_ok; repeat split; lra|vm_compute; reflexivity].
Qed.
(* labels 0, 0, 1 *)
Example c101_ex_fitted :
  let s := set_d [0; 0; 1]%nat (ws_init 0 0) in
  mean_of lob (wm_random (CDP 1) SNone) s (weight 1) (4 # 15) /\
  mean_of lob (wm_random (CDirDist 2 [1; 1]) SNone) s (weight 0) (3 # 5) /\
  mean_of lob (wm_random (CGeom 1 1) (SInt 2)) s (weight 1) (4 # 21).
Proof.
  cbv zeta. split; [|split].
  - eapply mean_eq; [apply (c101_dirichlet_process_fitted_means 3 lob 1 (set_d [0; 0; 1]%nat (ws_init 0 0)) 1 lob_moments); try lia; try lra; cbn; try discriminate; lia|vm_compute; reflexivity].
  - eapply mean_eq; [apply (c101_dirichlet_distribution_fitted_means 3 lob 2 [1; 1] SNone (set_d [0; 0; 1]%nat (ws_init 0 0)) 0 lob_moments); [repeat constructor|discriminate|cbn; lia]|vm_compute; reflexivity].
  - eapply mean_eq; [apply (c101_geometric_means 3 lob 1 1 2 (set_d [0; 0; 1]%nat (ws_init 0 0)) 1 lob_moments); try lia; try lra|vm_compute; reflexivity].
Qed.
Example c101_ex_rest :
  let s := ws_init 0 0 in let s' := mkws [] [] [] (1 # 2) [0%nat] [] [] [] [] 0 in
  mean_of lob (wm_random (CBB (1 # 2) 1) (SInt 2)) s' (weight 1) (5 # 24) /\
  mean_of lob (wm_random (CBBin 1 1) (SInt 2)) s (weight 1) (2 # 9) /\
  mean_of lob (wm_random (CBIB (1 # 2) 1 1 1 PStatic) (SInt 2)) s' (weight 1) (1 # 4).
Proof.
  cbv zeta. split; [|split].
  - pose proof (c101_beta_bernoulli_means 3 lob lob_moments ltac:(lia) 1 ltac:(lra) (1 # 2) 2 (mkws [] [] [] (1 # 2) [0%nat] [] [] [] [] 0) ltac:(lra) eq_refl ltac:(discriminate) ltac:(lia)) as (_ & A & _).
    eapply mean_eq; [exact A|vm_compute; reflexivity].
  - eapply mean_eq; [apply (c101_beta_binomial_second_weight 3 lob lob_moments ltac:(lia) 1 1 ltac:(lia) ltac:(lra) 2 (ws_init 0 0)); [reflexivity|lia]|vm_compute; reflexivity].
  - eapply mean_eq; [apply (c101_beta_in_beta_means 3 lob (1 # 2) 1 1 1 PStatic 2 (mkws [] [] [] (1 # 2) [0%nat] [] [] [] [] 0) 1 lob_moments); try lia; try lra; try reflexivity; cbn; lra|vm_compute; reflexivity].
Qed.
