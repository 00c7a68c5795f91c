(* Property theorems C103: fitted draws whose mean is not the posterior mean. *)
From Coq Require Import Lqa.
From Verif Require Import Prelude Numpy Rng M_Weights S_Weights S_Draws S_Moment S_Bayes P_Moment P_Bayes P_BayesEx P_BayesNot.
Open Scope Q_scope.

(* a difference of the means excludes Bayes' rule *)
Theorem c103_off_is_not_bayes :
  forall N L prior s0 post s1 lik psi, moments N L ->
  bayes_off (fun y m => ~ y == m) L prior s0 post s1 lik psi -> ~ bayes L prior s0 post s1 lik psi.
Proof. exact off_not. Qed.
Print Assumptions c103_off_is_not_bayes.

Theorem c103_beta_in_beta_independent_too_small :
  forall N L x al a b size s0 s1, moments N L -> (2 <= N)%nat -> 0 < x -> x < 1 -> 0 < al -> 0 < a -> 0 < b ->
  d s0 = [] -> d s1 = [0%nat] -> 0 <= p s1 <= 1 -> size = SNone \/ size = SInt 1 ->
  bayes_off Qlt L (bib_random_p x a b PIndependent ;; wm_random (CBIB x al a b PIndependent) (SInt 1)) s0
    (wm_random (CBIB x al a b PIndependent) size) s1 (label_chance [0%nat]) (weight 0).
Proof. exact bib_independent. Qed.
Print Assumptions c103_beta_in_beta_independent_too_small.

Theorem c103_beta_in_beta_geometric_too_large :
  forall N L x al a b size s0 s1, moments N L -> (2 <= N)%nat -> 0 < x -> x < 1 -> 0 < al -> 0 < a -> 0 < b ->
  d s0 = [] -> d s1 = [0%nat] -> 0 <= p s1 <= 1 -> size = SNone \/ size = SInt 1 ->
  bayes_off (fun y m => m < y) L (bib_random_p x a b PGeometric ;; wm_random (CBIB x al a b PGeometric) (SInt 1)) s0
    (wm_random (CBIB x al a b PGeometric) size) s1 (label_chance [0%nat]) (weight 0).
Proof. exact bib_geometric. Qed.
Print Assumptions c103_beta_in_beta_geometric_too_large.

Theorem c103_beta_binomial_too_small :
  forall N L n al size s0 s1, moments N L -> (2 <= N)%nat -> (0 < n)%Z -> 0 < al ->
  d s0 = [] -> d s1 = [0%nat] -> size = SNone \/ size = SInt 1 ->
  bayes_off Qlt L (wm_random (CBBin n al) (SInt 1)) s0 (wm_random (CBBin n al) size) s1 (label_chance [0%nat]) (weight 0).
Proof. exact bbin_gap. Qed.
Print Assumptions c103_beta_binomial_too_small.

Theorem c103_beta_in_beta_one :
  forall N L x al a b pm n size s0 s1 e f, moments N L -> x == 1 -> 0 < a -> 0 < b -> d s0 = [] -> d s1 <> [] ->
  (list_max (d s1) < n)%nat -> post_size (d s1) n size -> (length (d s1) + list_sum (d s1) + e + f <= N)%nat ->
  bayes L (bib_random_p x a b pm ;; wm_random (CBIB x al a b pm) (SInt (Z.of_nat n))) s0
    (wm_random (CBIB x al a b pm) size) s1 (label_chance (d s1)) (stick_powers [(e, f)]).
Proof. exact bib_one_bayes. Qed.
Print Assumptions c103_beta_in_beta_one.

Example c103_ex :
  exists L, let s0 := ws_init (1 # 2) 0 in let s1 := set_d [0%nat] s0 in
  moments 10 L /\
  ~ bayes L (bib_random_p (1 # 2) 1 1 PIndependent ;; wm_random (CBIB (1 # 2) 1 1 1 PIndependent) (SInt 1)) s0
    (wm_random (CBIB (1 # 2) 1 1 1 PIndependent) SNone) s1 (label_chance [0%nat]) (weight 0) /\
  ~ bayes L (bib_random_p (1 # 2) 1 1 PGeometric ;; wm_random (CBIB (1 # 2) 1 1 1 PGeometric) (SInt 1)) s0
    (wm_random (CBIB (1 # 2) 1 1 1 PGeometric) SNone) s1 (label_chance [0%nat]) (weight 0) /\
  ~ bayes L (wm_random (CBBin 3 1) (SInt 1)) s0 (wm_random (CBBin 3 1) SNone) s1 (label_chance [0%nat]) (weight 0) /\
  bayes L (bib_random_p 1 1 2 PStatic ;; wm_random (CBIB 1 1 1 2 PStatic) (SInt 3)) s0
    (wm_random (CBIB 1 1 1 2 PStatic) SNone) (set_d [0; 2; 1; 0]%nat s0) (label_chance [0; 2; 1; 0]%nat) (stick_powers [(2, 1)]%nat).
Proof.
  destruct (laws_exist 10) as (L & ML & _). exists L. cbv zeta. split; [exact ML|].
  assert (W : forall (R : Q -> Q -> Prop) prior s0 post s1 lik psi, (forall y m, R y m -> ~ y == m) -> bayes_off R L prior s0 post s1 lik psi -> ~ bayes L prior s0 post s1 lik psi).
  { intros R prior s0 post s1 lik psi HR (z & m & y & A & B & C & D & E). apply (c103_off_is_not_bayes 10 L _ _ _ _ _ _ ML). exists z, m, y. split; [exact A|]. split; [exact B|]. split; [exact C|]. split; [exact D|apply HR, E]. }
  split; [|split; [|split]].
  - apply (W Qlt); [intros; lra|]. apply (c103_beta_in_beta_independent_too_small 10 L (1 # 2) 1 1 1 SNone); try exact ML; try lia; try lra; try reflexivity; try (split; discriminate); left; reflexivity.
  - apply (W (fun y m => m < y)); [intros; lra|]. apply (c103_beta_in_beta_geometric_too_large 10 L (1 # 2) 1 1 1 SNone); try exact ML; try lia; try lra; try reflexivity; try (split; discriminate); left; reflexivity.
  - apply (W Qlt); [intros; lra|]. apply (c103_beta_binomial_too_small 10 L 3 1 SNone); try exact ML; try lia; try lra; try reflexivity. left; reflexivity.
  - apply (c103_beta_in_beta_one 10 L 1 1 1 2 PStatic 3 SNone (ws_init (1 # 2) 0) (set_d [0; 2; 1; 0]%nat (ws_init (1 # 2) 0)) 2 1 ML); try lra; try reflexivity; try discriminate; try (cbn; lia). left; split; reflexivity.
Qed.
