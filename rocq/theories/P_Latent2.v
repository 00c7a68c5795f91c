(* Proofs for C77, second part. *)
From Coq Require Import Reals Qreals Lra Lqa.
From Verif Require Import Prelude Numpy Rng M_Weights M_Ext M_Var S_Weights S_Draws S_More S_Oracle S_Var S_Opt S_Cond S_Latent P_Lists P_Wp P_Post P_More P_Var P_Var27 P_Cond P_CondShare P_Latent.
Open Scope R_scope.

Lemma half_shift q b x : 0 < x < 1 -> exp (beta_kernel (Q2R q + 1) b x) = x * exp (beta_kernel (Q2R q) b x).
Proof. intros H. unfold beta_kernel. rewrite <- (exp_ln x) at 3 by Lra.lra. rewrite <- exp_plus. f_equal. ring. Qed.
Lemma q2r_c x : (0 < x)%Q -> (x < 1)%Q -> 0 < Q2R x / (1 - Q2R x).
Proof. intros H1 H2. apply Qlt_Rlt in H1, H2. rewrite RMicromega.Q2R_0 in H1. rewrite q2r_1 in H2. apply Rdiv_lt_0_compat; Lra.lra. Qed.

(* ---- p of BetaInBeta ---- *)
Lemma bib_first x al a b pm o s g : valid_oracle o -> (0 < x)%Q -> (x < 1)%Q -> (0 < al)%Q -> (0 < a)%Q -> (0 < b)%Q -> pm = PGeometric \/ pm = PIndependent -> (0 <= p s <= 1)%Q -> d s = [0%nat] ->
  exists rq rest, snd (wm_random (CBIB x al a b pm) SNone o s g) = g ++ rq :: rest /\
    (pm = PIndependent -> forall q, 0 < q < 1 -> exp (req_kernel rq q) = exp (beta_kernel (Q2R a) (Q2R b) q)) /\
    (pm = PGeometric -> forall q, 0 < q < 1 -> exp (req_kernel rq q) = q * exp (beta_kernel (Q2R a) (Q2R b) q)).
Proof.
  intros V Hx Hx1 Hal Ha Hb Hm Hp Hd.
  assert (Hm' : closed_method pm) by (unfold closed_method; destruct Hm; auto).
  pose proof (c62_fitted_proof x al a b pm SNone 1 o s g V Hx Hx1 Hal Ha Hb ltac:(rewrite Hd; discriminate) Hm' Hp ltac:(lia) ltac:(left; rewrite Hd; auto)) as W.
  destruct (wm_random _ _ _ _ _) as [[r s'] g']. destruct W as (_ & W & _). cbv zeta in W. cbn [snd]. rewrite W. rewrite Hd. unfold p_requests.
  destruct Hm as [-> | ->]; cbn [app]; eexists _, _; (split; [rewrite <- !app_assoc; reflexivity|]); (split; [|]); try discriminate; intros _ q Hq.
  - unfold bib_req. rewrite kernel_rbeta, !Q2R_plus, !q2r_nq. cbn [length list_sum fold_right]. simpl INR. rewrite Rplus_0_r. apply half_shift, Hq.
  - rewrite kernel_rbeta. reflexivity.
Qed.
Lemma c77_bib_proof x al a b pm o s g : valid_oracle o -> (0 < x)%Q -> (x < 1)%Q -> (0 < al)%Q -> (0 < a)%Q -> (0 < b)%Q -> pm = PGeometric \/ pm = PIndependent -> (0 <= p s <= 1)%Q -> d s = [0%nat] ->
  let c := Q2R x / (1 - Q2R x) in
  exists rq rest, snd (wm_random (CBIB x al a b pm) SNone o s g) = g ++ rq :: rest /\
    ~ proportional (fun q => exp (req_kernel rq q)) (fun q => exp (beta_kernel (Q2R a) (Q2R b) q) * beta_mean (1 + c * q) (Q2R al + c * (1 - q))).
Proof.
  intros V Hx Hx1 Hal Ha Hb Hm Hp Hd c. destruct (bib_first x al a b pm o s g V Hx Hx1 Hal Ha Hb Hm Hp Hd) as (rq & rest & E & HI & HG). exists rq, rest. split; [exact E|].
  pose proof (q2r_c x Hx Hx1) as Hc. fold c in Hc. pose proof (q2r_pos _ Hal) as Pal.
  intros (C & H). unfold beta_mean in H.
  assert (X : forall q, 0 < q < 1 -> (if match pm with PIndependent => true | _ => false end then 1 else q) * (1 + Q2R al + c) = C * (1 + c * q)).
  { intros q Hq. specialize (H q Hq). assert (PE : 0 < exp (beta_kernel (Q2R a) (Q2R b) q)) by apply exp_pos.
    destruct Hm as [-> | ->].
    - rewrite HG in H by (reflexivity || exact Hq). replace (1 + c * q + (Q2R al + c * (1 - q))) with (1 + Q2R al + c) in H by ring.
      apply (Rmult_eq_reg_l (exp (beta_kernel (Q2R a) (Q2R b) q))); [|Lra.lra]. 
      replace (exp (beta_kernel (Q2R a) (Q2R b) q) * (q * (1 + Q2R al + c))) with (q * exp (beta_kernel (Q2R a) (Q2R b) q) * (1 + Q2R al + c)) by ring. rewrite H. field. Lra.lra.
    - rewrite HI in H by (reflexivity || exact Hq). replace (1 + c * q + (Q2R al + c * (1 - q))) with (1 + Q2R al + c) in H by ring.
      apply (Rmult_eq_reg_l (exp (beta_kernel (Q2R a) (Q2R b) q))); [|Lra.lra]. 
      replace (exp (beta_kernel (Q2R a) (Q2R b) q) * (1 * (1 + Q2R al + c))) with (exp (beta_kernel (Q2R a) (Q2R b) q) * (1 + Q2R al + c)) by ring. rewrite H at 1. field. Lra.lra. }
  pose proof (X (1/3) ltac:(Lra.lra)) as X1. pose proof (X (2/3) ltac:(Lra.lra)) as X2. destruct Hm as [-> | ->]; cbn iota in *.
  - assert (C = 0) by Lra.nra. subst C. Lra.lra.
  - assert (C * c = 0) by Lra.nra. assert (C = 0) by (destruct (Rmult_integral _ _ H0); [assumption|Lra.lra]). subst C. Lra.lra.
Qed.
Lemma c77_bib_given_stick_proof dens a b pm o s g y : beta_density_at_integers dens -> valid_oracle o -> (0 < a)%Q -> (0 < b)%Q -> pm = PGeometric \/ pm = PIndependent -> (0 <= p s <= 1)%Q -> d s = [0%nat] -> 0 < y < 1 ->
  exists rq rest, snd (wm_random (CBIB (4 # 5) 1 a b pm) SNone o s g) = g ++ rq :: rest /\
    ~ proportional (fun q => exp (req_kernel rq q)) (fun q => exp (beta_kernel (Q2R a) (Q2R b) q) * dens (1 + 4 * q) (1 + 4 * (1 - q)) y).
Proof.
  intros HD V Ha Hb Hm Hp Hd Hy. destruct (bib_first (4 # 5) 1 a b pm o s g V ltac:(reflexivity) ltac:(reflexivity) ltac:(reflexivity) Ha Hb Hm Hp Hd) as (rq & rest & E & HI & HG). exists rq, rest. split; [exact E|].
  intros (C & H).
  assert (X : forall q, 0 < q < 1 -> (if match pm with PIndependent => true | _ => false end then 1 else q) = C * dens (1 + 4 * q) (1 + 4 * (1 - q)) y).
  { intros q Hq. specialize (H q Hq). assert (PE : 0 < exp (beta_kernel (Q2R a) (Q2R b) q)) by apply exp_pos.
    apply (Rmult_eq_reg_l (exp (beta_kernel (Q2R a) (Q2R b) q))); [|Lra.lra]. destruct Hm as [-> | ->]; [rewrite HG in H by (reflexivity || exact Hq)|rewrite HI in H by (reflexivity || exact Hq)]; Lra.lra. }
  pose proof (X (1/4) ltac:(Lra.lra)) as X1. pose proof (X (1/2) ltac:(Lra.lra)) as X2. pose proof (X (3/4) ltac:(Lra.lra)) as X3.
  replace (1 + 4 * (1 / 4)) with (INR 2) in X1 by (simpl; Lra.lra). replace (1 + 4 * (1 - 1 / 4)) with (INR 4) in X1 by (simpl; Lra.lra).
  replace (1 + 4 * (1 / 2)) with (INR 3) in X2 by (simpl; Lra.lra). replace (1 + 4 * (1 - 1 / 2)) with (INR 3) in X2 by (simpl; Lra.lra).
  replace (1 + 4 * (3 / 4)) with (INR 4) in X3 by (simpl; Lra.lra). replace (1 + 4 * (1 - 3 / 4)) with (INR 2) in X3 by (simpl; Lra.lra).
  rewrite HD in X1, X2, X3. cbn [plus] in X1, X2, X3.
  replace (INR (fact 5) / (INR (fact 1) * INR (fact 3))) with 20 in X1 by (simpl; field). replace (INR (fact 5) / (INR (fact 2) * INR (fact 2))) with 30 in X2 by (simpl; field). replace (INR (fact 5) / (INR (fact 3) * INR (fact 1))) with 20 in X3 by (simpl; field).
  set (z := 1 - y) in *. assert (Pz : 0 < z) by (unfold z; Lra.lra). assert (Py : 0 < y) by Lra.lra.
  set (u := C * y * z). assert (E1 : C * (20 * (y ^ 1 * z ^ 3)) = 20 * u * (z * z)) by (unfold u; ring). assert (E2 : C * (30 * (y ^ 2 * z ^ 2)) = 30 * u * (y * z)) by (unfold u; ring). assert (E3 : C * (20 * (y ^ 3 * z ^ 1)) = 20 * u * (y * y)) by (unfold u; ring).
  rewrite E1 in X1. rewrite E2 in X2. rewrite E3 in X3. clear E1 E2 E3.
  (* (yz)^2 = (zz)(yy) *)
  assert (K : (u * (y * z)) * (u * (y * z)) = (u * (z * z)) * (u * (y * y))) by ring.
  destruct Hm as [-> | ->]; cbn iota in *.
  - replace (u * (y * z)) with (1 / 60) in K by Lra.lra. replace (u * (z * z)) with (1 / 80) in K by Lra.lra. replace (u * (y * y)) with (3 / 80) in K by Lra.lra. Lra.lra.
  - replace (u * (y * z)) with (1 / 30) in K by Lra.lra. replace (u * (z * z)) with (1 / 20) in K by Lra.lra. replace (u * (y * y)) with (1 / 20) in K by Lra.lra. Lra.lra.
Qed.

(* ---- counts of BetaBinomial ---- *)
Lemma trials_affine n x f a b : (forall k, (k <= n)%nat -> f k = a + b * INR k) -> trials n x f = a + b * (INR n * x).
Proof.
  revert f a b. induction n as [|n IH]; intros f a b H.
  - cbn [trials]. rewrite H by lia. simpl. ring.
  - cbn [trials]. rewrite (IH (fun k => f (S k)) (a + b) b) by (intros k Hk; rewrite H, S_INR by lia; ring). rewrite (IH f a b) by (intros k Hk; apply H; lia). rewrite S_INR. ring.
Qed.
Lemma c77_bbin_proof n al size k o s g : valid_oracle o -> (0 < n)%Z -> (0 < al)%Q -> d s = [0%nat] -> (size = SNone /\ k = 1%nat \/ size = SInt (Z.of_nat k)) ->
  exists rq rest, snd (wm_random (CBBin n al) size o s g) = g ++ rq :: rest /\
    ~ proportional (fun y => exp (req_kernel rq y)) (fun y => exp (beta_kernel 1 (Q2R al) y) * trials (Z.to_nat n) y (fun b => beta_mean (1 + INR b) (Q2R al + IZR n - INR b))).
Proof.
  intros V Hn Ha Hd Hk. pose proof (c12_gen n al size k o s g V ltac:(lia) Ha ltac:(rewrite Hd; discriminate) Hk) as W. unfold wp, bbin_drawn in W. cbv zeta in W.
  destruct (wm_random _ _ _ _ _) as [[r s'] g']. destruct W as (_ & W & _). cbn [snd]. rewrite W. unfold bbin_latent at 1.
  exists (rbeta 1 al). eexists. split; [rewrite <- !app_assoc; reflexivity|].
  pose proof (q2r_pos _ Ha) as Pa. set (N := Z.to_nat n). assert (EN : IZR n = INR N) by (unfold N; rewrite INR_IZR_INZ, Z2Nat.id by lia; reflexivity). assert (PN : 1 <= INR N) by (rewrite <- EN; apply IZR_le; lia).
  intros (C & H).
  assert (X : forall y, 0 < y < 1 -> 1 + Q2R al + INR N = C * (1 + INR N * y)).
  { intros y Hy. specialize (H y Hy). rewrite kernel_rbeta, q2r_1 in H.
    rewrite (trials_affine N y _ (/ (1 + Q2R al + INR N)) (/ (1 + Q2R al + INR N))) in H.
    - assert (PE : 0 < exp (beta_kernel 1 (Q2R al) y)) by apply exp_pos. apply (Rmult_eq_reg_l (exp (beta_kernel 1 (Q2R al) y))); [|Lra.lra]. rewrite H at 1. field. Lra.lra.
    - intros j Hj. unfold beta_mean. rewrite EN. replace (1 + INR j + (Q2R al + INR N - INR j)) with (1 + Q2R al + INR N) by ring. field. Lra.lra. }
  pose proof (X (1/3) ltac:(Lra.lra)) as X1. pose proof (X (2/3) ltac:(Lra.lra)) as X2. assert (E : C * INR N = 0) by Lra.nra. destruct (Rmult_integral _ _ E) as [-> | E2]; Lra.lra.
Qed.

(* ---- indicators of BetaBernoulli ---- *)
(* every indicator that can be 1 is 1 *)
Definition full_oracle (b : Q) : oracle := {|
  o_beta := fun _ _ _ => b;
  o_binom := fun _ n p => if Qeq_bool p 0 then 0%Z else n;
  o_unif := fun _ lo _ => lo;
  o_dirichlet := fun _ al => match al with [] => [] | _ :: t => 1%Q :: repeat 0%Q (length t) end;
  o_choice := fun _ p => last_idx (qltb 0) p;
  o_gumbel := fun _ ok => last_idx (fun x => x) ok;
  o_optim := fun _ => Some (1 # 2)%Q;
  o_root := fun _ => Some (1 # 2)%Q;
  o_invw := fun _ _ psi => inl psi;
  o_mvn := fun _ mu _ => inl mu;
  o_kmeans := fun _ y _ => repeat 0%nat (length y) |}.
Lemma full_oracle_valid b : (0 <= b <= 1)%Q -> valid_oracle (full_oracle b).
Proof.
  intros Hb. pose proof (last_oracle_valid b Hb) as V. constructor; try apply V; simpl; intros.
  - destruct (Qeq_bool p 0); lia.
  - apply Qeq_bool_iff in H0. rewrite H0. reflexivity.
  - destruct (Qeq_bool p 0) eqn:E; auto. apply Qeq_bool_iff in E. Lqa.lra.
Qed.
Lemma c77_bb_proof : exists o s r s' g', valid_oracle o /\ d s = [0; 1; 2]%nat /\ wm_random (CBB (1 # 2) 1) SNone o s [] = (Ok r, s', g') /\
  firstn 4 g' = [rbinom 1 (1 # 2); rbinom 1 (1 # 2); rbinom 1 (1 # 2); rbinom 1 (12 # 13)] /\ firstn 3 (bern s') = [0; 1; 1]%nat /\
  (indicator_prob (1 # 2) 1 [0; 1; 1]%nat (d s) 1 == 5 # 11)%Q.
Proof.
  exists (full_oracle (1 # 2)), (set_d [0; 1; 2]%nat (ws_init 0 0)). eexists _, _, _. split; [apply full_oracle_valid; split; discriminate|]. split; [reflexivity|]. split; [vm_compute; reflexivity|]. split; [vm_compute; reflexivity|]. split; [vm_compute; reflexivity|vm_compute; reflexivity].
Qed.
Lemma c77_bb_last_proof : exists o s r s' g', valid_oracle o /\ d s = [0; 1; 1]%nat /\ wm_random (CBB (1 # 2) 1) SNone o s [] = (Ok r, s', g') /\
  (forall q, In (RBinom 1 q) g' -> q = (1 # 2)%Q) /\ firstn 2 (bern s') = [0; 1]%nat /\
  (indicator_prob (1 # 2) 1 [0; 1]%nat (d s) 1 == 5 # 8)%Q.
Proof.
  exists (full_oracle (1 # 2)), (set_d [0; 1; 1]%nat (ws_init 0 0)). eexists _, _, _. split; [apply full_oracle_valid; split; discriminate|]. split; [reflexivity|]. split; [vm_compute; reflexivity|].
  split; [simpl; intros q Hq; repeat (destruct Hq as [Hq|Hq]; [congruence|]); contradiction|]. split; [vm_compute; reflexivity|vm_compute; reflexivity].
Qed.
(* a new base of BetaInDirichlet gets a stick from the prior *)
Lemma c77_bid_stick_proof : exists o s r s' g', valid_oracle o /\ d s = [0; 0; 1; 1]%nat /\ wm_random (CBID 1 1) SNone o s [] = (Ok r, s', g') /\
  g' = [rbeta 5 3; RGumbel [true; true]; rbeta 1 1; RGumbel [true; true]; rbeta 1 1] /\ dbase s' = [1; 1]%nat /\ v s' = beta_answers o (firstn 2 g') [rbeta 1 1; rbeta 1 1] /\
  (forall x, 0 < x < 1 -> log_lik (stick_weight (fun _ => x)) (d s) + beta_kernel 1 1 x = beta_kernel 5 3 x) /\
  ~ proportional (fun x => exp (beta_kernel 1 1 x)) (fun x => exp (beta_kernel 5 3 x)).
Proof.
  exists (full_oracle (1 # 2)), (set_d [0; 0; 1; 1]%nat (ws_init 0 0)). eexists _, _, _. split; [apply full_oracle_valid; split; discriminate|]. split; [reflexivity|]. split; [vm_compute; reflexivity|].
  split; [vm_compute; reflexivity|]. split; [vm_compute; reflexivity|]. split; [vm_compute; reflexivity|]. split.
  - intros x Hx. unfold beta_kernel. cbn [d set_d log_lik map fold_right]. unfold stick_weight. cbn. replace (x * 1) with x by ring. replace (x * (1 * (1 - x))) with (x * (1 - x)) by ring. rewrite ln_mult by Lra.lra. ring.
  - intros (C & H). unfold beta_kernel in H. 
    assert (E : forall x, 0 < x < 1 -> 1 = C * (x ^ 4 * (1 - x) ^ 2)).
    { intros x Hx. specialize (H x Hx). replace ((1 - 1) * ln x + (1 - 1) * ln (1 - x)) with 0 in H by ring. rewrite exp_0 in H. etransitivity; [exact H|]. f_equal.
      replace ((5 - 1) * ln x + (3 - 1) * ln (1 - x)) with (ln x + ln x + ln x + ln x + (ln (1 - x) + ln (1 - x))) by ring. rewrite !exp_plus, !exp_ln by Lra.lra. ring. }
    pose proof (E (1/2) ltac:(Lra.lra)). pose proof (E (1/3) ltac:(Lra.lra)). Lra.lra.
Qed.
(* the hypotheses on the Beta densities can be met *)
Definition nat_of (r : R) : nat := Z.to_nat (up r - 1).
Lemma nat_of_INR n : nat_of (INR n) = n.
Proof. unfold nat_of. rewrite <- (tech_up (INR n) (Z.of_nat n + 1)); [lia| |]; rewrite plus_IZR, <- INR_IZR_INZ; Lra.lra. Qed.
Lemma dens_exists : exists dens, beta_density_at_integers dens.
Proof.
  exists (fun a b y => INR (fact (nat_of a + nat_of b - 1)) / (INR (fact (nat_of a - 1)) * INR (fact (nat_of b - 1))) * (y ^ (nat_of a - 1) * (1 - y) ^ (nat_of b - 1))).
  intros m n y. rewrite !nat_of_INR. replace (S m + S n - 1)%nat with (m + n + 1)%nat by lia. replace (S m - 1)%nat with m by lia. replace (S n - 1)%nat with n by lia. reflexivity.
Qed.
