(* Specification: exact conditional laws of the weights given the labels. *)
From Coq Require Import Reals Qreals.
From Verif Require Import Prelude Numpy Rng M_Weights M_Ext M_Var S_Weights S_Draws S_Var S_Opt.
Open Scope R_scope.

(* log-probability of the labels dd when label j has probability w j *)
Definition log_lik (w : nat -> R) (dd : list nat) : R := rsum (map (fun i => ln (w i)) dd).
(* log of the unnormalised density at x of the distribution that a request asks for *)
Definition beta_req (r : req) : Prop := exists a b, r = RBeta a b.
Definition req_kernel (r : req) (x : R) : R :=
  match r with RBeta a b => beta_kernel (Q2R a) (Q2R b) x | _ => 0 end.
(* independent beta draws of the sticks: joint log kernel *)
Definition sticks_kernel (rs : list req) (x : nat -> R) : R :=
  sumn (fun j => req_kernel (nth j rs (RBeta 1%Q 1%Q)) (x j)) (length rs).

(* Drawing the sticks from rs is drawing them from their conditional law given
   the labels dd: prior density times likelihood is the density of rs, up to
   the factor exp c that does not depend on the sticks. *)
Definition exact_sticks (prior : nat -> R -> R) (dd : list nat) (rs : list req) : Prop :=
  Forall beta_req rs /\
  exists c, forall x, sticks_in (length rs) x ->
    log_lik (stick_weight x) dd + sumn (fun j => prior j (x j)) (length rs) = c + sticks_kernel rs x.

(* log of the unnormalised Binomial(n, x) probability of b *)
Definition binom_kernel (n b : Z) (x : R) : R := IZR b * ln x + IZR (n - b) * ln (1 - x).

(* random(size) draws k sticks, at least one per label *)
Definition asks (size : pysize) (dd : list nat) (k : nat) : Prop :=
  size = SNone /\ dd <> [] /\ k = S (list_max dd) \/ size = SInt (Z.of_nat k) /\ (S (list_max dd) <= k)%nat.

(* Sticks shared by groups: position j uses the stick numbered m j. *)
Definition exact_shared (prior : R -> R) (m : nat -> nat) (dd : list nat) (rs : list req) : Prop :=
  Forall beta_req rs /\ (forall j, (j <= list_max dd)%nat -> (m j < length rs)%nat) /\
  forall x, sticks_in (length rs) x ->
    log_lik (stick_weight (fun j => x (m j))) dd + sumn (fun g => prior (x g)) (length rs) = sticks_kernel rs x.
