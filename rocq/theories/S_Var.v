(* Specifications for the variational half of the weight models. *)
From Coq Require Import Reals Qreals.
From Verif Require Import Prelude Numpy Rng M_Weights M_Ext M_Var S_Weights S_Draws.
Open Scope R_scope.

(* a k x N array of non-negative numbers *)
Definition good_mat (D : mat) : Prop :=
  Forall (fun r => length r = cols D /\ Forall (fun x => 0 <= x) r) (rows D).
(* every column adds up to 1 *)
Definition stochastic (D : mat) : Prop :=
  forall i, (i < cols D)%nat -> rsum (map (fun r => nth i r 0) (rows D)) = 1.
(* the one-hot array of labels dd with k rows *)
Definition one_hot (k : nat) (dd : list nat) : mat :=
  Mat (map (fun j => map (fun i => if Nat.eqb i j then 1 else 0) dd) (seq 0 k)) (length dd).

(* mass of row j and of the rows after it *)
Definition mass (D : mat) (j : nat) : R := rsum (nth j (rows D) []).
Definition mass_after (D : mat) (j : nat) : R := rsum (map rsum (skipn (S j) (rows D))).

(* a beta request has the parameters (a, b) *)
Definition beta_is (r : req) (ab : R * R) : Prop :=
  exists x y, r = rbeta x y /\ Q2R x = fst ab /\ Q2R y = snd ab.

(* sum of f over 0 .. n-1, product likewise *)
Definition sumn (f : nat -> R) (n : nat) : R := rsum (map f (seq 0 n)).
Fixpoint prodn (f : nat -> R) (n : nat) : R := match n with O => 1 | S m => prodn f m * f m end.

(* E m n = E[p^m (1-p)^n] for p ~ Beta(a, b), characterised by the moment
   recurrences *)
Definition beta_moments (a b : R) (E : nat -> nat -> R) : Prop :=
  E 0%nat 0%nat = 1 /\
  (forall m n, E m n = E (S m) n + E m (S n)) /\
  (forall m n, (a + b + INR m + INR n) * E (S m) n = (a + INR m) * E m n).

Definition increasing_pos (f : R -> R) : Prop := forall x y, 0 < x -> x < y -> f x < f y.
(* log of a function with Gamma(x+1) = x Gamma(x), Gamma(1) = 1 *)
Definition log_gamma_like (f : R -> R) : Prop := f 1 = 0 /\ forall x, 0 < x -> f (x + 1) = ln x + f x.

(* expectation of the log of a Beta(a, b) density when the expected logs of the
   variable and of its complement are x and y *)
Definition beta_log_density (lgamma : R -> R) (a b x y : R) : R :=
  (a - 1) * x + (b - 1) * y + lgamma (a + b) - lgamma a - lgamma b.

(* mode of a Beta(a, b) variable when it is unique *)
Definition multimodal (a b : R) : Prop := a <= 1 /\ b <= 1.
Definition is_beta_mode (a b m : R) : Prop :=
  (a <= 1 /\ 1 < b /\ m = 0) \/ (1 < a /\ b <= 1 /\ m = 1) \/ (1 < a /\ 1 < b /\ m * (a + b - 2) = a - 1).
(* some stick i <= j, i < n, has no unique mode and no earlier stick has mode 1 *)
Definition no_mode (a b : nat -> R) (n j : nat) : Prop :=
  exists i, (i <= j)%nat /\ (i < n)%nat /\ multimodal (a i) (b i) /\ forall l, (l < i)%nat -> ~ is_beta_mode (a l) (b l) 1.

(* a log-probability: -inf or a number that is not positive *)
Definition log_prob (e : ext) : Prop := e = ENI \/ exists x, e = EF x /\ x <= 0.
(* expected log-probability of the labels: sum_i sum_j D_ji * x_j *)
Definition expected_log (D : mat) (x : nat -> R) : R :=
  sumn (fun i => sumn (fun j => nth i (nth j (rows D) []) 0 * x j) (length (rows D))) (cols D).
(* expectation of the log of a Dirichlet(l) density when the expected logs are e *)
Definition dirichlet_log_density (lgamma : R -> R) (l : list R) (e : nat -> R) : R :=
  sumn (fun j => (nth j l 0 - 1) * e j) (length l) + lgamma (rsum l) - rsum (map lgamma l).
(* classes with / without variational methods *)
Definition has_variational (c : cls) : Prop :=
  match c with CBIB _ _ _ _ _ | CBID _ _ | CBB _ _ | CBBin _ _ => False | _ => True end.
