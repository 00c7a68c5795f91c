(* Specification: exact conditional laws of the latent variables (indicators,
   counts, base labels, p) given the labels. *)
From Coq Require Import Reals Qreals.
From Verif Require Import Prelude Numpy Rng M_Weights M_Ext M_Var S_Weights S_Draws S_Var S_Opt S_Cond.
Open Scope Q_scope.

(* x (x+1) ... (x+n-1) *)
Fixpoint rising (x : Q) (n : nat) : Q := match n with O => 1 | S m => rising x m * (x + nq m) end.
(* E[v^A (1-v)^B] for a stick v ~ Beta(1, al) *)
Definition marg (al : Q) (A B : nat) : Q := rising 1 A * rising al B / rising (1 + al) (A + B).

(* Indicators bs: position j >= 1 opens a new stick when its indicator is 1. *)
Definition stick_no (bs : list nat) (j : nat) : nat := list_sum (firstn j (tl bs)).
(* labels at positions that use stick g; stick g passed over by a label *)
Definition hits (bs dd : list nat) (g : nat) : nat := length (filter (fun i => Nat.eqb (stick_no bs i) g) dd).
Definition passes (bs dd : list nat) (g : nat) : nat :=
  list_sum (map (fun i => length (filter (fun j => Nat.eqb (stick_no bs j) g) (seq 0 i))) dd).
(* probability of the indicators and the labels, sticks integrated out *)
Definition joint (q al : Q) (bs dd : list nat) : Q :=
  qproduct (map (fun b => if Nat.eqb b 1 then q else 1 - q) (tl bs)) *
  qproduct (map (fun g => marg al (hits bs dd g) (passes bs dd g)) (seq 0 (S (list_sum (tl bs))))).
(* conditional probability that indicator j is 1 given the others and the labels *)
Definition indicator_prob (q al : Q) (bs dd : list nat) (j : nat) : Q :=
  let b1 := firstn j bs ++ 1%nat :: skipn (S j) bs in let b0 := firstn j bs ++ 0%nat :: skipn (S j) bs in
  joint q al b1 dd / (joint q al b1 dd + joint q al b0 dd).

Open Scope R_scope.
(* f and h are proportional on (0, 1) *)
Definition proportional (f h : R -> R) : Prop := exists C, forall x, 0 < x < 1 -> f x = C * h x.
(* mean of Beta(a, b) *)
Definition beta_mean (a b : R) : R := a / (a + b).
(* expectation of f(number of successes) in n trials with success probability x *)
Fixpoint trials (n : nat) (x : R) (f : nat -> R) : R :=
  match n with O => f 0%nat | S m => x * trials m x (fun b => f (S b)) + (1 - x) * trials m x f end.
(* a family of Beta densities: the usual formula at integer parameters *)
Definition beta_density_at_integers (dens : R -> R -> R -> R) : Prop :=
  forall m n y, dens (INR (S m)) (INR (S n)) y = INR (fact (m + n + 1)) / (INR (fact m) * INR (fact n)) * (y ^ m * (1 - y) ^ n).

(* base labels: weight of base dd for a position with A hits and B passes, given
   the base labels red of the other positions and the sticks vb of the bases *)
Definition used (red : list nat) (dd : nat) : bool := negb (Nat.eqb (count_occ Nat.eq_dec red dd) 0).
Definition base_weight (al : Q) (a : R) (vb : list R) (A B : nat) (red : list nat) (dd : nat) : R :=
  if used red dd then INR (count_occ Nat.eq_dec red dd) * (nth dd vb 0 ^ A * (1 - nth dd vb 0) ^ B)
  else if forallb (used red) (seq 0 dd) then a * Q2R (marg al A B) else 0.
Definition score_weight (x : ext) : R := match x with EF r => exp r | _ => 0 end.
