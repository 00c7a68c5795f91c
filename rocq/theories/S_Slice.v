(* Specification: the slice update of a label as a Markov kernel.  Component j
   of k has weight w j and likelihood f j (of the observation at hand). *)
From Coq Require Import Reals.
From Verif Require Import Prelude M_Ext S_Var.
Open Scope R_scope.

(* the components above the slice, and the sum of their likelihoods *)
Definition above (w f : nat -> R) (u : R) (j : nat) : R := if Rlt_dec u (w j) then f j else 0.
Definition slice_mass (k : nat) (w f : nat -> R) (u : R) : R := sumn (above w f u) k.
(* the scores of the labels: log-likelihood, or -inf at or below the slice *)
Definition slice_scores (k : nat) (w f : nat -> R) (u : R) : list ext :=
  map (fun j => if Rlt_dec u (w j) then EF (ln (f j)) else ENI) (seq 0 k).
(* law of the new label given the slice; label 0 if nothing is above it *)
Definition label_prob (k : nat) (w f : nat -> R) (u : R) (j : nat) : R :=
  if Req_EM_T (slice_mass k w f u) 0 then (if Nat.eqb j 0 then 1 else 0)
  else above w f u j / slice_mass k w f u.
(* x is the integral of g from a to b *)
Definition is_int (g : R -> R) (a b x : R) : Prop := exists pr : Riemann_integrable g a b, RiemannInt pr = x.
(* p is the probability to move from label i to label j: the slice is uniform
   on (e, w i + e) *)
Definition moves (e : R) (k : nat) (w f : nat -> R) (i j : nat) (p : R) : Prop :=
  exists x, is_int (fun u => label_prob k w f u j) e (w i + e) x /\ p = x / w i.
Definition positive (k : nat) (w : nat -> R) : Prop := forall j, (j < k)%nat -> 0 < w j.
