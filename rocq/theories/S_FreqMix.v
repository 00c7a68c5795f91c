(* Specification: label chains that never open a group. *)
From Verif Require Import Prelude Numpy Rng M_Weights M_Niw M_Utils M_Mix.

(* later states use no new labels, except possibly label 0 *)
Definition shrinking (tr : list rparams) : Prop := forall i j p q, (i < j)%nat -> nth_error tr i = Some p -> nth_error tr j = Some q -> incl (r_d q) (0%nat :: r_d p).
