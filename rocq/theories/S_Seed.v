(* Specification for the rng argument. *)
From Verif Require Import Prelude M_Seed.

(* how many of the draws in l are made by x *)
Fixpoint turns (x : who) (l : list who) : nat :=
  match l with
  | [] => 0
  | y :: t => match x, y with Weight, Weight | Mixture, Mixture => S (turns x t) | _, _ => turns x t end
  end.
