(* Specification: the label chosen from scores that need not be finite (C90). *)
From Verif Require Import Prelude Numpy M_Mix.

(* x stands at position j of l and nowhere before *)
Definition first_at {A} (x : A) (l : list A) (j : nat) : Prop :=
  nth_error l j = Some x /\ forall i, (i < j)%nat -> nth_error l i <> Some x.

(* argmax of the scores plus finite noise: the first NaN, else the first +inf,
   else some finite score, else (everything is -inf) the first *)
Inductive chosen (ls : list lx) (j : nat) : Prop :=
| chosen_nan : first_at LNan ls j -> chosen ls j
| chosen_pos : ~ In LNan ls -> first_at LPos ls j -> chosen ls j
| chosen_finite q : ~ In LNan ls -> ~ In LPos ls -> nth_error ls j = Some (LQ q) -> chosen ls j
| chosen_none : (forall x, In x ls -> x = LNeg) -> j = 0%nat -> chosen ls j.
