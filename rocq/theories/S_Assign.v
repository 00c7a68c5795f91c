(* Specifications for normalised weights, random labels and likelihoods. *)
From Verif Require Import Prelude Rng S_Weights.
Open Scope Q_scope.

(* fraction of the total mass carried by the first j weights *)
Definition share (w : list Q) (j : nat) : Q := qtotal (firstn j w) / qtotal w.
Definition nonneg (w : list Q) : Prop := Forall (fun x => 0 <= x) w.

(* the answers a generator gives to k consecutive uniform() requests *)
Fixpoint unif_answers (o : oracle) (g : rng) (k : nat) : list Q :=
  match k with
  | O => []
  | S k' => o_unif o g 0 1 :: unif_answers o (g ++ [RUnif 0 1]) k'
  end.
