(* Specification of rejection sampling. *)
From Verif Require Import Prelude Numpy Rng S_Oracle.
Open Scope Q_scope.

Section Proposals.
Variables (o : oracle) (g : rng) (max_y a b : Q).
(* the generator after n proposals, each a uniform on [a,b) and one on [0,max_y) *)
Fixpoint after (n : nat) : rng := match n with O => g | S m => after m ++ [runif a b; runif 0 max_y] end.
(* the n-th proposal *)
Definition prop_x (n : nat) : Q := o_unif o (after n) (Qred a) (Qred b).
Definition prop_y (n : nat) : Q := o_unif o (after n ++ [runif a b]) 0 (Qred max_y).
(* proposal n lies under the graph of f *)
Definition accepted (f : Q -> Q) (n : nat) : Prop := prop_y n <= f (prop_x n).
End Proposals.
(* the answer to the uniform request at position i of the log *)
Definition answer (o : oracle) (log : rng) (i : nat) : option Q :=
  match nth_error log i with Some (RUnif lo hi) => Some (o_unif o (firstn i log) lo hi) | _ => None end.
(* x is the answer to a uniform request on [a,b), y that to a later one on
   [0,max_y) *)
Definition drawn_after (o : oracle) (log : rng) (max_y a b x y : Q) : Prop :=
  exists i j, (i < j)%nat /\ nth_error log i = Some (runif a b) /\ nth_error log j = Some (runif 0 max_y) /\
    answer o log i = Some x /\ answer o log j = Some y.
(* a generator whose n-th request, when uniform on [lo,hi), has answer
   lo + (hi-lo) r_n *)
Definition unif_oracle (r : nat -> Q) : oracle :=
  let c := const_oracle (1 # 2) in
  {| o_beta := o_beta c; o_binom := o_binom c; o_unif := fun g lo hi => lo + (hi - lo) * r (length g);
     o_dirichlet := o_dirichlet c; o_choice := o_choice c; o_gumbel := o_gumbel c; o_optim := o_optim c; o_root := o_root c;
     o_invw := o_invw c; o_mvn := o_mvn c; o_kmeans := o_kmeans c |}.
