(* Relabelling clusters: vocabulary for np.argsort and for label vectors. *)
From Coq Require Import Permutation.
From Verif Require Import Prelude.
Open Scope nat_scope.

(* [f] sorts: it returns every index once, in an order in which the values do
   not decrease; ties may be broken in any way *)
Definition argsorts (f : list Z -> list nat) : Prop :=
  forall l, Permutation (f l) (seq 0 (length l)) /\
    forall i j, i <= j -> j < length l -> Z.le (nth (nth i (f l) 0) l 0%Z) (nth (nth j (f l) 0) l 0%Z).

(* the two label vectors put the same observations together *)
Definition same_partition (a b : list nat) : Prop :=
  length a = length b /\ forall i j, i < length a -> j < length a -> (nth i a 0 = nth j a 0 <-> nth i b 0 = nth j b 0).
(* the labels in use are 0, ..., g - 1 *)
Definition contiguous (g : nat) (l : list nat) : Prop := forall c, In c l <-> c < g.
Definition size_of (c : nat) (l : list nat) : nat := count_occ Nat.eq_dec l c.
(* larger clusters have smaller labels *)
Definition by_size (g : nat) (l : list nat) : Prop := forall c c', c <= c' -> c' < g -> size_of c' l <= size_of c l.

(* a stable insertion argsort, as an example *)
Fixpoint ins (x : Z * nat) (l : list (Z * nat)) : list (Z * nat) :=
  match l with [] => [x] | y :: t => if (fst x <=? fst y)%Z then x :: l else y :: ins x t end.
Definition isort (l : list (Z * nat)) : list (Z * nat) := fold_right ins [] l.
Definition stable_argsort (l : list Z) : list nat := map snd (isort (combine l (seq 0 (length l)))).
