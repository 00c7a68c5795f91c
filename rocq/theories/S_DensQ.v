(* Inverse matrices. *)
From Verif Require Import Prelude Numpy M_Niw S_Niw.
Open Scope Q_scope.
(* P C = identity *)
Definition inverse_of (k : nat) (P C : matr) : Prop :=
  forall i j, (i < k)%nat -> (j < k)%nat -> sum_over (fun l => entry P i l * entry C l j) (seq 0 k) == if Nat.eqb i j then 1 else 0.
(* v is, row by row, the sum over the components j of w_j times the density l_j *)
Definition weighted_sum_of (n : nat) (ws : list Q) (ls : list (list Q)) (v : list Q) : Prop :=
  length ws = length ls /\ Forall (fun l => length l = n) ls /\ length v = n /\
  forall i, (i < n)%nat -> nth i v 0 == sum_over (fun j => nth j ws 0 * nth i (nth j ls []) 0) (seq 0 (length ls)).
(* a density function returns one value per row *)
Definition per_row (f : list vec -> vec -> matr -> res (list Q)) : Prop := forall x m p l, f x m p = Ok l -> length l = length x.
(* p is the submatrix of m on the rows and columns idx, v the subvector of x *)
Definition block_of (idx : list nat) (m p : matr) : Prop := square (length idx) p /\
  forall i j, (i < length idx)%nat -> (j < length idx)%nat -> entry p i j = entry m (nth i idx 0%nat) (nth j idx 0%nat).
Definition part_of (idx : list nat) (x v : vec) : Prop := length v = length idx /\ forall i, (i < length idx)%nat -> coord i v = coord (nth i idx 0%nat) x.
