(* Specification: the priors a mixture derives from its first data set. *)
From Verif Require Import Prelude Numpy M_Niw S_Niw.
Open Scope Q_scope.

(* m is the vector of column means of y *)
Definition column_means (k : nat) (y : list vec) (m : vec) : Prop :=
  length m = k /\ forall i, (i < k)%nat -> nq (length y) * coord i m == sum_over (coord i) y.
(* P is the unbiased sample covariance matrix of y, whose column means are m *)
Definition sample_covariance (k : nat) (y : list vec) (m : vec) (P : matr) : Prop :=
  square k P /\ forall i j, (i < k)%nat -> (j < k)%nat ->
    (nq (length y) - 1) * entry P i j == sum_over (fun r => (coord i r - coord i m) * (coord j r - coord j m)) y.
(* the dot product x . r *)
Definition dotp (k : nat) (x r : vec) : Q := sum_over (fun i => coord i x * coord i r) (seq 0 k).
Definition nonzero (k : nat) (x : vec) : Prop := exists i, (i < k)%nat /\ ~ coord i x == 0.
(* all rows lie in one hyperplane orthogonal to x *)
Definition in_hyperplane (k : nat) (x : vec) (y : list vec) : Prop := forall r r', In r y -> In r' y -> dotp k x r == dotp k x r'.
(* r |-> a * r + b *)
Definition affine (a : Q) (b : vec) (k : nat) (r : vec) : vec := map (fun i => a * coord i r + coord i b) (seq 0 k).
