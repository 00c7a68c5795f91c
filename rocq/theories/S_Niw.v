(* Specification of the conjugate normal - inverse Wishart update. *)
From Verif Require Import Prelude Numpy M_Niw.
Open Scope Q_scope.

Fixpoint sum_over {A} (f : A -> Q) (l : list A) : Q := match l with [] => 0 | x :: t => f x + sum_over f t end.
Definition coord (i : nat) (x : vec) : Q := nth i x 0.
Definition entry (m : matr) (i j : nat) : Q := nth j (nth i m []) 0.
Definition square (k : nat) (m : matr) : Prop := length m = k /\ forall i, (i < k)%nat -> length (nth i m []) = k.

(* h' has the natural parameters of h plus the sufficient statistics of y *)
Record is_posterior (y : list vec) (h h' : niw) : Prop := {
  po_dim : length (n_mu h') = length (n_mu h);
  po_sq : square (length (n_mu h)) (n_psi h');
  po_lam : n_lam h' == n_lam h + nq (length y);
  po_nu : n_nu h' == n_nu h + nq (length y);
  po_mu : forall i, (i < length (n_mu h))%nat ->
    n_lam h' * coord i (n_mu h') == n_lam h * coord i (n_mu h) + sum_over (coord i) y;
  po_psi : forall i j, (i < length (n_mu h))%nat -> (j < length (n_mu h))%nat ->
    entry (n_psi h') i j + n_lam h' * (coord i (n_mu h') * coord j (n_mu h'))
    == entry (n_psi h) i j + n_lam h * (coord i (n_mu h) * coord j (n_mu h)) + sum_over (fun r => coord i r * coord j r) y
}.
(* equal parameters *)
Record same_niw (h h' : niw) : Prop := {
  sn_dim : length (n_mu h) = length (n_mu h');
  sn_lam : n_lam h == n_lam h';
  sn_nu : n_nu h == n_nu h';
  sn_mu : forall i, (i < length (n_mu h))%nat -> coord i (n_mu h) == coord i (n_mu h');
  sn_psi : forall i j, (i < length (n_mu h))%nat -> (j < length (n_mu h))%nat -> entry (n_psi h) i j == entry (n_psi h') i j
}.
Definition symmetric (k : nat) (m : matr) : Prop :=
  forall i j, (i < k)%nat -> (j < k)%nat -> entry m i j == entry m j i.
Definition quad (k : nat) (m : matr) (x : vec) : Q :=
  sum_over (fun i => sum_over (fun j => coord i x * entry m i j * coord j x) (seq 0 k)) (seq 0 k).
Definition pos_def (k : nat) (m : matr) : Prop :=
  forall x, (exists i, (i < k)%nat /\ ~ coord i x == 0) -> 0 < quad k m x.
