(* Specification: exact conditional law of an atom given its observations. *)
From Coq Require Import Reals Qreals.
From Verif Require Import Prelude Numpy M_Weights M_Ext M_Var M_Niw S_Niw S_Var.
Open Scope R_scope.

(* x' P x for vectors and matrices of size k given by their entries *)
Definition rquad (k : nat) (P : nat -> nat -> R) (x : nat -> R) : R := sumn (fun i => sumn (fun j => P i j * (x i * x j)) k) k.
(* log density of N(mu, Sigma) at the row r without the constant; P is the
   inverse of Sigma and L the log of its determinant *)
Definition normal_log (k : nat) (L : R) (P : nat -> nat -> R) (mu : nat -> R) (r : vec) : R :=
  - (L / 2) - rquad k P (fun i => Q2R (coord i r) - mu i) / 2.
(* log density of the normal - inverse Wishart law h at (mu, Sigma) without the
   constant: Sigma ~ IW(nu, psi), mu | Sigma ~ N(m, Sigma / lam) *)
Definition niw_log (k : nat) (h : niw) (L : R) (P : nat -> nat -> R) (mu : nat -> R) : R :=
  - ((Q2R (n_nu h) + INR k + 1) / 2 * L) - sumn (fun i => sumn (fun j => P i j * Q2R (entry (n_psi h) i j)) k) k / 2
  - L / 2 - Q2R (n_lam h) * rquad k P (fun i => mu i - Q2R (coord i (n_mu h))) / 2.
(* prior times likelihood of the rows is the law h', as functions of the atom *)
Definition exact_atom (rows : list vec) (h h' : niw) : Prop :=
  forall L P mu, rsum (map (normal_log (length (n_mu h)) L P mu) rows) + niw_log (length (n_mu h)) h L P mu = niw_log (length (n_mu h)) h' L P mu.
