(* Vectors, matrices and the normal - inverse Wishart update of
   mixture_models/_utils.py. *)
From Verif Require Import Prelude Numpy Rng.
Open Scope Q_scope.

Definition vec := list Q.
Definition matr := list (list Q).
Definition atom := (vec * matr)%type.    (* (mu, sigma) *)

Definition mk_vec (k : nat) (f : nat -> Q) : vec := map f (seq 0 k).
Definition mk_mat (k : nat) (f : nat -> nat -> Q) : matr := map (fun i => mk_vec k (f i)) (seq 0 k).
Definition vat (x : vec) (i : nat) : Q := nth i x 0.
Definition mat_at (m : matr) (i j : nat) : Q := vat (nth i m []) j.

(* sum over the rows of y of a function of the row *)
Definition row_sum (f : vec -> Q) (y : list vec) : Q := qsum (map f y).
(* y.mean(axis=0)[i]; callers guard emptiness *)
Definition mean_at (y : list vec) (i : nat) : Q := row_sum (fun r => vat r i) y / nq (length y).
(* sum of squares about the mean *)
Definition scatter (y : list vec) (i j : nat) : Q :=
  row_sum (fun r => (vat r i - mean_at y i) * (vat r j - mean_at y j)) y.

(* np.cov(y.T, bias=True) *)
Definition cov_bias (k : nat) (y : list vec) : matr :=
  mk_mat k (fun i j => scatter y i j / nq (length y)).
(* np.cov(y.T) for at least two rows *)
Definition cov_sample (k : nat) (y : list vec) : matr :=
  mk_mat k (fun i j => scatter y i j / (nq (length y) - 1)).

Record niw := NIW { n_mu : vec; n_lam : Q; n_psi : matr; n_nu : Q }.

(* mixture_models/_utils.py:24-32, for a non-empty y whose rows have the
   dimension of the prior and lam + len(y) <> 0 *)
Definition niw_post (y : list vec) (h : niw) : niw :=
  let k := length (n_mu h) in
  let n := nq (length y) in
  let cov := cov_bias k y in
  NIW (mk_vec k (fun i => (n_lam h * vat (n_mu h) i + n * mean_at y i) / (n_lam h + n)))
      (n_lam h + n)
      (mk_mat k (fun i j => mat_at (n_psi h) i j + n * mat_at cov i j
                 + (n_lam h * n) / (n_lam h + n)
                   * ((mean_at y i - vat (n_mu h) i) * (mean_at y j - vat (n_mu h) j))))
      (n_nu h + n).

(* the shapes agree: broadcasting between different dimensions is not modelled
   and counts as the shape error *)
Definition niw_fits (y : list vec) (h : niw) : bool :=
  let k := length (n_mu h) in
  forallb (fun r => Nat.eqb (length r) k) y && Nat.eqb (length (n_psi h)) k
  && forallb (fun r => Nat.eqb (length r) k) (n_psi h).

(* the call itself: shape errors, and the Python-scalar division
   (lam * n) / (lam + n) at _utils.py:29 *)
Definition niw_post_call (y : list vec) (h : niw) : res niw :=
  if negb (niw_fits y h) then Err ValueError
  else if Qeq_bool (n_lam h + nq (length y)) 0 then Err ZeroDivisionError
  else Ok (niw_post y h).

(* mixture_models/_utils.py:7-15.  sigma / 0 is not finite and rejected by
   multivariate_normal. *)
Definition draw_niw {S} (h : niw) : M S atom :=
  (sigma <- invw1 (n_nu h) (n_psi h) ;;
   (if Qeq_bool (n_lam h) 0 then raise ValueError else ret tt) ;;
   mu <- mvn1 (n_mu h) (map (map (fun x => x / n_lam h)) sigma) ;;
   ret (mu, sigma))%m.
