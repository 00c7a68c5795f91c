(* The variational update of the atoms, mixture_models/_base.py:993-1012. *)
From Verif Require Import Prelude Numpy Rng M_Weights M_Niw M_Utils M_Mix.
Open Scope Q_scope.

(* sum over the rows of y, weighted with the responsibilities of one group *)
Definition w_sum (vd : list Q) (f : vec -> Q) (y : list vec) : Q := qsum (map (fun p => fst p * f (snd p)) (combine vd y)).
(* x_bar_j = (vd_j / n_j) @ y *)
Definition w_mean (vd : list Q) (y : list vec) (i : nat) : Q := w_sum (map (fun x => x / qsum vd) vd) (fun r => vat r i) y.
(* ns_j, with its division by n_j *)
Definition w_scatter (vd : list Q) (y : list vec) (i j : nat) : Q :=
  w_sum vd (fun r => (vat r i - w_mean vd y i) * (vat r j - w_mean vd y j)) y / qsum vd.
(* (c * u) @ u: the inner product, a scalar, is added to every entry *)
Definition inner (k : nat) (c : Q) (u : nat -> Q) : Q := qsum (map (fun l => c * u l * u l) (seq 0 k)).
(* the matrix that is inverted, lines 1006-1010 *)
Definition scale_before_inv (y : list vec) (h : niw) (vd : list Q) : matr :=
  let k := length (n_mu h) in
  let n := qsum vd in
  mk_mat k (fun i j => mat_at (n_psi h) i j + w_scatter vd y i j
                       + inner k (n_lam h * n / (n_lam h + n)) (fun l => w_mean vd y l - vat (n_mu h) l)).
(* one row of responsibilities; None stands for a row with NaN entries, the
   result of a division by zero *)
Definition var_theta_row (inv : matr -> res matr) (y : list vec) (h : niw) (vd : list Q) : res (option vatom) :=
  let k := length (n_mu h) in
  let n := qsum vd in
  if Qeq_bool n 0 || Qeq_bool (n_lam h + n) 0 then Ok None
  else match inv (scale_before_inv y h vd) with
       | Ok p => Ok (Some (mk_vec k (fun i => (n_lam h * vat (n_mu h) i + n * w_mean vd y i) / (n_lam h + n)), n_lam h + n, p, n_nu h + n))
       | Err e => Err e
       | Diverge => Diverge
       end.
(* _base.py:993-1012 *)
Definition update_theta (inv : matr -> res matr) (y : list vec) (h : niw) (D : matr) : res (list (option vatom)) :=
  fold_right (fun vd acc => match var_theta_row inv y h vd, acc with
                            | Ok a, Ok l => Ok (a :: l)
                            | Ok _, r => r
                            | Err e, _ => Err e
                            | Diverge, _ => Diverge
                            end) (Ok []) D.
(* E computes _update_var_theta with the matrix inversion inv; rows with NaN
   entries have no counterpart among the rational atoms *)
Definition theta_env (inv : matr -> res matr) (E : env) : Prop :=
  forall y h D, match update_theta inv y h D with
                | Ok l => forall t, l = map Some t -> e_vtheta E y h D = Ok t
                | Err e => e_vtheta E y h D = Err e
                | Diverge => e_vtheta E y h D = Diverge
                end.
