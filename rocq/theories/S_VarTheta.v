(* Specification of the variational update of the atoms. *)
From Verif Require Import Prelude Numpy M_Niw S_Niw.
Open Scope Q_scope.

(* sum over the observations, observation t counted r_t times *)
Definition weighted (r : list Q) (f : vec -> Q) (y : list vec) : Q := sum_over (fun p => fst p * f (snd p)) (combine r y).
Definition mass (r : list Q) : Q := sum_over (fun x => x) r.
(* the conjugate update with fractional counts: h' has the natural parameters of
   h plus the weighted sufficient statistics of y.  The scale matrix is kept
   apart. *)
Definition location_posterior (r : list Q) (y : list vec) (h : niw) (mu : vec) (lam nu : Q) : Prop :=
  length mu = length (n_mu h) /\ lam == n_lam h + mass r /\ nu == n_nu h + mass r /\
  forall i, (i < length (n_mu h))%nat -> lam * coord i mu == n_lam h * coord i (n_mu h) + weighted r (coord i) y.
Definition scale_posterior (r : list Q) (y : list vec) (h : niw) (mu : vec) (lam : Q) (psi : matr) : Prop :=
  square (length (n_mu h)) psi /\
  forall i j, (i < length (n_mu h))%nat -> (j < length (n_mu h))%nat ->
    entry psi i j + lam * (coord i mu * coord j mu)
    == entry (n_psi h) i j + n_lam h * (coord i (n_mu h) * coord j (n_mu h)) + weighted r (fun x => coord i x * coord j x) y.
(* m is the weighted mean, s the weighted covariance times the mass *)
Definition is_wmean (r : list Q) (y : list vec) (m : nat -> Q) : Prop := forall i, m i * mass r == weighted r (coord i) y.
Definition about (r : list Q) (y : list vec) (m : nat -> Q) (i j : nat) : Q := weighted r (fun x => (coord i x - m i) * (coord j x - m j)) y.
(* 0/1 responsibilities and the rows they select *)
Definition hard (sel : list bool) : list Q := map (fun b : bool => if b then 1 else 0) sel.
Definition chosen_rows (sel : list bool) (y : list vec) : list vec := map snd (filter fst (combine sel y)).
