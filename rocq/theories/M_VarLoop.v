(* The variational fit with its numbers, mixture_models/_base.py:167-234 and
   809-1097: responsibilities, weight parameters, atoms and lower bound over the
   reals.  The control flow with all argument checks is in M_Mix. *)
From Coq Require Import Reals.
From Verif Require Import Prelude Numpy Rng M_Weights M_Ext M_Var M_VarNum.
Open Scope R_scope.

(* a number, an exception, or arrays that contain NaN; what happens after a NaN
   has entered the responsibilities or the atoms is not followed *)
Inductive outcome (A : Type) := Fin (a : A) | Raise (e : exn) | NotANumber.
Arguments Fin {A}. Arguments Raise {A}. Arguments NotANumber {A}.
Definition obind {A B} (x : outcome A) (f : A -> outcome B) : outcome B :=
  match x with Fin a => f a | Raise e => Raise e | NotANumber => NotANumber end.
(* a Python loop that collects the values; NaN does not stop it, an exception does *)
Fixpoint collect {A} (l : list (outcome A)) : outcome (list A) :=
  match l with
  | [] => Fin []
  | Raise e :: _ => Raise e
  | x :: t => match x, collect t with
              | Fin a, Fin r => Fin (a :: r)
              | _, Raise e => Raise e
              | _, _ => NotANumber
              end
  end.
Definition of_result {A} (x : res A) : outcome A :=
  match x with Ok a => Fin a | Err e => Raise e | Diverge => NotANumber end.

(* mu_prior, lambda_prior, psi_prior, nu_prior *)
Record vprior := VP { p_mu : list R; p_lam : R; p_psi : list (list R); p_nu : R }.
(* var_d with its rows, the fitted weight model, var_theta *)
Record vfit := VF { f_d : mat; f_w : vs; f_theta : list ratom }.

(* the matrix inverted in _base.py:1006-1011; its last term is a number *)
Definition theta_matrix (y : list (list R)) (h : vprior) (vd : list R) : list (list R) :=
  let k := length (p_mu h) in
  let n := rsum vd in
  map (fun i => map (fun j =>
      mentry (p_psi h) i j
      + wsum vd (fun x => (nth i x 0 - xbar vd y i) * (nth j x 0 - xbar vd y j)) y / n
      + rsum (map (fun l => p_lam h * n / (p_lam h + n) * (xbar vd y l - nth l (p_mu h) 0) * (xbar vd y l - nth l (p_mu h) 0)) (seq 0 k)))
    (seq 0 k)) (seq 0 k).
(* entries as reals, None if one of them is not finite *)
Fixpoint finite (l : list ext) : option (list R) :=
  match l with
  | [] => Some []
  | EF x :: t => match finite t with Some r => Some (x :: r) | None => None end
  | _ => None
  end.
Fixpoint finite_cols (l : list (list ext)) : option (list (list R)) :=
  match l with
  | [] => Some []
  | c :: t => match finite c, finite_cols t with Some a, Some r => Some (a :: r) | _, _ => None end
  end.
(* a k x n array from its n columns *)
Definition of_cols (k : nat) (cs : list (list R)) : mat := Mat (map (fun j => map (fun c => nth j c 0) cs) (seq 0 k)) (length cs).
Definition ext_abs (a : ext) : ext :=
  match a with EF x => EF (Rabs x) | EPI | ENI => EPI | ENaN => ENaN end.

Section Fit.
Variables (digamma lgamma : R -> R) (eps ovf : R).
(* np.linalg.inv; None is LinAlgError, a ValueError *)
Variable inv : list (list R) -> option (list (list R)).
Variable c : cls.

(* _update_var_theta, _base.py:993-1012; a row of mass 0 makes x_bar_j NaN *)
Definition theta_row (y : list (list R)) (h : vprior) (vd : list R) : outcome ratom :=
  let k := length (p_mu h) in
  let n := rsum vd in
  if reqb n 0 || reqb (p_lam h + n) 0 then NotANumber
  else match inv (theta_matrix y h vd) with
       | None => Raise ValueError
       | Some p => Fin (RA (map (fun i => (p_lam h * nth i (p_mu h) 0 + n * xbar vd y i) / (p_lam h + n)) (seq 0 k))
                           (p_lam h + n) p (p_nu h + n))
       end.
Definition new_theta (y : list (list R)) (h : vprior) (D : mat) : outcome (list ratom) := collect (map (theta_row y h) (rows D)).
(* _update_var_d, _base.py:1014-1032 *)
Definition new_d (y : list (list R)) (w : vs) (theta : list ratom) : outcome mat :=
  obind (collect (map (fun j => of_result (mean_log_w digamma c j w)) (seq 0 (length theta)))) (fun mlw =>
  match finite_cols (update_d digamma eps ovf mlw theta y) with
  | Some cs => Fin (of_cols (length theta) cs)
  | None => NotANumber
  end).
(* weight_model.fit_variational *)
Definition new_w (D : mat) (w : vs) : outcome vs :=
  match fit_var c D w with (Ok _, w') => Fin w' | (Err e, _) => Raise e | (Diverge, _) => NotANumber end.
(* _maximize_variational, _base.py:974-977 *)
Definition maximize (y : list (list R)) (h : vprior) (s : vfit) : outcome vfit :=
  obind (new_d y (f_w s) (f_theta s)) (fun D =>
  obind (new_w D (f_w s)) (fun w =>
  obind (new_theta y h D) (fun t => Fin (VF D w t)))).
(* _calc_elbo, _base.py:979-988, for positive responsibilities *)
Definition elbo_of (d : nat) (y : list (list R)) (h : vprior) (s : vfit) : outcome (ext * vs) :=
  match mean_log_pd digamma c (Some (f_d s)) (f_w s) with
  | (Ok pdw, w) =>
      obind (of_result (mean_log_p digamma lgamma c w)) (fun pw =>
      match inv (p_psi h) with
      | None => Raise ValueError
      | Some pi => Fin (calc_elbo digamma lgamma d y (rows (f_d s)) (f_theta s) (length (rows (f_d s)))
                          (RP (p_mu h) (p_lam h) (p_psi h) pi (p_nu h)) pdw pw pw, w)
      end)
  | (Err e, _) => Raise e
  | (Diverge, _) => NotANumber
  end.
(* the loop of _base.py:224-229: at most n more iterations; it have been made *)
Fixpoint loop (d : nat) (y : list (list R)) (h : vprior) (tol : R) (n it : nat) (elbo diff : ext) (s : vfit) : outcome (vfit * nat * ext) :=
  match n with
  | O => Fin (s, it, elbo)
  | S m =>
      if ext_ltb (EF tol) diff then
        obind (maximize y h s) (fun s' =>
        obind (elbo_of d y h s') (fun ew =>
        loop d y h tol m (S it) (fst ew) (ext_abs (ext_add elbo (ext_opp (fst ew)))) (VF (f_d s') (snd ew) (f_theta s'))))
      else Fin (s, it, elbo)
  end.

(* the starting values of _initialize_variational_params, _base.py:833-858:
   labels found by k-means, or atoms drawn from the prior *)
Inductive start := Labels (k : nat) (l : list nat) | Atoms (t : list ratom).
(* var_d[d, range(len(d))] = 1 *)
Definition hot (k : nat) (l : list nat) : mat :=
  Mat (map (fun j => map (fun b => if Nat.eqb b j then 1 else 0) l) (seq 0 k)) (length l).
Definition init (y : list (list R)) (h : vprior) (st : start) (w : vs) : outcome vfit :=
  match st with
  | Labels k l =>
      obind (new_w (Mat (repeat [] k) 0) w) (fun w0 =>
      obind (new_theta y h (hot k l)) (fun t =>
      obind (new_d y w0 t) (fun D =>
      obind (new_w D w0) (fun w1 => Fin (VF D w1 t)))))
  | Atoms t =>
      let D := Mat (map (fun _ => map (fun _ => 1 / INR (length t)) y) t) (length y) in
      obind (new_w D w) (fun w1 => Fin (VF D w1 t))
  end.
(* fit_variational without a warm start, _base.py:167-234; d is y.shape[1].  The
   number of iterations and the last lower bound are returned as well *)
Definition var_fit (d : nat) (y : list (list R)) (h : vprior) (st : start) (total : nat) (tol : R) (w : vs) : outcome (vfit * nat * ext) :=
  obind (init y h st w) (fun s => loop d y h tol total 0 ENI EPI s).
(* var_converged, _base.py:232-234 *)
Definition converged (total : nat) (r : vfit * nat * ext) : bool := Nat.ltb (snd (fst r)) total.
End Fit.
(* the priors derived from the data, _base.py:735-743; at least two rows *)
Definition default_prior (d : nat) (y : list (list R)) (lam : R) : vprior :=
  let n := INR (length y) in
  let m i := rsum (map (fun x => nth i x 0) y) / n in
  VP (map m (seq 0 d)) lam
     (map (fun i => map (fun j => rsum (map (fun x => (nth i x 0 - m i) * (nth j x 0 - m j)) y) / (n - 1)) (seq 0 d)) (seq 0 d))
     (INR d).
