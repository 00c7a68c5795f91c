(* Specification of the number by which visited states are compared for the MAP
   state: the log likelihood of the data and the labels given the weights and
   the atoms, written out of the returned dictionary alone. *)
From Verif Require Import Prelude Numpy M_Niw M_Mix.
Open Scope Q_scope.

(* the same number, whatever the fraction it is written with *)
Definition lx_eq (a b : lx) : Prop :=
  match a, b with
  | LQ x, LQ y => x == y
  | LPos, LPos | LNeg, LNeg | LNan, LNan => True
  | _, _ => False
  end.
Definition lx_total (l : list lx) : lx := fold_right lx_add (LQ 0) l.

(* the log density of an array of rows is that of each row *)
Definition rowwise (E : env) (lp : vec -> atom -> lx) : Prop :=
  forall rows a l, e_logpdf E rows a = Ok l -> l = map (fun x => lp x a) rows.

(* log f(x | theta_j) + log w_j *)
Definition joint (E : env) (lp : vec -> atom -> lx) (r : rparams) (j : nat) (x : vec) (t : lx) : Prop :=
  exists a q, lookup j (r_theta r) = Some a /\ nth_error (r_w r) j = Some q /\ t = lx_add (lp x a) (e_log E q).
(* l is the sum of log f(y_i | theta_{d_i}) + log w_{d_i} over the rows *)
Definition complete_loglik (E : env) (lp : vec -> atom -> lx) (y : list vec) (r : rparams) (l : lx) : Prop :=
  length (r_d r) = length y /\
  exists ts, Forall2 (fun p t => joint E lp r (fst p) (snd p) t) (combine (r_d r) y) ts /\ lx_eq l (lx_total ts).
