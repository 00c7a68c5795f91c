(* What the numbers of a variational fit are and when it stops. *)
From Coq Require Import Reals.
From Verif Require Import Prelude Numpy Rng M_Weights M_Ext M_Var M_VarNum M_VarLoop S_VarNum S_Affine.
Open Scope R_scope.

(* sum over the observations of f, weighted by r *)
Definition tot (r : list R) (f : list R -> R) (y : list (list R)) : R :=
  rsum (map (fun t => nth t r 0 * f (nth t y [])) (seq 0 (length y))).
(* the atom of a group with responsibilities r: what is added to lambda, nu and the
   mean, and the matrix whose inverse is the precision *)
Definition posterior (d : nat) (y : list (list R)) (h : vprior) (r : list R) (a : ratom) : Prop :=
  let n := rsum r in
  length (ra_mu a) = d /\ ra_lam a = p_lam h + n /\ ra_scale a = p_nu h + n /\
  (forall i, (i < d)%nat -> (p_lam h + n) * nth i (ra_mu a) 0 = p_lam h * nth i (p_mu h) 0 + tot r (fun x => nth i x 0) y) /\
  exists m : nat -> R, (forall i, n * m i = tot r (fun x => nth i x 0) y) /\
  forall i j, (i < d)%nat -> (j < d)%nat ->
  rsum (map (fun l => (nth l (nth i (p_psi h) []) 0 + tot r (fun x => (nth i x 0 - m i) * (nth l x 0 - m l)) y / n
                       + p_lam h * n / (p_lam h + n) * rsum (map (fun q => (m q - nth q (p_mu h) 0) * (m q - nth q (p_mu h) 0)) (seq 0 d)))
                      * nth j (nth l (ra_prec a) []) 0) (seq 0 d)) = if Nat.eqb i j then 1 else 0.
(* the lower bound changed by more than tol; false if the change is NaN *)
Definition moved_more (tol : R) (a b : ext) : Prop :=
  match a, b with
  | EF x, EF z => tol < Rabs (x - z)
  | ENaN, _ | _, ENaN | EPI, EPI | ENI, ENI => False
  | _, _ => True
  end.
(* one iteration of the fit and the lower bound after it *)
Definition iteration dg lg eps ovf inv c d y h (s s' : vfit) (e : ext) : Prop :=
  exists s1 w, maximize dg eps ovf inv c y h s = Fin s1 /\ elbo_of dg lg inv c d y h s1 = Fin (e, w) /\ s' = VF (f_d s1) w (f_theta s1).
