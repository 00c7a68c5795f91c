(* Specifications of variational fits and of the queries on them. *)
From Verif Require Import Prelude Numpy Rng M_Weights M_Niw M_Utils M_Mix M_Query S_Niw S_Query.
Open Scope Q_scope.

(* the ELBO changes by more than tol; a change that involves nan does not *)
Definition moves (tol : Q) (before after : lx) : Prop :=
  match before, after with
  | LQ a, LQ b => tol < b - a \/ tol < a - b
  | LNan, _ | _, LNan | LPos, LPos | LNeg, LNeg => False
  | _, _ => True
  end.
(* consecutive iterations (update of all factors, then the ELBO) and the ELBO
   values they produce *)
Inductive var_run (E : env) (c : cls) (o : oracle) : ms -> rng -> list lx -> ms -> rng -> Prop :=
| vr_nil s g : var_run E c o s g [] s g
| vr_step s g s1 g1 h e es s' g' :
    maximize_variational E c o s g = (Ok tt, s1, g1) -> prior_niw s1 = Ok h -> e_elbo E (s_y s1) h (s_var s1) = Ok e ->
    var_run E c o s1 g1 es s' g' -> var_run E c o s g (e :: es) s' g'.
(* the ELBO before iteration i, counting from 0: -inf at first *)
Definition elbo_before (es : list lx) (i : nat) : lx := match i with O => LNeg | S j => nth j es LNan end.

(* responsibilities are computed for a positive number of groups *)
Definition resp_env (E : env) : Prop := forall y v k D, vk v = Some k -> (0 < k)%Z -> e_vd E y v = Ok D -> responsibilities (Z.to_nat k) (length y) D.

(* co-clustering probabilities *)
Definition affinity_like (k n : nat) (m : matr) : Prop :=
  length m = n /\ Forall (fun r => length r = n) m /\
  (forall i j, (i < n)%nat -> (j < n)%nat -> entry m i j == entry m j i /\ 0 < entry m i j /\ entry m i j <= 1) /\
  (forall i, (i < n)%nat -> 1 / nq k <= entry m i i) /\
  (forall x, 0 <= quad n m x).
(* column i *)
Definition column_of (D : matr) (i : nat) : list Q := map (fun r => nth i r 0) D.
