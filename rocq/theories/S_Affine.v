(* Data in another unit, with another origin, in another order. *)
From Coq Require Import Reals Permutation.
From Verif Require Import Prelude Numpy Rng M_Weights M_Ext M_Var M_VarNum M_VarLoop S_VarNum.
Open Scope R_scope.

(* a x + t *)
Definition moved (a : R) (t x : list R) : list R := map (fun p => a * fst p + snd p) (combine x t).
(* b m *)
Definition scaled (b : R) (m : list (list R)) : list (list R) := map (map (Rmult b)) m.
(* element sigma(i) in place i *)
Definition reorder {A} (z : A) (sigma : list nat) (l : list A) : list A := map (fun i => nth i l z) sigma.
Definition moved_data (a : R) (t : list R) (sigma : list nat) (y : list (list R)) : list (list R) := reorder [] sigma (map (moved a t) y).
(* a location, and a matrix that is quadratic in the unit *)
Definition moved_prior (a : R) (t : list R) (h : vprior) : vprior := VP (moved a t (p_mu h)) (p_lam h) (scaled (a * a) (p_psi h)) (p_nu h).
Definition moved_atom (a : R) (t : list R) (r : ratom) : ratom := RA (moved a t (ra_mu r)) (ra_lam r) (scaled (/ (a * a)) (ra_prec r)) (ra_scale r).
Definition moved_start (a : R) (t : list R) (sigma : list nat) (st : start) : start :=
  match st with Labels k l => Labels k (reorder 0%nat sigma l) | Atoms ts => Atoms (map (moved_atom a t) ts) end.
(* the responsibilities belong to the reordered observations *)
Definition moved_resp (sigma : list nat) (D D' : mat) : Prop := rows D' = map (reorder 0 sigma) (rows D) /\ cols D' = cols D.
Definition moved_weights (sigma : list nat) (w w' : vs) : Prop :=
  vk w' = vk w /\ vpar w' = vpar w /\ vn w' = vn w /\
  match vd w, vd w' with Some D, Some D' => moved_resp sigma D D' | None, None => True | _, _ => False end.
Definition moved_fit (a : R) (t : list R) (sigma : list nat) (s s' : vfit) : Prop :=
  moved_resp sigma (f_d s) (f_d s') /\ moved_weights sigma (f_w s) (f_w s') /\ f_theta s' = map (moved_atom a t) (f_theta s).
Definition product_is_one (k : nat) (m p : list (list R)) : Prop :=
  forall i j, (i < k)%nat -> (j < k)%nat ->
  rsum (map (fun l => nth l (nth i m []) 0 * nth j (nth l p []) 0) (seq 0 k)) = if Nat.eqb i j then 1 else 0.
(* inv finds the inverse of every regular d x d matrix, and fails on the others *)
Definition inverts (d : nat) (inv : list (list R) -> option (list (list R))) : Prop :=
  forall m p, square_mat d m -> (inv m = Some p <-> square_mat d p /\ product_is_one d m p /\ product_is_one d p m).
(* n observations of dimension d *)
Definition data_shape (d : nat) (y : list (list R)) : Prop := Forall (fun x => length x = d) y.
(* how much the change of unit adds to the lower bound with k groups *)
Definition bound_change (k d : nat) (a : R) : R := INR k * (INR d - 1) / 4 * ln (a * a).
Definition groups_of (st : start) : nat := match st with Labels k _ => k | Atoms t => length t end.
Definition start_shape (d n : nat) (st : start) : Prop :=
  match st with Labels _ l => length l = n | Atoms ts => Forall (fun r => length (ra_mu r) = d) ts end.
(* the same outcome *)
Definition same_outcome (a : R) (t : list R) (sigma : list nat) (change : R) (r r' : outcome (vfit * nat * ext)) : Prop :=
  match r, r' with
  | Fin (s, it, e), Fin (s', it', e') => moved_fit a t sigma s s' /\ it' = it /\ e' = ext_add e (EF change)
  | Raise e, Raise e' => e = e'
  | NotANumber, NotANumber => True
  | _, _ => False
  end.
(* the first coordinate with the opposite sign *)
Definition mirrored (x : list R) : list R := match x with [] => [] | a :: t => - a :: t end.
Definition mirrored_mat (m : list (list R)) : list (list R) :=
  match m with [] => [] | r :: t => match r with [] => [] | a :: u => a :: map Ropp u end :: map mirrored t end.
Definition mirrored_prior (h : vprior) : vprior := VP (mirrored (p_mu h)) (p_lam h) (mirrored_mat (p_psi h)) (p_nu h).
Definition mirrored_atom (r : ratom) : ratom := RA (mirrored (ra_mu r)) (ra_lam r) (mirrored_mat (ra_prec r)) (ra_scale r).
