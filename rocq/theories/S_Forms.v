(* How the arguments of the queries are read. *)
From Verif Require Import Prelude Numpy Rng M_Weights M_Niw M_Utils M_Mix M_Query.
Open Scope Q_scope.

(* the rows and the number of columns meant by an argument; None: not accepted *)
Definition as_matrix (y : yarg) : option (list vec * nat) :=
  match y with
  | YFrame l k | YList2 l k | YArr2 l k => Some (l, k)
  | YList1 l | YArr1 l => Some (map (fun x => [x]) l, 1%nat)
  | YNum x => Some ([[x]], 1%nat)
  | YSeries _ | YOther => None
  end.
(* an index counted from the start, for an axis of length d *)
Definition from_start (d : nat) (z : Z) : Z := (if z <? 0 then z + Z.of_nat d else z)%Z.
Definition in_axis (d : nat) (z : Z) : Prop := (- Z.of_nat d <= z < Z.of_nat d)%Z.
Definition dim_from_start (d : nat) (dim : dimarg) : dimarg :=
  match dim with DList l => DList (map (from_start d) l) | DInt i => DInt (from_start d i) | x => x end.
Definition dim_in_axis (d : nat) (dim : dimarg) : Prop :=
  match dim with DList l => Forall (in_axis d) l | DInt i => in_axis d i | _ => True end.
(* atoms of dimension d *)
Definition square_atom (d : nat) (a : vec * matr) : Prop := length (fst a) = d /\ length (snd a) = d /\ Forall (fun r => length r = d) (snd a).
Definition state_dim (d : nat) (r : rparams) : Prop := Forall (fun p => square_atom d (snd p)) (r_theta r).
Definition vatom_dim (d : nat) (a : vatom) : Prop := match a with (m, _, p, _) => square_atom d (m, p) end.
