(* Independent specifications for the weight models. *)
From Verif Require Import Prelude.
Open Scope Q_scope.

Definition qtotal (l : list Q) : Q := fold_right Qplus 0 l.
Definition qproduct (l : list Q) : Q := fold_right Qmult 1 l.

(* non-negative entries that add up to at most one *)
Definition subprob (w : list Q) : Prop := Forall (fun x => 0 <= x) w /\ qtotal w <= 1.
Definition prob (w : list Q) : Prop := Forall (fun x => 0 <= x) w /\ qtotal w == 1.

Definition in01 (x : Q) : Prop := 0 <= x <= 1.

(* w_j = v_j * prod_{i<j} (1 - v_i), of the same length *)
Definition stick_image (v w : list Q) : Prop :=
  length w = length v /\
  forall j, (j < length v)%nat ->
    nth j w 0 == nth j v 0 * qproduct (map (fun x => 1 - x) (firstn j v)).

(* mass left after breaking the sticks v *)
Definition remaining (v : list Q) : Q := qproduct (map (fun x => 1 - x) v).

(* number of i with d_i = j, with d_i > j *)
Definition n_eq (j : nat) (d : list nat) : nat := count_occ Nat.eq_dec d j.
Definition n_gt (j : nat) (d : list nat) : nat := length (filter (fun x => Nat.ltb j x) d).

(* u extends w *)
Definition extends (w u : list Q) : Prop := exists t, u = w ++ t.

Fixpoint qpow (x : Q) (n : nat) : Q := match n with O => 1 | S k => x * qpow x k end.
