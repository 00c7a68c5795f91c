(* Specification: the slice and label requests of a sweep. *)
From Verif Require Import Prelude Numpy Rng M_Weights M_Niw M_Utils M_Mix.
Open Scope Q_scope.

(* the slices: one uniform per label, on (eps, weight of the label + eps) *)
Definition slice_reqs (s : ms) (l : list nat) : list (Q * Q) := map (fun j => (1 # (2 ^ 52), nth j (w (s_wm s)) 0 + (1 # (2 ^ 52)))) l.

(* the scores of the labels for observation i: the log-density of the current
   atom, or -inf if the weight is not above the slice *)
Definition scores_at (E : env) (s : ms) (i : nat) (ls : list lx) : Prop :=
  length ls = length (w (s_wm s)) /\
  forall j, (j < length ls)%nat -> exists a l, lookup j (s_theta s) = Some a /\ e_logpdf E (s_y s) a = Ok l /\
    nth j ls LNan = lx_add (nth i l LNan) (if qltb (nth i (s_u s) 0) (nth j (w (s_wm s)) 0) then LQ 0 else LNeg).
