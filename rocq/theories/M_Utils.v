(* Label utilities of mixture_models/_utils.py. *)
From Verif Require Import Prelude Numpy Rng.
Open Scope nat_scope.

Definition mem (j : nat) (l : list nat) : bool := existsb (Nat.eqb j) l.
(* np.unique of a vector of labels *)
Definition nunique (l : list nat) : list nat :=
  match l with [] => [] | _ => filter (fun j => mem j l) (seq 0 (S (nmax l))) end.
(* return_inverse of np.unique: position among the distinct labels *)
Definition rank_in (u : list nat) (x : nat) : nat := length (filter (fun y => y <? x) u).
Definition ranks (l : list nat) : list nat := map (rank_in (nunique l)) l.
(* return_counts of np.unique *)
Definition ucounts (l : list nat) : list nat := map (fun j => ncount j l) (nunique l).

(* mixture_models/_utils.py:146-149: rename the clusters by size; [argsort] is
   np.argsort, whose treatment of ties is left open.  None is IndexError. *)
Definition size_biased (argsort : list Z -> list nat) (l : list nat) : option (list nat) :=
  let order := argsort (map (fun c => (- Z.of_nat c)%Z) (ucounts l)) in
  gather (argsort (map Z.of_nat order)) (ranks l).

(* mixture_models/_utils.py:136-150 *)
Definition kmeans_cluster_size_biased {S} (argsort : list Z -> list nat) (y : list (list Q)) (k : Z) : M S (list nat) :=
  (l <- kmeans1 y k ;;
   match size_biased argsort l with Some x => ret x | None => raise IndexError end)%m.
