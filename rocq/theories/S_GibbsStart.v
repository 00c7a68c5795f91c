(* Specification of the point from which a cold Gibbs fit sweeps, and of the
   slice requests. *)
From Verif Require Import Prelude Numpy Rng M_Weights M_Niw M_Utils M_Mix S_Oracle S_Mix S_Query S_Sort S_Assign.
Open Scope Q_scope.

(* numpy's eps for doubles *)
Definition eps52 : Q := 1 # 4503599627370496.
(* the slices of the start: one uniform on (eps, 1) per observation *)
Definition first_slices (n : nat) : list req := repeat (RUnif eps52 1) n.
(* the slices of a sweep: one uniform on (eps, weight of the label + eps) per observation *)
Definition sweep_slices (ws : list Q) (labels : list nat) : list req := map (fun j => RUnif eps52 (Qred (nth j ws 0 + eps52))) labels.
(* the answers to a row of uniform requests *)
Fixpoint answers (o : oracle) (g : rng) (rs : list req) : list Q :=
  match rs with
  | RUnif lo hi :: t => o_unif o g lo hi :: answers o (g ++ [RUnif lo hi]) t
  | _ => []
  end.

Definition least (m : Q) (l : list Q) : Prop := In m l /\ Forall (fun x => m <= x) l.
(* the weights of the start: tail until the least slice is covered, or complete(init_groups) *)
Definition start_weights (c : cls) (fuel : nat) (ig : pysize) (us : list Q) (o : oracle) (x : ws) (g : rng) (x' : ws) (g' : rng) : Prop :=
  match ig with
  | SNone => exists m r, least m us /\ wm_tail c fuel (1 - m) o x g = (Ok r, x', g')
  | _ => exists r, wm_complete c ig o x g = (Ok r, x', g')
  end.

(* the number of k-means groups: the one the mixture was built with, else the
   argument, else 2 *)
Definition built_groups (c : cls) (n : Z) : option Z :=
  match c with CDirDist k _ => Some k | CFreq k => Some k | CEqual => Some n | _ => None end.
Definition start_groups (built : option Z) (ig : pysize) : option Z :=
  match built, ig with
  | Some k, _ => Some k
  | None, SInt k | None, SNp64 k => Some k
  | None, SNone => Some 2%Z
  | None, SOther => None
  end.
Definition not_kmeans (r : req) : Prop := match r with RKMeans _ _ => False | _ => True end.

(* l are the k-means labels of the rows, renumbered by decreasing size *)
Definition kmeans_labels (o : oracle) (g : rng) (rows : list vec) (k : Z) (l : list nat) : Prop :=
  let l0 := o_kmeans o g rows (Z.to_nat k) in same_partition l0 l /\ contiguous (distinct l0) l /\ by_size (distinct l0) l.
(* l are the groups of largest responsibility *)
Definition likeliest (D : matr) (n : nat) (l : list nat) : Prop :=
  length l = n /\ forall i, (i < n)%nat -> D <> [] -> first_max (map (fun r => nth i r 0) D) (nth i l 0%nat).
