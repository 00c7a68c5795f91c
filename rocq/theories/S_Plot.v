(* What a pair plot should show. *)
From Verif Require Import Prelude Numpy Rng M_Weights M_Niw M_Utils M_Mix M_Query M_Plot S_Niw S_Mix S_Sort S_Query.
Open Scope Q_scope.

(* v is w_j times the density of coordinate i of component j, at the points ys *)
Definition component_marginal (QE : qenv) (ys : list Q) (r : rparams) (i j : nat) (v : list Q) : Prop :=
  exists a l, atom_of j (r_theta r) = Some a /\ (j < length (r_w r))%nat /\ (i < length (fst a))%nat /\
    q_norm QE ys (coord i (fst a)) (entry (snd a) i i) = Ok l /\ length v = length ys /\
    forall t, (t < length ys)%nat -> nth t v 0 == nth j (r_w r) 0 * nth t l 0.
(* a hundred equally spaced points, from a quarter of the range below the least
   value to a quarter above the greatest *)
Definition grid_of (values ys : list Q) : Prop :=
  exists lo hi, In lo values /\ In hi values /\ (forall x, In x values -> lo <= x <= hi) /\ length ys = 100%nat /\
    forall t, (t < 100)%nat -> nth t ys 0 == lo - (hi - lo) / 4 + nq t * ((3 # 2) * (hi - lo) / 99).
Definition visible (d : list Q) : Prop := exists t, (t < length d)%nat /\ 1 # 10000 < nth t d 0.
(* the commands cmds show the data of s and the mixture r, u clusters with
   labels lab, cluster j in the colour col j, and component j for cluster j *)
Record shows (QE : qenv) (s : ms) (r : rparams) (u : nat) (lab : list nat) (col : nat -> nat) (cmds : list pcmd) : Prop := {
  sh_area : forall i c ys d, In (PArea i (Some c) ys d) cmds -> (i < s_dim s)%nat /\ grid_of (map (coord i) (s_y s)) ys /\
    exists j, (j < u)%nat /\ c = col j /\ component_marginal QE ys r i j d;
  sh_every_area : forall i j, (i < s_dim s)%nat -> (j < u)%nat -> exists ys d, In (PArea i (Some (col j)) ys d) cmds /\ component_marginal QE ys r i j d;
  sh_black : forall i ys d, In (PArea i None ys d) cmds -> (i < s_dim s)%nat /\ grid_of (map (coord i) (s_y s)) ys /\ visible d /\
    exists j, (u <= j < length (r_w r))%nat /\ component_marginal QE ys r i j d;
  sh_every_black : forall i j, (i < s_dim s)%nat -> (u <= j < length (r_w r))%nat -> exists ys d, grid_of (map (coord i) (s_y s)) ys /\
    component_marginal QE ys r i j d /\ (visible d -> In (PArea i None ys d) cmds);
  sh_line : forall i ys d, In (PLine i ys d) cmds -> (i < s_dim s)%nat /\ grid_of (map (coord i) (s_y s)) ys /\ marginal_at 0 QE (column ys) r i d;
  sh_every_line : forall i, (i < s_dim s)%nat -> exists ys d, In (PLine i ys d) cmds;
  sh_scatter : forall p q xs ys cs, In (PScatter p q xs ys cs) cmds <-> (p < s_dim s)%nat /\ (q < s_dim s)%nat /\ p <> q /\
    xs = map (coord p) (s_y s) /\ ys = map (coord q) (s_y s) /\ cs = map col lab;
  sh_contour : forall p q k mu sg, In (PContour p q k mu sg) cmds <-> (p < s_dim s)%nat /\ (q < s_dim s)%nat /\ p <> q /\
    exists j a, (j < u)%nat /\ k = col j /\ atom_of j (r_theta r) = Some a /\ mu = [coord p (fst a); coord q (fst a)] /\
      sg = [[entry (snd a) p p; entry (snd a) p q]; [entry (snd a) q p; entry (snd a) q q]] }.
(* the ten colours in order for up to ten clusters, else the colour bar cut
   into u equal steps *)
Definition palette (u j : nat) : nat := if Nat.leb u 10 then j else Nat.min 9 (10 * j / u).
(* different clusters have different colours *)
Definition told_apart (u : nat) (col : nat -> nat) : Prop := forall j j', (j < u)%nat -> (j' < u)%nat -> col j = col j' -> j = j'.
(* every weight has an atom of dimension k *)
Definition atoms_of_dim (k : nat) (r : rparams) : Prop :=
  forall j, (j < length (r_w r))%nat -> exists a, atom_of j (r_theta r) = Some a /\ length (fst a) = k /\ square k (snd a).
Definition norm_total (QE : qenv) : Prop := forall x m v, exists l, q_norm QE x m v = Ok l.
