(* Specifications of the queries: densities, clusterings, affinities. *)
From Verif Require Import Prelude Numpy Rng M_Weights M_Niw M_Utils M_Mix M_Query S_Niw S_Mix S_Sort.
Open Scope Q_scope.

(* the entry of the dictionary theta with key j *)
Definition atom_of (j : nat) (theta : list (nat * atom)) : option atom := option_map snd (find (fun q => Nat.eqb (fst q) j) theta).
(* ls holds, for each weight, the density of its atom at the rows of x *)
Definition atom_densities (QE : qenv) (x : list vec) (r : rparams) (ls : list (list Q)) : Prop :=
  length ls = length (r_w r) /\
  forall j, (j < length (r_w r))%nat -> exists a, atom_of j (r_theta r) = Some a /\ q_pdf QE x (fst a) (snd a) = Ok (nth j ls []).
(* v is the mixture density at the rows of x *)
Definition mixes (QE : qenv) (x : list vec) (r : rparams) (v : list Q) : Prop :=
  exists ls, atom_densities QE x r ls /\ length v = length x /\
    forall i, (i < length x)%nat -> nth i v 0 == sum_over (fun j => nth j (r_w r) 0 * nth i (nth j ls []) 0) (seq 0 (length (r_w r))).
(* the last k elements *)
Definition last_n {A} (k : nat) (l : list A) : list A := rev (firstn k (rev l)).
(* v is the entrywise mean of the vectors in rows *)
Definition is_mean (rows : list (list Q)) (v : list Q) : Prop :=
  forall i, (i < length v)%nat -> nth i v 0 * nq (length rows) == sum_over (fun r => nth i r 0) rows.
Definition nonneg (l : list Q) : Prop := Forall (fun x => 0 <= x) l.
(* densities are not negative, one value per row *)
Definition pdf_ok (QE : qenv) : Prop :=
  (forall x m c l, q_pdf QE x m c = Ok l -> nonneg l /\ length l = length x) /\
  (forall x m c l, q_norm QE x m c = Ok l -> nonneg l /\ length l = length x).
(* j is the first index of a largest entry *)
Definition first_max (l : list Q) (j : nat) : Prop :=
  (j < length l)%nat /\ (forall i, (i < length l)%nat -> nth i l 0 <= nth j l 0) /\ (forall i, (i < j)%nat -> nth i l 0 < nth j l 0).
(* order of the labels *)
Definition same_order (a b : list nat) : Prop :=
  forall i j, (i < length a)%nat -> (j < length a)%nat -> ((nth i a 0 < nth j a 0)%nat <-> (nth i b 0 < nth j b 0)%nat).
(* w_j times the density of atom j at row i, for all j *)
Definition joint (ls : list (list Q)) (ww : list Q) (i : nat) : list Q :=
  map (fun j => nth i (nth j ls []) 0 * nth j ww 0) (seq 0 (length ww)).
(* the component chosen for row i: the first most probable one, component 0 when
   all joint densities are zero *)
Definition chosen (ls : list (list Q)) (ww : list Q) (i g : nat) : Prop :=
  let q := joint ls ww i in
  (sum_over (fun x => x) q == 0 /\ g = 0%nat) \/ (0 < sum_over (fun x => x) q /\ first_max q g).
(* responsibilities: k rows of n entries, every column a probability vector *)
Definition responsibilities (k n : nat) (D : matr) : Prop :=
  length D = k /\ Forall (fun r => length r = n) D /\
  forall i, (i < n)%nat -> (forall j, (j < k)%nat -> 0 < entry D j i) /\ sum_over (fun j => entry D j i) (seq 0 k) == 1.
(* u is one minus the probability of component g given row i, nan when all joint
   densities are zero *)
Definition uncertainty (ls : list (list Q)) (ww : list Q) (i g : nat) (u : option Q) : Prop :=
  let q := joint ls ww i in let t := sum_over (fun x => x) q in
  (t == 0 /\ u = None) \/ (0 < t /\ exists v, u = Some v /\ (1 - v) * t == nth g q 0).
(* the clustering of the rows x by a mixture: components, labels, uncertainties *)
Definition clusters (QE : qenv) (x : list vec) (r : rparams) (grp lab : list nat) (unc : list (option Q)) : Prop :=
  exists ls, atom_densities QE x r ls /\ length grp = length x /\ length lab = length x /\ length unc = length x /\
    (forall i, (i < length x)%nat -> chosen ls (r_w r) i (nth i grp 0%nat) /\ uncertainty ls (r_w r) i (nth i grp 0%nat) (nth i unc None)) /\
    contiguous (distinct grp) lab /\ same_partition grp lab /\ same_order grp lab.
(* the density of the i-th coordinate of the mixture, at column c of x *)
Definition marginal_at (c : nat) (QE : qenv) (x : list vec) (r : rparams) (i : nat) (v : list Q) : Prop :=
  exists ls, length ls = length (r_w r) /\
    (forall j, (j < length (r_w r))%nat -> exists a, atom_of j (r_theta r) = Some a /\ (i < length (fst a))%nat /\
       q_norm QE (map (coord c) x) (coord i (fst a)) (entry (snd a) i i) = Ok (nth j ls [])) /\
    length v = length x /\
    forall t, (t < length x)%nat -> nth t v 0 == sum_over (fun j => nth j (r_w r) 0 * nth t (nth j ls []) 0) (seq 0 (length (r_w r))).
(* the number of features of the data argument *)
Definition cols_of (y : yarg) : nat :=
  match y with
  | YFrame _ k | YList2 _ k | YArr2 _ k => k
  | YSeries _ | YList1 _ | YArr1 _ => 1%nat
  | YNum _ | YOther => 0%nat
  end.
(* all queries that take data *)
Definition all_queries (QE : qenv) (s : ms) (y : yarg) (e : exn) : Prop :=
  (s_gfit s = true -> (forall dim comp periods, gibbs_eap_density QE s (Some y) dim comp periods = Err e) /\
     (forall dim comp, gibbs_map_density QE s (Some y) dim comp = Err e) /\ gibbs_map_cluster QE s (Some y) = Err e /\
     gibbs_eap_affinity_matrix QE s (Some y) = Err e /\ forall k, gibbs_spectral QE s (Some y) k = Err e) /\
  (s_vfit s = true -> (forall dim comp, var_eap_density QE s (Some y) dim comp = Err e) /\ (forall dim comp, var_map_density QE s (Some y) dim comp = Err e) /\
     (forall full, var_map_cluster QE s (Some y) full = Err e) /\ var_eap_affinity_matrix QE s (Some y) = Err e /\ forall k, var_spectral QE s (Some y) k = Err e).
