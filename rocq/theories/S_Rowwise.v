(* Specification vocabulary: queries that treat the rows of y one by one. *)
From Verif Require Import Prelude Numpy Rng M_Weights M_Niw M_Mix M_Query S_Sort.
Open Scope Q_scope.

(* a row of an array with k columns *)
Definition has_columns (k : nat) (r : vec) : Prop := length r = k.
(* a non-empty array of such rows *)
Definition filled {A} (P : A -> Prop) (l : list A) : Prop := l <> [] /\ Forall P l.
(* one number per row that depends on this row only, or the same exception
   whatever the rows are *)
Definition row_function {A} (P : A -> Prop) (F : list A -> res (list Q)) : Prop :=
  (exists e, forall l, filled P l -> F l = Err e) \/ exists f, forall l, filled P l -> F l = Ok (map f l).
(* the densities do so on arrays with k columns *)
Definition rowwise (k : nat) (QE : qenv) : Prop :=
  (forall m c, row_function (has_columns k) (fun x => q_pdf QE x m c)) /\ (forall m v, row_function (fun _ => True) (fun x => q_norm QE x m v)) /\
  (forall m p nu, row_function (has_columns k) (fun x => q_student QE x m p nu)) /\ (forall m p, row_function (has_columns k) (fun x => q_normal QE x m p)).
(* a query result: the same exception for all arrays, nan, or one number per row *)
Definition by_rows (k : nat) (F : list vec -> res (option (list Q))) : Prop :=
  (exists e, forall l, filled (has_columns k) l -> F l = Err e) \/ (forall l, filled (has_columns k) l -> F l = Ok None) \/
  exists f, forall l, filled (has_columns k) l -> F l = Ok (Some (map f l)).
(* a clustering: each row has its own component and uncertainty, and the labels
   say which rows share a component *)
Definition clusters_by_rows (k : nat) (F : list vec -> res (list nat * list (option Q))) : Prop :=
  (exists e, forall l, filled (has_columns k) l -> F l = Err e) \/
  exists g u, forall l, filled (has_columns k) l -> (length l = 1%nat -> F l = Err AxisError) /\
    (length l <> 1%nat -> exists lab, F l = Ok (lab, map u l) /\ same_partition (map g l) lab).
(* an affinity matrix: an entry depends on its two rows *)
Definition affinity_by_rows (k : nat) (F : list vec -> res (list (list (option Q)))) : Prop :=
  (exists e, forall l, filled (has_columns k) l -> length l <> 1%nat -> F l = Err e) \/
  exists h, forall l, filled (has_columns k) l -> length l <> 1%nat -> F l = Ok (map (fun a => map (h a) l) l).
