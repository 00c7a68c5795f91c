(* Specification vocabulary: mixtures that differ in the numbering of their components. *)
From Verif Require Import Prelude Numpy Rng M_Weights M_Niw M_Mix M_Query S_Niw S_Mix S_Sort S_Query.
Open Scope Q_scope.

(* component j of r is component pi j of r' *)
Definition renumbers (pi : nat -> nat) (r r' : rparams) : Prop :=
  length (r_w r') = length (r_w r) /\
  (forall j, (j < length (r_w r))%nat -> (pi j < length (r_w r))%nat) /\
  (forall i j, (i < length (r_w r))%nat -> (j < length (r_w r))%nat -> pi i = pi j -> i = j) /\
  forall j, (j < length (r_w r))%nat -> nth (pi j) (r_w r') 0 = nth j (r_w r) 0 /\ atom_of (pi j) (r_theta r') = atom_of j (r_theta r).
Definition same_mixture (r r' : rparams) : Prop := exists pi, renumbers pi r r'.
(* equal entries *)
Definition agree (v v' : list Q) : Prop := Forall2 Qeq v v'.
Definition agree_nan (u u' : option Q) : Prop :=
  match u, u' with None, None => True | Some a, Some b => a == b | _, _ => False end.
(* the same data and flags *)
Definition same_data (s s' : ms) : Prop := s_y s' = s_y s /\ s_1d s' = s_1d s /\ s_gfit s' = s_gfit s.
(* every row has a component that is strictly the most probable *)
Definition decided (QE : qenv) (x : list vec) (r : rparams) : Prop :=
  forall ls, atom_densities QE x r ls -> forall i, (i < length x)%nat ->
  0 < sum_over (fun q => q) (joint ls (r_w r) i) /\
  exists g, (g < length (r_w r))%nat /\ forall j, (j < length (r_w r))%nat -> j <> g -> nth j (joint ls (r_w r) i) 0 < nth g (joint ls (r_w r) i) 0.
