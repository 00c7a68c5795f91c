(* Contours of two-dimensional normal densities. *)
From Coq Require Import Reals.
From Verif Require Import Prelude.
Open Scope R_scope.

Definition pos_def2 (a b c : R) : Prop := 0 < a /\ 0 < c /\ b * b < a * c.
(* the squared Mahalanobis distance of (x, y) from (m0, m1), for the covariance
   matrix [[a, b], [b, c]] *)
Definition mahalanobis2 (a b c m0 m1 : R) (p : R * R) : R :=
  let dx := fst p - m0 in let dy := snd p - m1 in (c * dx * dx - 2 * b * dx * dy + a * dy * dy) / (a * c - b * b).
(* the density of the normal distribution at p is a function of that distance *)
Definition on_contour (a b c m0 m1 radius : R) (p : R * R) : Prop := mahalanobis2 a b c m0 m1 p = radius * radius.
