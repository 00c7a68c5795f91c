(* The dashed lines of gibbs_map_pairplot: theorems. *)
From Coq Require Import Reals Lra.
From Verif Require Import Prelude M_Contour S_Contour P_Contour.
Open Scope R_scope.

(* ---- C73 ---- *)

Theorem c73_distance_of_points :
  
  forall a b c m0 m1 radius, pos_def2 a b c -> exists f l, ldl a b c = Some f /\ (l = 0 <-> b = 0) /\
  ((forall t, mahalanobis2 a b c m0 m1 (contour_point f radius m0 m1 t) = radius * radius * (1 + 2 * l * (cos t * sin t) + l * l * (sin t * sin t))) \/
   (forall t, mahalanobis2 a b c m0 m1 (contour_point f radius m0 m1 t) = radius * radius * (1 + 2 * l * (cos t * sin t) + l * l * (cos t * cos t)))).
Proof. exact c73_distance_proof. Qed.
Print Assumptions c73_distance_of_points.

Theorem c73_on_contour_iff_uncorrelated :
  
  forall a b c m0 m1 radius pts, pos_def2 a b c -> 0 < radius -> contour_points a b c radius m0 m1 = Some pts ->
  (Forall (on_contour a b c m0 m1 radius) pts <-> b = 0).
Proof. exact c73_contour_proof. Qed.
Print Assumptions c73_on_contour_iff_uncorrelated.

Theorem c73_on_contour_refuted :
  
  exists a b c m0 m1 radius pts, pos_def2 a b c /\ 0 < radius /\ contour_points a b c radius m0 m1 = Some pts /\ ~ Forall (on_contour a b c m0 m1 radius) pts.
Proof. exact c73_refuted_proof. Qed.
Print Assumptions c73_on_contour_refuted.

Theorem c73_area :
  
  forall a b c, pos_def2 a b c -> exists f p q r, ldl a b c = Some f /\ sig_sq f = (p, q, r) /\ (p * r - q * q) * (p * r - q * q) = a * c - b * b.
Proof. exact c73_area_proof. Qed.
Print Assumptions c73_area.

Theorem c73_always_a_hundred_points :
  
  forall a b c radius m0 m1, pos_def2 a b c -> exists pts, contour_points a b c radius m0 m1 = Some pts /\ length pts = 100%nat.
Proof. exact c73_total_proof. Qed.
Print Assumptions c73_always_a_hundred_points.

Example c73_nontrivial : pos_def2 1 (1 / 2) 1 /\ pos_def2 (1 / 10) 1 100 /\ exists pts, contour_points 1 (1 / 2) 1 2 3 4 = Some pts.
Proof.
  split; [unfold pos_def2; lra|]. split; [unfold pos_def2; lra|]. destruct (c73_always_a_hundred_points 1 (1 / 2) 1 2 3 4) as (pts & E & _); [unfold pos_def2; lra|]. eauto.
Qed.
