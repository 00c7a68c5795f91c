(* Model of the dashed lines of gibbs_map_pairplot, _base.py:399-400, 473-487,
   over the reals. *)
From Coq Require Import Reals.
From Verif Require Import Prelude.
Open Scope R_scope.

(* scipy.linalg.ldl of [[a, b], [b, c]]: the outer factor by rows and the
   diagonal of the inner one.  LAPACK's sytrf (lower triangle, Bunch-Kaufman)
   takes a as pivot unless it is small next to b, then c; the remaining case, a
   2x2 pivot, does not occur for positive definite matrices and is None. *)
Record ldl2 := LDL { l00 : R; l01 : R; l10 : R; l11 : R; d0 : R; d1 : R }.
Definition bk_alpha : R := (1 + sqrt 17) / 8.
Definition ldl (a b c : R) : option ldl2 :=
  if Rle_dec (bk_alpha * Rabs b) (Rabs a) then Some (LDL 1 0 (b / a) 1 a (c - b * (b / a)))
  else if Rle_dec (bk_alpha * Rabs b) (Rabs c) then Some (LDL (b / c) 1 1 0 c (a - b * (b / c)))
  else None.
(* sig_sq = L @ np.sqrt(D) @ L.T, line 479-480: its entries (0,0), (0,1) = (1,0), (1,1) *)
Definition sig_sq (f : ldl2) : R * R * R :=
  (l00 f * sqrt (d0 f) * l00 f + l01 f * sqrt (d1 f) * l01 f,
   l00 f * sqrt (d0 f) * l10 f + l01 f * sqrt (d1 f) * l11 f,
   l10 f * sqrt (d0 f) * l10 f + l11 f * sqrt (d1 f) * l11 f).
(* a row of circle_points, lines 481-485: (cos t, sin t) * radius @ sig_sq + mu *)
Definition contour_point (f : ldl2) (radius m0 m1 t : R) : R * R :=
  let '(p, q, r) := sig_sq f in
  (cos t * radius * p + sin t * radius * q + m0, cos t * radius * q + sin t * radius * r + m1).
(* np.linspace(0, 2 * np.pi, 100) *)
Definition angles : list R := map (fun i => INR i * (2 * PI / 99)) (seq 0 100).
Definition contour_points (a b c radius m0 m1 : R) : option (list (R * R)) :=
  option_map (fun f => map (contour_point f radius m0 m1) angles) (ldl a b c).
