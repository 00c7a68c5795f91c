(* Model of gibbs_map_pairplot, _base.py:386-487: what is drawn on which panel.
   Axis labels, ticks, grid, opacity and the tick format are left out.  The
   panel (c, r) is axes[r, c]. *)
From Verif Require Import Prelude Numpy Rng M_Weights M_Niw M_Utils M_Mix M_Query.
Open Scope Q_scope.

Inductive pcmd :=
| PArea (feature : nat) (colour : option nat) (ys dens : list Q)  (* fill_between; None is black *)
| PLine (feature : nat) (ys dens : list Q)                        (* the black line *)
| PScatter (c r : nat) (xs ys : list Q) (colours : list nat)
| PContour (c r : nat) (colour : nat) (mu : vec) (sigma : matr).  (* the dashed line around a component *)

(* builtin max and min, ndarray.max and min; ValueError for no element *)
Definition bmax (a b : Q) : Q := if qltb a b then b else a.
Definition bmin (a b : Q) : Q := if qltb b a then b else a.
Definition py_max (l : list Q) : res Q := match l with [] => Err ValueError | x :: t => Ok (fold_left bmax t x) end.
Definition py_min (l : list Q) : res Q := match l with [] => Err ValueError | x :: t => Ok (fold_left bmin t x) end.
(* np.linspace(lo, hi, n) for n > 1 *)
Definition linspace (lo hi : Q) (n : nat) : list Q := map (fun i => lo + nq i * ((hi - lo) / nq (n - 1))) (seq 0 n).
(* self.y[:, it] *)
Definition col_at (it : nat) (y : list vec) : list Q := map (fun r => vat r it) y.
(* _base.py:441-446 *)
Definition y_range (ys : list Q) : res (list Q) :=
  lo <~ py_min ys ;; hi <~ py_max ys ;; Ok (linspace (lo - (hi - lo) / 4) (hi + (hi - lo) / 4) 100).
(* _base.py:402-406: the number of rows of the array of colours *)
Definition n_colours (grp : list nat) : nat := if Nat.ltb 10 (nmax grp) then S (length (nunique grp)) else 10.
(* color[j]: tab10 has ten colours, and plt.get_cmap('tab10')(x) is colour
   int(10 x), or the last one for x = 1; here x = j / (n - 1) *)
Definition tab10 (n j : nat) : nat := Nat.min 9 (10 * j / (n - 1)).
Definition colour_of (grp : list nat) (j : nat) : res nat :=
  if Nat.ltb j (n_colours grp) then Ok (tab10 (n_colours grp) j) else Err IndexError.

Section P.
Variable E : qenv.

(* _base.py:440-469 *)
Definition diag_panel (s : ms) (ww : list Q) (grp : list nat) (it : nat) : res (list pcmd) :=
  ys <~ y_range (col_at it (s_y s)) ;;
  used <~ rmap (fun j =>
            dens <~ gibbs_map_density E s (Some (YArr1 ys)) (DInt (Z.of_nat it)) (Some (Z.of_nat j)) ;;
            c <~ colour_of grp j ;; Ok (PArea it (Some c) ys dens)) (nunique grp) ;;
  unused <~ rmap (fun j =>
              if existsb (Nat.eqb j) grp then Ok [] else
              dens <~ gibbs_map_density E s (Some (YArr1 ys)) (DInt (Z.of_nat it)) (Some (Z.of_nat j)) ;;
              m <~ py_max dens ;; Ok (if qltb (1 # 10000) m then [PArea it None ys dens] else [])) (seq 0 (length ww)) ;;
  dens <~ gibbs_map_density E s (Some (YArr1 ys)) (DInt (Z.of_nat it)) None ;;
  Ok (used ++ concat unused ++ [PLine it ys dens]).
(* _base.py:470-487; the points of the dashed line are in M_Contour *)
Definition off_panel (s : ms) (theta : list (nat * atom)) (grp : list nat) (it it2 : nat) : res (list pcmd) :=
  cs <~ rmap (colour_of grp) grp ;;
  lines <~ rmap (fun j =>
             a <~ dict_get theta (Z.of_nat j) ;;
             mu <~ sub_vec [Z.of_nat it; Z.of_nat it2] (fst a) ;;
             rows <~ rmap (py_nth (snd a)) [Z.of_nat it; Z.of_nat it2] ;;
             sg <~ rmap (sub_vec [Z.of_nat it; Z.of_nat it2]) rows ;;
             c <~ colour_of grp j ;; Ok (PContour it it2 c mu sg)) (nunique grp) ;;
  Ok (PScatter it it2 (col_at it (s_y s)) (col_at it2 (s_y s)) cs :: lines).
(* _base.py:386-487.  self.y is one-dimensional until a fit has stored data and
   for a Series.  plt.subplots(1, 1) is not an array, and a grid without rows is
   a ValueError. *)
Definition gibbs_map_pairplot (s : ms) : res (list pcmd) :=
  if s_1d s then Err IndexError else
  let n := s_dim s in
  lu <~ gibbs_map_cluster E s None ;;
  let grp := fst lu in
  if Nat.eqb n 0 then Err ValueError else
  if is_nil grp then Err ValueError else
  if Nat.eqb n 1 then Err TypeError else
  r <~ get_map s ;;
  ps <~ rmap (fun p => if Nat.eqb (fst p) (snd p) then diag_panel s (r_w r) grp (fst p)
                       else off_panel s (r_theta r) grp (fst p) (snd p)) (list_prod (seq 0 n) (seq 0 n)) ;;
  Ok (concat ps).

End P.
