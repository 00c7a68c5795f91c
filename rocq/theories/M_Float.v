(* IEEE binary64 arithmetic (Coq.Floats.SpecFloat, no primitive floats) for
   the parts of BaseWeight whose rounding matters. *)
From Coq Require Import SpecFloat.
From Verif Require Import Prelude.

Definition f64 := spec_float.
Definition fadd : f64 -> f64 -> f64 := SFadd 53 1024.
Definition fdiv : f64 -> f64 -> f64 := SFdiv 53 1024.
Definition fnat (n : nat) : f64 := binary_normalize 53 1024 (Z.of_nat n) 0 false.
Definition fzero : f64 := S754_zero false.

(* np.sum of fewer than 8 doubles: left to right *)
Definition fsum (l : list f64) : f64 := fold_left fadd l fzero.
Fixpoint fcumsum_from (acc : f64) (l : list f64) : list f64 :=
  match l with [] => [] | x :: t => let c := fadd acc x in c :: fcumsum_from c t end.

(* _frequency.py:19-20: np.bincount(d) / its sum *)
Definition f_frequencies (d : list nat) : list f64 :=
  let c := map (fun j => length (filter (Nat.eqb j) d)) (seq 0 (S (list_max d))) in
  map (fun n => fdiv (fnat n) (fnat (length d))) c.

(* weight_models/_base.py:139-145 *)
Definition f_normalized (w : list f64) : list f64 := map (fun x => fdiv x (fsum w)) w.
Definition f_norm_cum (w : list f64) : list f64 := fcumsum_from fzero (f_normalized w).
(* weight_models/_base.py:155-158 *)
Definition f_assign_label (w : list f64) (u : f64) : nat :=
  length (filter (fun c => SFltb c u) (f_norm_cum w)).
(* Generator.uniform(): (a 53-bit integer) * 2^-53 *)
Definition f_uniform (k : Z) : f64 := binary_normalize 53 1024 k (-53) false.
