(* C04-C07: tail. *)
From Coq Require Import Reals Qreals.
From Verif Require Import Prelude Numpy Rng M_Weights S_Weights S_Hist S_Oracle P_Sticks P_Geom P_Grow P_Fixed.
Open Scope Q_scope.

(* C04: any class but the geometric process, any state *)
Theorem c04_tail_mass :
  forall c fuel x o s g a s' g', (forall pa pb, c <> CGeom pa pb) ->
    wm_tail c fuel x o s g = (Ok a, s', g') ->
    0 <= x /\ x < 1 /\ x <= qtotal (w s') /\ a = w s'.
Proof. exact c04_mass_proof. Qed.
Print Assumptions c04_tail_mass.

Theorem c04_tail_extends :
  forall c fuel x o s g a s' g', stick_breaking c -> reached c o s g ->
    wm_tail c fuel x o s g = (Ok a, s', g') ->
    extends (w s) (w s') /\ stick_image (v s') (w s').
Proof. exact c04_extends_proof. Qed.
Print Assumptions c04_tail_extends.

Theorem c04_tail_out_of_range :
  forall c fuel x o s g, ~ (0 <= x /\ x < 1) ->
    wm_tail c fuel x o s g = (Err ValueError, s, g).
Proof. exact c04_range_proof. Qed.
Print Assumptions c04_tail_out_of_range.

Theorem c04_strictly_greater_refuted :
  exists o s0 g0 fuel x a s' g', valid_oracle o /\
    new_ws (CDP 1) 0 0 o = Ok (s0, g0) /\ wm_tail (CDP 1) fuel x o s0 g0 = (Ok a, s', g') /\
    ~ x < qtotal a.
Proof. exact c04_strict_witness. Qed.
Print Assumptions c04_strictly_greater_refuted.

Example c04_nontrivial :
  option_map (map Qred) (match fst (fst (wm_tail (CDP 1) 9 (9 # 10) (const_oracle (1 # 2)) (ws_init 0 0) [])) with Ok a => Some a | _ => None end)
  = Some [1 # 2; 1 # 4; 1 # 8; 1 # 16].
Proof. vm_compute. reflexivity. Qed.

(* C05 *)
Theorem c05_geometric_tail :
  forall a b o s g fuel x y s' g',
    reached (CGeom a b) o s g -> 0 < p s -> p s < 1 ->
    wm_tail (CGeom a b) fuel x o s g = (Ok y, s', g') ->
    exists n, 1 - x <= qpow (1 - p s) n /\ qpow (1 - p s) (S n) < 1 - x /\
      length (w s') = Nat.max (length (w s)) n /\ y = w s' /\ p s' = p s /\
      (forall j, (j < length (w s'))%nat -> nth j (w s') 0 == p s * qpow (1 - p s) j) /\
      qtotal (w s') == 1 - qpow (1 - p s) (length (w s')).
Proof. exact c05_proof. Qed.
Print Assumptions c05_geometric_tail.

Theorem c05_next_weight_reaches :
  forall a b o s g fuel x y s' g',
    reached (CGeom a b) o s g -> 0 < p s -> p s < 1 ->
    wm_tail (CGeom a b) fuel x o s g = (Ok y, s', g') ->
    x < qtotal (w s') + p s * qpow (1 - p s) (length (w s')).
Proof. exact c05_next_proof. Qed.
Print Assumptions c05_next_weight_reaches.

(* when exactly the documented contract holds *)
Theorem c05_contract_iff :
  forall a b o s g fuel x y s' g',
    reached (CGeom a b) o s g -> 0 < p s -> p s < 1 ->
    wm_tail (CGeom a b) fuel x o s g = (Ok y, s', g') ->
    exists n, 1 - x <= qpow (1 - p s) n /\ qpow (1 - p s) (S n) < 1 - x /\
      (x < qtotal (w s') <-> (n < length (w s))%nat) /\
      (x <= qtotal (w s') <-> (n < length (w s))%nat \/ 1 - x == qpow (1 - p s) n).
Proof. exact c05_iff_proof. Qed.
Print Assumptions c05_contract_iff.

(* the modelled truncation is the integer part of log(1-x)/log(1-p) *)
Theorem c05_size_is_floor_of_log_ratio :
  forall pp x, 0 < pp -> pp < 1 -> 0 <= x -> x < 1 ->
    exists n, geom_tail_size pp x = Ok (Z.of_nat n) /\
      (INR n <= ln (1 - Q2R x) / ln (1 - Q2R pp) < INR n + 1)%R.
Proof. exact c05_floor_proof. Qed.
Print Assumptions c05_size_is_floor_of_log_ratio.

Theorem c05_degenerate_p :
  forall a b fuel x o s g, 0 <= x -> x < 1 ->
    (p s == 1 -> wm_tail (CGeom a b) fuel x o s g = (Ok (w s), s, g)) /\
    (p s == 0 -> 0 < x -> wm_tail (CGeom a b) fuel x o s g = (Err OverflowError, s, g)) /\
    (p s == 0 -> x == 0 -> wm_tail (CGeom a b) fuel x o s g = (Err ValueError, s, g)).
Proof. exact c05_degenerate_proof. Qed.
Print Assumptions c05_degenerate_p.

Theorem c05_geometric_mass_refuted :
  exists o s0 g0 fuel x a s' g', valid_oracle o /\
    new_ws (CGeom 1 1) 0 0 o = Ok (s0, g0) /\ 0 < p s0 /\ p s0 < 1 /\
    wm_tail (CGeom 1 1) fuel x o s0 g0 = (Ok a, s', g') /\ ~ x <= qtotal a.
Proof. exact c05_witness. Qed.
Print Assumptions c05_geometric_mass_refuted.

Example c05_nontrivial :
  reached (CGeom 1 1) (const_oracle (1 # 2)) (ws_init (1 # 2) 0) [rbeta 1 1] /\
  option_map (map Qred) (match fst (fst (wm_tail (CGeom 1 1) 0 (9 # 10) (const_oracle (1 # 2)) (ws_init (1 # 2) 0) [rbeta 1 1])) with Ok a => Some a | _ => None end)
  = Some [1 # 2; 1 # 4; 1 # 8].
Proof.
  split; [|vm_compute; reflexivity].
  exists 0, 0%Z, [], (ws_init (1 # 2) 0), [rbeta 1 1]. split; [discriminate|]. split; [reflexivity|]. split; [constructor|reflexivity].
Qed.

(* C06 *)
Theorem c06_returns_iff :
  forall c o s g x,
    stick_breaking c -> (forall pa pb, c <> CGeom pa pb) -> reached c o s g -> w s <> [] -> 0 <= x -> x < 1 ->
    (exists fuel a s' g', wm_tail c fuel x o s g = (Ok a, s', g')) <->
    (exists n s' g', grow_n c n o s g = (Ok tt, s', g') /\ remaining (v s') <= 1 - x).
Proof. exact c06_returns_proof. Qed.
Print Assumptions c06_returns_iff.

Theorem c06_loops_iff :
  forall c o s g x,
    stick_breaking c -> (forall pa pb, c <> CGeom pa pb) -> reached c o s g -> w s <> [] -> 0 <= x -> x < 1 ->
    (forall fuel, fst (fst (wm_tail c fuel x o s g)) = Diverge) <->
    (forall n, exists s' g', grow_n c n o s g = (Ok tt, s', g') /\ 1 - x < remaining (v s')).
Proof. exact c06_loops_proof. Qed.
Print Assumptions c06_loops_iff.

(* draws bounded below: an explicit number of passes suffices *)
Theorem c06_bounded_draws_terminate :
  forall c o s g x eps N fuel,
    valid_oracle o -> drawn_sticks c -> reached c o s g -> w s <> [] ->
    0 <= eps -> (forall g a b, eps <= o_beta o g a b) ->
    Forall (fun y => eps <= y) (v s) -> Forall (fun y => eps <= y) (vbase s) ->
    qpow (1 - eps) N <= 1 - x -> (N <= fuel)%nat ->
    fst (fst (wm_tail c fuel x o s g)) <> Diverge.
Proof. exact c06_eps_proof. Qed.
Print Assumptions c06_bounded_draws_terminate.

Theorem c06_zero_draws_never_return :
  forall c o s g x fuel,
    drawn_sticks c -> reached c o s g -> w s <> [] -> 0 < x ->
    (forall g a b, o_beta o g a b == 0) ->
    Forall (fun y => y == 0) (v s) -> Forall (fun y => y == 0) (vbase s) ->
    is_ok (fst (fst (wm_tail c fuel x o s g))) = false.
Proof. exact c06_zero_proof. Qed.
Print Assumptions c06_zero_draws_never_return.

Theorem c06_dirichlet_process_loops_forever :
  forall al o x fuel, 0 < al -> (forall g a b, o_beta o g a b == 0) -> 0 < x -> x < 1 ->
    fst (fst (wm_tail (CDP al) fuel x o (ws_init 0 0) [])) = Diverge.
Proof. exact c06_dp_zero_proof. Qed.
Print Assumptions c06_dirichlet_process_loops_forever.

(* fixed-size models: even with no fuel at all *)
Theorem c06_fixed_size_terminate :
  forall c o s g x fuel, valid_oracle o -> fixed_ok c -> reached c o s g ->
    fst (fst (wm_tail c fuel x o s g)) <> Diverge /\
    (is_ok (fst (fst (wm_tail c fuel x o s g))) = true -> prob (w (snd (fst (wm_tail c fuel x o s g))))).
Proof. exact c06_fixed_proof. Qed.
Print Assumptions c06_fixed_size_terminate.

Theorem c06_empty_dirichlet_loops_forever :
  forall k o x fuel, valid_oracle o -> 0 < x -> x < 1 ->
    fst (fst (wm_tail (CDirDist k []) fuel x o (ws_init 0 0) [])) = Diverge.
Proof. exact c06_dd_empty_proof. Qed.
Print Assumptions c06_empty_dirichlet_loops_forever.

Example c06_nontrivial :
  let o := const_oracle (1 # 2) in
  let s := set_w [1 # 2] (set_v [1 # 2] (ws_init 0 0)) in
  reached (CDP 1) o s [RBeta 1 1] /\ qpow (1 - (1 # 2)) 4 <= 1 - (9 # 10) /\
  (forall g a b, 1 # 2 <= o_beta o g a b).
Proof.
  split; [|split; [discriminate|intros; discriminate]].
  exists 0, 0%Z, [OpRandom (SInt 1)], (ws_init 0 0), [].
  split; [discriminate|]. split; [reflexivity|]. split; [repeat constructor|]. vm_compute. reflexivity.
Qed.

(* C07 *)
Theorem c07_truncation_exact :
  forall c fuel u o s g a s1 g1 ops s2 g2,
    valid_oracle o -> stick_breaking c -> (forall pa pb, c <> CGeom pa pb) -> reached c o s g ->
    wm_tail c fuel (1 - u) o s g = (Ok a, s1, g1) ->
    Forall keeps_op ops -> exec_ops c ops o s1 g1 = (Ok tt, s2, g2) ->
    exists t, w s2 = w s1 ++ t /\ Forall (fun x => x <= u) t.
Proof. exact c07_proof. Qed.
Print Assumptions c07_truncation_exact.

(* the geometric process drops components above the slice *)
Theorem c07_geometric_refuted :
  exists o s0 g0 u a s1 g1 s2 g2, valid_oracle o /\
    new_ws (CGeom 1 1) 0 0 o = Ok (s0, g0) /\ 0 < u /\ u < 1 /\
    wm_tail (CGeom 1 1) 0 (1 - u) o s0 g0 = (Ok a, s1, g1) /\
    exec_ops (CGeom 1 1) [OpComplete (SInt (Z.of_nat (length a) + 1))] o s1 g1 = (Ok tt, s2, g2) /\
    exists x, w s2 = a ++ [x] /\ u < x.
Proof. exact c07_geom_witness. Qed.
Print Assumptions c07_geometric_refuted.

Example c07_nontrivial :
  let o := const_oracle (1 # 2) in
  let r := wm_tail (CDP 1) 9 (1 - (1 # 5)) o (ws_init 0 0) [] in
  option_map (map Qred) (match fst (fst r) with Ok a => Some a | _ => None end) = Some [1 # 2; 1 # 4; 1 # 8] /\
  map Qred (w (snd (fst (exec_ops (CDP 1) [OpComplete (SInt 5)] o (snd (fst r)) (snd r))))) = [1 # 2; 1 # 4; 1 # 8; 1 # 16; 1 # 32].
Proof. vm_compute. split; reflexivity. Qed.
