(* C02, C03: stick-breaking image; complete only appends. *)
From Verif Require Import Prelude Numpy Rng M_Weights S_Weights S_Hist S_Oracle P_Sticks.
Open Scope Q_scope.

(* C02: from any state whatsoever *)
Theorem c02_random_stick_image :
  forall c o z s g a s' g',
    stick_breaking c -> positive_size z ->
    wm_random c z o s g = (Ok a, s', g') ->
    stick_image (v s') (w s') /\ (0 < length (v s'))%nat /\ a = w s' /\
    qtotal (w s') == 1 - remaining (v s').
Proof. exact c02_random_proof. Qed.
Print Assumptions c02_random_stick_image.

Theorem c02_history_stick_image :
  forall c o s g, stick_breaking c -> reached c o s g ->
    stick_image (v s) (w s) /\ qtotal (w s) == 1 - remaining (v s).
Proof. exact c02_reached_proof. Qed.
Print Assumptions c02_history_stick_image.

(* not after a caught exception: BetaBernoulli().complete(1) twice *)
Theorem c02_bb_after_exception_refuted :
  exists o s0 g0 s g,
  valid_oracle o /\ new_ws (CBB (1 # 2) 1) 0 0 o = Ok (s0, g0) /\
  fst (fst (wm_complete (CBB (1 # 2) 1) (SInt 1) o s0 g0)) = Err IndexError /\
  run_ops (CBB (1 # 2) 1) [OpComplete (SInt 1)] o s0 g0 = (s, g) /\
  wm_complete (CBB (1 # 2) 1) (SInt 1) o s g = (Ok (Some []), s, g) /\
  ~ stick_image (v s) (w s).
Proof. exact c02_bb_witness. Qed.
Print Assumptions c02_bb_after_exception_refuted.

(* and not after random(0), which keeps the old weights *)
Theorem c02_random_zero_refuted :
  exists o s0 g0 s g a s' g',
  valid_oracle o /\ new_ws (CDP 1) 0 0 o = Ok (s0, g0) /\
  exec_ops (CDP 1) [OpRandom (SInt 2)] o s0 g0 = (Ok tt, s, g) /\
  wm_random (CDP 1) (SInt 0) o s g = (Ok a, s', g') /\
  v s' = [] /\ length a = 2%nat /\ w s' = a.
Proof. exact c02_dp_zero_witness. Qed.
Print Assumptions c02_random_zero_refuted.

Example c02_nontrivial :
  reached (CPY (1 # 2) 1) (const_oracle (1 # 3))
    (set_w [1 # 3; 2 # 9] (set_v [1 # 3; 1 # 3] (ws_init 0 0)))
    [RBeta (1 # 2) 1; RBeta (1 # 2) (3 # 2)].
Proof.
  exists 0, 0%Z, [OpRandom (SInt 2)], (ws_init 0 0), [].
  split; [discriminate|]. split; [reflexivity|]. split; [repeat constructor|]. vm_compute. reflexivity.
Qed.

(* C03 *)
Theorem c03_complete_appends :
  forall c o s g z n a s' g',
    stick_breaking c -> reached c o s g -> size_val z = Some n ->
    wm_complete c z o s g = (Ok a, s', g') ->
    extends (w s) (w s') /\
    (n <= Z.of_nat (length (w s')))%Z /\
    (length (w s') <= Nat.max (Nat.max 1 (length (w s))) (Z.to_nat n))%nat /\
    a = match c with CBID _ _ => None | _ => Some (w s') end /\
    (forall a2 s2 g2, wm_complete c z o s' g' = (Ok a2, s2, g2) -> w s2 = w s' /\ v s2 = v s').
Proof. exact c03_proof. Qed.
Print Assumptions c03_complete_appends.

Theorem c03_fixed_size_ignores_size :
  forall c o s g z z', ~ stick_breaking c -> z <> SOther -> z' <> SOther ->
    wm_complete c z o s g = wm_complete c z' o s g.
Proof. exact c03_fixed_proof. Qed.
Print Assumptions c03_fixed_size_ignores_size.

Theorem c03_dirichlet_distribution_keeps :
  forall k al o s g z, w s <> [] -> z <> SOther ->
    wm_complete (CDirDist k al) z o s g = (Ok (Some (w s)), s, g).
Proof. exact c03_dd_keep_proof. Qed.
Print Assumptions c03_dirichlet_distribution_keeps.

(* BetaBernoulli(p, alpha).complete(1) on a fresh object raises, always *)
Theorem c03_bb_fresh_complete_raises :
  forall pp al o s0 g0, 0 <= pp <= 1 -> 0 < al ->
    new_ws (CBB pp al) 0 0 o = Ok (s0, g0) ->
    fst (fst (wm_complete (CBB pp al) (SInt 1) o s0 g0)) = Err IndexError.
Proof. exact c03_bb_fresh_proof. Qed.
Print Assumptions c03_bb_fresh_complete_raises.

Example c03_nontrivial :
  map Qred (w (snd (fst (wm_complete (CPY (1 # 2) 1) (SInt 4) (const_oracle (1 # 3))
    (set_w [1 # 3; 2 # 9] (set_v [1 # 3; 1 # 3] (ws_init 0 0)))
    [RBeta (1 # 2) 1; RBeta (1 # 2) (3 # 2)])))) = [1 # 3; 2 # 9; 4 # 27; 8 # 81].
Proof. vm_compute. reflexivity. Qed.
