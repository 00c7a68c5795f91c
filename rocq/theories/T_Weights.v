(* Property theorems C13-C20: limits of the weight models, failures of
   BetaBernoulli and BetaInDirichlet, lengths, refitting. *)
From Coq Require Import Lqa.
From Verif Require Import Prelude Numpy Rng M_Weights S_Weights S_Hist S_Draws S_Oracle P_Bib P_BB P_BB16 P_Bid P_Len.
Open Scope Q_scope.

(* C13 *)
Theorem c13_random_same_as_dp :
  forall x alpha a b pm z o s1 s2 g, x == 0 -> int_or_none z -> same_view s1 s2 ->
    same_call same_view (wm_random (CBIB x alpha a b pm) z o s1 g) (wm_random (CDP alpha) z o s2 g).
Proof. exact c13_random_proof. Qed.
Print Assumptions c13_random_same_as_dp.

Theorem c13_complete_same_as_dp :
  forall x alpha a b pm z o s1 s2 g, x == 0 -> same_view s1 s2 ->
    same_call same_view (wm_complete (CBIB x alpha a b pm) z o s1 g) (wm_complete (CDP alpha) z o s2 g).
Proof. exact c13_complete_proof. Qed.
Print Assumptions c13_complete_same_as_dp.

Theorem c13_history_same_as_dp :
  forall x alpha a b pm parg o ops s1 g1 s2 g2, x == 0 -> Forall int_sized ops ->
    new_ws (CBIB x alpha a b pm) parg 0 o = Ok (s1, g1) -> new_ws (CDP alpha) 0 0 o = Ok (s2, g2) ->
    let '(t1, h1) := run_ops (CBIB x alpha a b pm) ops o s1 g1 in
    let '(t2, h2) := run_ops (CDP alpha) ops o s2 g2 in
    same_view t1 t2 /\ h1 = h2.
Proof. exact c13_history_proof. Qed.
Print Assumptions c13_history_same_as_dp.

(* random(np.int64(2)) *)
Theorem c13_numpy_size_refuted :
  exists alpha a b pm z o s g,
    is_ok (fst (fst (wm_random (CBIB 0 alpha a b pm) z o s g))) = true /\
    fst (fst (wm_random (CDP alpha) z o s g)) = Err TypeError.
Proof. exists 1, 1, 1, PGeometric, (SNp64 2), (const_oracle (1 # 2)), (ws_init 0 0), []. vm_compute. split; reflexivity. Qed.
Print Assumptions c13_numpy_size_refuted.

Example c13_nontrivial :
  let ops := [OpFit [0; 2; 1]%nat; OpRandom SNone; OpComplete (SInt 5); OpTail 20 (9 # 10); OpReset; OpRandom (SInt 3)] in
  let '(t, h) := run_ops (CBIB 0 (1 # 2) 1 1 PGeometric) ops (const_oracle (1 # 2)) (ws_init (1 # 3) 0) [] in
  Forall int_sized ops /\ length h = 8%nat /\ map Qred (w t) = [1 # 2; 1 # 4; 1 # 8].
Proof. vm_compute. repeat constructor. Qed.

(* C14 *)
Theorem c14_unfitted_repeats_p :
  forall x alpha a b pm k o s g, x == 1 -> d s = [] -> (0 < k)%nat ->
    ends_with (wm_random (CBIB x alpha a b pm) (SInt (Z.of_nat k)) o s g) (fun r s' g' =>
      r = Ok (w s') /\ g' = g /\ v s' = repeat (p s) k /\ p s' = p s /\ stick_image (v s') (w s')).
Proof. exact c14_unfitted_proof. Qed.
Print Assumptions c14_unfitted_repeats_p.

Theorem c14_fitted_random_equal_sticks :
  forall x alpha a b pm size k o s g, x == 1 -> 0 < a -> 0 < b -> d s <> [] -> (0 < k)%nat ->
    (size = SNone /\ k = S (list_max (d s)) \/ size = SInt (Z.of_nat k)) ->
    let rq := bib_req a b (d s) in
    ends_with (wm_random (CBIB x alpha a b pm) size o s g) (fun r s' g' =>
      r = Ok (w s') /\ g' = g ++ [rq; rq] /\ d s' = d s /\
      (exists p1, beta_answers o g [rq; rq] = [p1; p s'] /\ v s' = repeat p1 k) /\
      stick_image (v s') (w s')).
Proof. exact c14_fitted_proof. Qed.
Print Assumptions c14_fitted_random_equal_sticks.

Theorem c14_complete_redraws :
  forall x alpha a b pm k o s g, x == 1 -> 0 < a -> 0 < b -> v s <> [] ->
    let rq := bib_req a b (d s) in
    ends_with (wm_complete (CBIB x alpha a b pm) (SInt (Z.of_nat k)) o s g) (fun r s' g' =>
      r = Ok (Some (w s')) /\ g' = g ++ [rq] /\ beta_answers o g [rq] = [p s'] /\
      v s' = v s ++ repeat (p s') (k - length (v s))).
Proof. exact c14_complete_proof. Qed.
Print Assumptions c14_complete_redraws.

(* a default object: random(2) gives weights 0, 0; complete(3) then draws p *)
Theorem c14_equal_sticks_refuted :
  exists o s0, valid_oracle o /\ new_ws (CBIB 1 1 1 1 PGeometric) 0 0 o = Ok (s0, []) /\
    w (fst (run_ops (CBIB 1 1 1 1 PGeometric) [OpRandom (SInt 2)] o s0 [])) = [0; 0] /\
    v (fst (run_ops (CBIB 1 1 1 1 PGeometric) [OpRandom (SInt 2); OpComplete (SInt 3)] o s0 [])) = [0; 0; 1 # 2].
Proof.
  exists (const_oracle (1 # 2)), (ws_init 0 0). split; [apply const_oracle_valid; lra|].
  split; [reflexivity|]. split; [vm_compute; reflexivity|vm_compute; reflexivity].
Qed.
Print Assumptions c14_equal_sticks_refuted.

Example c14_nontrivial :
  let s := set_d [0; 2; 1]%nat (ws_init (1 # 3) 0) in
  let r := wm_random (CBIB 1 2 1 (1 # 2) PGeometric) (SInt 4) (const_oracle (1 # 4)) s [] in
  snd r = [RBeta 4 (7 # 2); RBeta 4 (7 # 2)] /\ v (snd (fst r)) = [1 # 4; 1 # 4; 1 # 4; 1 # 4] /\
  v (snd (fst (wm_random (CBIB 1 2 1 (1 # 2) PGeometric) (SInt 2) (const_oracle (1 # 4)) (ws_init (1 # 3) 0) []))) = [1 # 3; 1 # 3].
Proof. vm_compute. repeat split. Qed.

(* C15 *)
Theorem c15_p1_prior_independent_sticks :
  forall q alpha k o s g, valid_oracle o -> q == 1 -> 0 < alpha -> d s = [] -> bern s <> [] -> (0 < k)%nat ->
    let g1 := g ++ repeat (rbinom 1 1) k in
    let rs := repeat (rbeta 1 alpha) (S k) in
    ends_with (wm_random (CBB q alpha) (SInt (Z.of_nat k)) o s g) (fun r s' g' =>
      r = Ok (w s') /\ g' = g1 ++ rs /\ v s' = tl (beta_answers o g1 rs) /\ stick_image (v s') (w s')).
Proof. exact c15_p1_prior. Qed.
Print Assumptions c15_p1_prior_independent_sticks.

Theorem c15_p1_fitted_dp_posterior :
  forall q alpha size k o s g, valid_oracle o -> q == 1 -> 0 < alpha -> d s <> [] -> bern s <> [] ->
    (size = SNone /\ k = 1%nat \/ size = SInt (Z.of_nat k)) ->
    let m := list_max (d s) in
    let e := (k - S m)%nat in
    let g1 := g ++ repeat (rbinom 1 1) (S m + (m - 1)) in
    let post := map (dp_post alpha (d s)) (labels (d s)) in
    let g2 := g1 ++ post ++ repeat (rbinom 1 1) e in
    let ext := repeat (rbeta 1 alpha) e in
    ends_with (wm_random (CBB q alpha) size o s g) (fun r s' g' =>
      r = Ok (w s') /\ g' = g2 ++ ext /\ d s' = d s /\
      v s' = beta_answers o g1 post ++ beta_answers o g2 ext /\ stick_image (v s') (w s')).
Proof. exact c15_p1_fit. Qed.
Print Assumptions c15_p1_fitted_dp_posterior.

Theorem c15_p0_prior_equal_sticks :
  forall q alpha k o s g, valid_oracle o -> q == 0 -> 0 < alpha -> d s = [] -> bern s <> [] -> (0 < k)%nat ->
    let g1 := g ++ repeat (rbinom 1 0) k in
    ends_with (wm_random (CBB q alpha) (SInt (Z.of_nat k)) o s g) (fun r s' g' =>
      r = Ok (w s') /\ g' = g1 ++ [rbeta 1 alpha] /\
      (exists x, beta_answers o g1 [rbeta 1 alpha] = [x] /\ v s' = repeat x k) /\ stick_image (v s') (w s')).
Proof. exact c15_p0_prior. Qed.
Print Assumptions c15_p0_prior_equal_sticks.

Theorem c15_p0_fitted_equal_sticks :
  forall q alpha size k o s g, valid_oracle o -> q == 0 -> 0 < alpha -> d s <> [] -> bern s <> [] ->
    (size = SNone /\ k = 1%nat \/ size = SInt (Z.of_nat k)) ->
    let m := list_max (d s) in
    let g1 := g ++ repeat (rbinom 1 0) (S m + (m - 1)) in
    let rq := bib_req 1 alpha (d s) in
    ends_with (wm_random (CBB q alpha) size o s g) (fun r s' g' =>
      r = Ok (w s') /\ g' = g1 ++ rq :: repeat (rbinom 1 0) (k - S m) /\ d s' = d s /\
      (exists x, beta_answers o g1 [rq] = [x] /\ v s' = repeat x (Nat.max (S m) k)) /\ stick_image (v s') (w s')).
Proof. exact c15_p0_fit. Qed.
Print Assumptions c15_p0_fitted_equal_sticks.

Example c15_nontrivial :
  let s := set_d [0; 2; 2]%nat (ws_init 0 0) in
  new_ws (CBB 1 (1 # 2)) 0 0 (const_oracle 0) = Ok (ws_init 0 0, []) /\ bern (ws_init 0 0) <> [] /\
  snd (wm_random (CBB 1 (1 # 2)) (SInt 4) (const_oracle (1 # 3)) s []) =
    [RBinom 1 1; RBinom 1 1; RBinom 1 1; RBinom 1 1;
     RBeta 2 (5 # 2); RBeta 1 (5 # 2); RBeta 3 (1 # 2); RBinom 1 1; RBeta 1 (1 # 2)] /\
  v (snd (fst (wm_random (CBB 0 (1 # 2)) SNone (const_oracle (1 # 3)) s []))) = [1 # 3; 1 # 3; 1 # 3].
Proof. vm_compute. repeat split. discriminate. Qed.

(* C16 *)
Theorem c16_last_proposal_zero_raises :
  forall q alpha size o s g, 0 < q -> q < 1 -> 0 < alpha -> bern s <> [] -> (2 <= list_max (d s))%nat ->
    positive_size size -> last (bb_proposals o g q (d s)) 1%Z = 0%Z ->
    fst (fst (wm_random (CBB q alpha) size o s g)) = Err ValueError.
Proof. exact c16_raises_proof. Qed.
Print Assumptions c16_last_proposal_zero_raises.

Theorem c16_otherwise_succeeds :
  forall q alpha size o s g, valid_oracle o -> 0 < q -> q < 1 -> 0 < alpha -> bern s <> [] -> d s <> [] ->
    no_gaps (d s) -> positive_size size ->
    (list_max (d s) <= 1)%nat \/ last (bb_proposals o g q (d s)) 0%Z = 1%Z ->
    is_ok (fst (fst (wm_random (CBB q alpha) size o s g))) = true.
Proof. exact c16_succeeds_proof. Qed.
Print Assumptions c16_otherwise_succeeds.

Theorem c16_random_zero :
  forall q alpha o s g, 0 <= q <= 1 -> d s = [] -> bern s <> [] ->
    ends_with (wm_random (CBB q alpha) (SInt 0) o s g) (fun r s' g' => r = Err IndexError /\ bern s' = [] /\ g' = g).
Proof. exact c16_zero_proof. Qed.
Print Assumptions c16_random_zero.

Theorem c16_unusable_afterwards :
  forall q alpha size o s g, bern s = [] ->
    ends_with (wm_random (CBB q alpha) size o s g) (fun r s' g' => is_ok r = false /\ bern s' = []).
Proof. exact c16_unusable_proof. Qed.
Print Assumptions c16_unusable_afterwards.

(* a fresh object fitted with labels 0, 1, 2 *)
Theorem c16_never_fails_refuted :
  exists o s, valid_oracle o /\ new_ws (CBB (1 # 2) 1) 0 0 o = Ok (s, []) /\
    fst (fst (wm_random (CBB (1 # 2) 1) SNone o (set_d [0; 1; 2]%nat s) [])) = Err ValueError.
Proof.
  exists (const_oracle (1 # 2)), (ws_init 0 0). split; [apply const_oracle_valid; lra|]. split; [vm_compute; reflexivity|vm_compute; reflexivity].
Qed.
Print Assumptions c16_never_fails_refuted.

Example c16_nontrivial :
  no_gaps [1; 0; 1]%nat /\ bern (ws_init 0 0) <> [] /\
  bb_proposals (const_oracle (1 # 2)) [] (1 # 2) [0; 1; 2]%nat = [0; 0; 0]%Z /\
  length (w (snd (fst (wm_random (CBB (1 # 2) 1) SNone (const_oracle (1 # 2)) (set_d [1; 0; 1]%nat (ws_init 0 0)) [])))) = 2%nat.
Proof.
  split; [|vm_compute; repeat split; discriminate].
  intros j Hj. simpl in Hj. destruct j as [|[|j]]; [vm_compute; lia|vm_compute; lia|lia].
Qed.

(* C17 *)
Theorem c17_no_index_error :
  forall alpha a op o s g, valid_oracle o ->
    ends_with (exec_op (CBID alpha a) op o s g) (fun r _ _ => r <> Err IndexError).
Proof. exact c17_noindex_proof. Qed.
Print Assumptions c17_no_index_error.

Theorem c17_fitted_draw_consistent :
  forall alpha a size o s g, valid_oracle o -> d s <> [] ->
    ends_with (wm_random (CBID alpha a) size o s g) (fun r s' _ => is_ok r = true -> bid_fit_state a (d s) s').
Proof. exact c17_fit_proof. Qed.
Print Assumptions c17_fitted_draw_consistent.

Theorem c17_single_group_raises :
  forall alpha a size o s g, d s <> [] -> list_max (d s) = 0%nat -> ~ a == 0 -> int_or_none size ->
    ends_with (wm_random (CBID alpha a) size o s g) (fun r _ _ => r = Err ValueError).
Proof. exact c17_single_proof'. Qed.
Print Assumptions c17_single_group_raises.

(* random(3) and then random(1) on an unfitted object: old labels stay behind *)
Theorem c17_labels_in_range_refuted :
  exists o s g, valid_oracle o /\
    exec_ops (CBID 1 1) [OpRandom (SInt 3); OpRandom (SInt 1)] o (ws_init 0 0) [] = (Ok tt, s, g) /\
    Exists (fun j => (length (vbase s) <= j)%nat) (dbase s).
Proof.
  exists (last_oracle (1 # 2)).
  eexists. eexists. split; [apply last_oracle_valid; lra|]. split; [vm_compute; reflexivity|].
  vm_compute. apply Exists_cons_tl. apply Exists_cons_tl. apply Exists_cons_hd. lia.
Qed.
Print Assumptions c17_labels_in_range_refuted.

Example c17_nontrivial :
  let s := set_d [0; 2; 1]%nat (ws_init 0 0) in
  let r := wm_random (CBID 1 2) SNone (last_oracle (1 # 2)) s [] in
  let r0 := wm_random (CBID 1 0) SNone (last_oracle (1 # 2)) s [] in
  is_ok (fst (fst r)) = true /\ dbase (snd (fst r)) = [1; 2; 2]%nat /\ length (vbase (snd (fst r))) = 4%nat /\
  cbase (snd (fst r)) = [0; 1; 2; 0]%nat /\ v (snd (fst r0)) = [1 # 2; 1 # 2; 1 # 2].
Proof. vm_compute. repeat split. Qed.

(* C18 *)
Theorem c18_length_of_random :
  forall c o size s g, valid_oracle o -> positive_size size ->
    match wm_random c size o s g with
    | (Ok a, s', _) => a = w s' /\ length (w s') = random_length c (wn s) (d s) size
    | _ => True
    end.
Proof. exact c18_proof. Qed.
Print Assumptions c18_length_of_random.

Theorem c18_size_ignored_refuted :
  exists c o s g, valid_oracle o /\ length (w (snd (fst (wm_random c (SInt 5) o s g)))) = 2%nat /\
    is_ok (fst (fst (wm_random c (SInt 5) o s g))) = true.
Proof.
  exists (CBID 1 1), (const_oracle (1 # 2)), (set_d [0; 1]%nat (ws_init 0 0)), [].
  split; [apply const_oracle_valid; lra|]. vm_compute. split; reflexivity.
Qed.
Print Assumptions c18_size_ignored_refuted.

Example c18_nontrivial :
  let s := set_d [0; 2; 2]%nat (ws_init 0 0) in
  map (fun c => length (w (snd (fst (wm_random c (SInt 2) (const_oracle (1 # 2)) s [])))))
      [CDirDist 4 [1; 1; 1; 1]; CDP 1; CPY (1 # 2) 1; CGeom 1 1; CBIB (1 # 2) 1 1 1 PGeometric; CBID 1 1; CBB 0 1; CBBin 2 1; CFreq 7] =
    [4; 2; 2; 2; 2; 3; 3; 3; 3]%nat /\
  length (w (snd (fst (wm_random CEqual (SInt 2) (const_oracle (1 # 2)) (ws_init 0 6) [])))) = 6%nat.
Proof. vm_compute. split; reflexivity. Qed.

(* C19 *)
Theorem c19_random_without_size_unfitted :
  forall c o s g, stick_breaking c -> d s = [] -> wm_random c SNone o s g = (Err ValueError, s, g).
Proof. exact c19_proof. Qed.
Print Assumptions c19_random_without_size_unfitted.

Example c19_nontrivial :
  stick_breaking (CBB (1 # 2) 1) /\
  wm_random (CBB (1 # 2) 1) SNone (const_oracle 0) (ws_init 0 0) [] = (Err ValueError, ws_init 0 0, []).
Proof. vm_compute. split; constructor. Qed.

(* C20 *)
Theorem c20_refit_replaces :
  forall c size o s1 s2 dd g, memoryless c -> positive_size size -> wn s1 = wn s2 ->
    match wm_random c size o (set_d dd s1) g, wm_random c size o (set_d dd s2) g with
    | (r1, t1, g1), (r2, t2, g2) =>
        r1 = r2 /\ g1 = g2 /\ (is_ok r1 = true -> w t1 = w t2 /\ d t1 = dd /\ d t2 = dd)
    end.
Proof. exact c20_refit. Qed.
Print Assumptions c20_refit_replaces.

Theorem c20_reset_forgets :
  forall c size o s g parg narg s0 g0, memoryless c -> positive_size size -> new_ws c parg narg o = Ok (s0, g0) -> wn s = wn s0 ->
    match bind wm_reset (fun _ => wm_random c size) o s g, wm_random c size o s0 g with
    | (r1, t1, g1), (r2, t2, g2) =>
        r1 = r2 /\ g1 = g2 /\ (is_ok r1 = true -> w t1 = w t2 /\ d t1 = [] /\ d t2 = [])
    end.
Proof. exact c20_reset. Qed.
Print Assumptions c20_reset_forgets.

(* two BetaInDirichlet objects, both fitted with [0, 1, 2] last *)
Theorem c20_beta_in_dirichlet_refuted :
  exists o t1 t2 dd, valid_oracle o /\
    t1 = fst (run_ops (CBID 1 1) [OpFit dd] o (ws_init 0 0) []) /\
    t2 = fst (run_ops (CBID 1 1) [OpRandom (SInt 3); OpReset; OpFit dd] o (ws_init 0 0) []) /\
    is_ok (fst (fst (wm_random (CBID 1 1) SNone o t1 []))) = true /\
    is_ok (fst (fst (wm_random (CBID 1 1) SNone o t2 []))) = true /\
    snd (wm_random (CBID 1 1) SNone o t1 []) <> snd (wm_random (CBID 1 1) SNone o t2 []).
Proof.
  exists (last_oracle (1 # 2)). eexists. eexists. exists [0; 1; 2]%nat. split; [apply last_oracle_valid; lra|].
  split; [reflexivity|]. split; [reflexivity|]. split; [vm_compute; reflexivity|]. split; [vm_compute; reflexivity|].
  vm_compute. discriminate.
Qed.
Print Assumptions c20_beta_in_dirichlet_refuted.

Example c20_nontrivial :
  let o := const_oracle (1 # 2) in
  let s := fst (run_ops (CBBin 2 1) [OpFit [3; 0]%nat; OpRandom SNone; OpComplete (SInt 7)] o (ws_init 0 0) []) in
  memoryless (CBBin 2 1) /\ length (w s) = 7%nat /\
  wm_random (CBBin 2 1) SNone o (set_d [0; 1]%nat s) [] =
  wm_random (CBBin 2 1) SNone o (set_d [0; 1]%nat (ws_init 0 0)) [].
Proof. vm_compute. repeat split. Qed.
