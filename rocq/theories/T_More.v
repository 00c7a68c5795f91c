(* BetaInBeta for 0 < x < 1 and BetaBernoulli for any p: theorems. *)
From Verif Require Import Prelude Numpy Rng M_Weights S_Weights S_Hist S_Draws S_Oracle S_More P_More.
Open Scope Q_scope.

(* ---- C62 ---- *)

Theorem c62_fitted_random :
  forall x al a b pm size k o s g,
  valid_oracle o -> 0 < x -> x < 1 -> 0 < al -> 0 < a -> 0 < b ->
  d s <> [] -> closed_method pm -> 0 <= p s <= 1 -> (0 < k)%nat ->
  (size = SNone /\ k = S (list_max (d s)) \/ size = SInt (Z.of_nat k)) ->
  ends_with (wm_random (CBIB x al a b pm) size o s g) (fun r s' g' =>
    let rp := p_requests pm a b (d s) in
    let p1 := p_after o g rp (p s) in
    let post := map (bib_post x al p1 (d s)) (firstn k (labels (d s))) in
    let g1 := g ++ rp ++ post in
    let p2 := p_after o g1 rp p1 in
    let new := repeat (bib_prior x al p2) (k - S (list_max (d s))) in
    r = Ok (w s') /\ g' = g1 ++ rp ++ new /\
    v s' = beta_answers o (g ++ rp) post ++ beta_answers o (g1 ++ rp) new /\
    p s' = p2 /\ stick_image (v s') (w s')).
Proof. exact c62_fitted_proof. Qed.
Print Assumptions c62_fitted_random.

Theorem c62_prior_random :
  forall x al a b pm k o s g,
  0 < x -> x < 1 -> 0 < al -> d s = [] -> 0 <= p s <= 1 -> (0 < k)%nat ->
  ends_with (wm_random (CBIB x al a b pm) (SInt (Z.of_nat k)) o s g) (fun r s' g' =>
    drawn s (repeat (bib_prior x al (p s)) k) o g r s' g' /\ p s' = p s).
Proof. exact c62_prior_proof. Qed.
Print Assumptions c62_prior_random.

Theorem c62_complete_new_p :
  forall x al a b pm k o s g,
  valid_oracle o -> 0 < x -> x < 1 -> 0 < al -> 0 < a -> 0 < b -> d s = [] -> v s <> [] -> (length (v s) < k)%nat ->
  ends_with (wm_complete (CBIB x al a b pm) (SInt (Z.of_nat k)) o s g) (fun r s' g' =>
    let rq := rbeta a b in
    let new := repeat (bib_prior x al (p s')) (k - length (v s)) in
    r = Ok (Some (w s')) /\ beta_answers o g [rq] = [p s'] /\ g' = g ++ rq :: new /\
    v s' = v s ++ beta_answers o (g ++ [rq]) new /\ stick_image (v s') (w s')).
Proof. exact c62_complete_proof. Qed.
Print Assumptions c62_complete_new_p.

Example c62_nontrivial : let s := set_d [0; 1; 0]%nat (ws_init (1 # 2) 0) in
  valid_oracle (const_oracle (1 # 3)) /\ d s <> [] /\ closed_method PGeometric /\ 0 <= p s <= 1 /\
  exists x s' g', wm_random (CBIB (1 # 2) 1 1 1 PGeometric) (SInt 3) (const_oracle (1 # 3)) s [] = (Ok x, s', g') /\
    map (fun r => match r with RBeta a b => (a, b) | _ => (0, 0) end) g' = [(4, 2); (10 # 3, 8 # 3); (7 # 3, 5 # 3); (4, 2); (4 # 3, 5 # 3)].
Proof.
  split; [apply const_oracle_valid; split; discriminate|]. split; [discriminate|]. split; [right; right; reflexivity|]. split; [split; discriminate|].
  eexists _, _, _. split; [vm_compute; reflexivity|vm_compute; reflexivity].
Qed.

(* ---- C63 ---- *)

Theorem c63_complete_chain :
  forall q al k o s g,
  valid_oracle o -> 0 <= q <= 1 -> 0 < al -> v s <> [] -> (length (v s) < k)%nat ->
  let m := (k - length (v s))%nat in
  let r1 := repeat (rbinom 1 q) m in
  let ms := binom_answers o g r1 in
  let r2 := repeat (rbeta 1 al) (ones ms) in
  ends_with (wm_complete (CBB q al) (SInt (Z.of_nat k)) o s g) (fun r s' g' =>
    r = Ok (Some (w s')) /\ g' = g ++ r1 ++ r2 /\
    v s' = v s ++ chain_sticks (last (v s) 0) (beta_answers o (g ++ r1) r2) ms /\
    bern s' = bern s ++ map Z.to_nat ms /\ stick_image (v s') (w s')).
Proof. exact c63_complete_proof. Qed.
Print Assumptions c63_complete_chain.

Theorem c63_prior_chain :
  forall q al k o s g,
  valid_oracle o -> 0 <= q <= 1 -> 0 < al -> d s = [] -> bern s <> [] -> (0 < k)%nat ->
  let r1 := repeat (rbinom 1 q) k in
  let ms := binom_answers o g r1 in
  let r2 := repeat (rbeta 1 al) (S (ones ms)) in
  ends_with (wm_random (CBB q al) (SInt (Z.of_nat k)) o s g) (fun r s' g' =>
    r = Ok (w s') /\ g' = g ++ r1 ++ r2 /\
    (exists x fresh, beta_answers o (g ++ r1) r2 = x :: fresh /\ v s' = chain_sticks x fresh ms) /\
    bern s' = map Z.to_nat ms /\ stick_image (v s') (w s')).
Proof. exact c63_prior_proof. Qed.
Print Assumptions c63_prior_chain.

Example c63_nontrivial : let s := set_v [1 # 2; 1 # 3] (ws_init 0 0) in
  valid_oracle (const_oracle (1 # 3)) /\ v s <> [] /\ (length (v s) < 4)%nat /\ bern (ws_init 0 0) <> [].
Proof. split; [apply const_oracle_valid; split; discriminate|]. split; [discriminate|]. split; [cbn; lia|discriminate]. Qed.
Example c63_chain : chain_sticks (1 # 2) [1 # 3; 1 # 5] [0; 1; 0; 1]%Z = [1 # 2; 1 # 3; 1 # 3; 1 # 5].
Proof. reflexivity. Qed.
