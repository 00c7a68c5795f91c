(* Property theorems C08-C12: the posterior draws requested by random(). *)
From Coq Require Import Lqa.
From Verif Require Import Prelude Numpy Rng M_Weights S_Weights S_Hist S_Draws S_Oracle P_Post.
Open Scope Q_scope.

(* C08 *)
Theorem c08_dp_random_fitted :
  forall alpha o s g, d s <> [] -> 0 < alpha ->
    ends_with (wm_random (CDP alpha) SNone o s g) (drawn s (map (dp_post alpha (d s)) (labels (d s))) o g).
Proof. exact c08_none. Qed.
Print Assumptions c08_dp_random_fitted.

Theorem c08_dp_random_size_fitted :
  forall alpha k o s g, d s <> [] -> 0 < alpha -> (0 < k)%nat ->
    ends_with (wm_random (CDP alpha) (SInt (Z.of_nat k)) o s g)
      (drawn s (map (dp_post alpha (d s)) (seq 0 (Nat.min k (S (list_max (d s))))) ++
                repeat (rbeta 1 alpha) (k - S (list_max (d s)))) o g).
Proof. exact c08_some. Qed.
Print Assumptions c08_dp_random_size_fitted.

Theorem c08_dp_random_prior :
  forall alpha k o s g, d s = [] -> 0 < alpha -> (0 < k)%nat ->
    ends_with (wm_random (CDP alpha) (SInt (Z.of_nat k)) o s g) (drawn s (repeat (rbeta 1 alpha) k) o g).
Proof. exact c08_prior. Qed.
Print Assumptions c08_dp_random_prior.

Example c08_nontrivial :
  let s := set_d [0; 2; 2]%nat (ws_init 0 0) in
  map (dp_post (1 # 2) (d s)) (labels (d s)) = [RBeta 2 (5 # 2); RBeta 1 (5 # 2); RBeta 3 (1 # 2)] /\
  snd (wm_random (CDP (1 # 2)) (SInt 4) (const_oracle (1 # 2)) s []) =
    [RBeta 2 (5 # 2); RBeta 1 (5 # 2); RBeta 3 (1 # 2); RBeta 1 (1 # 2)] /\
  snd (wm_random (CDP (1 # 2)) (SInt 2) (const_oracle (1 # 2)) s []) = [RBeta 2 (5 # 2); RBeta 1 (5 # 2)].
Proof. vm_compute. repeat split. Qed.

(* C09 *)
Theorem c09_py_random_fitted :
  forall pyd alpha o s g, d s <> [] -> py_ok pyd alpha ->
    ends_with (wm_random (CPY pyd alpha) SNone o s g)
      (drawn s (map (py_post pyd alpha (d s)) (labels (d s))) o g).
Proof. exact c09_none. Qed.
Print Assumptions c09_py_random_fitted.

Theorem c09_py_random_size_fitted :
  forall pyd alpha k o s g, d s <> [] -> py_ok pyd alpha -> (0 < k)%nat ->
    ends_with (wm_random (CPY pyd alpha) (SInt (Z.of_nat k)) o s g)
      (drawn s (map (py_post pyd alpha (d s)) (seq 0 (Nat.min k (S (list_max (d s))))) ++
                map (py_prior pyd alpha) (seq (S (list_max (d s))) (k - S (list_max (d s))))) o g).
Proof. exact c09_some. Qed.
Print Assumptions c09_py_random_size_fitted.

Theorem c09_py_random_prior :
  forall pyd alpha k o s g, d s = [] -> py_ok pyd alpha -> (0 < k)%nat ->
    ends_with (wm_random (CPY pyd alpha) (SInt (Z.of_nat k)) o s g)
      (drawn s (map (py_prior pyd alpha) (seq 0 k)) o g).
Proof. exact c09_prior. Qed.
Print Assumptions c09_py_random_prior.

Theorem c09_py_complete_absolute_index :
  forall pyd alpha k o s g, py_ok pyd alpha ->
    ends_with (wm_complete (CPY pyd alpha) (SInt (Z.of_nat k)) o s g) (fun r s' g' =>
      let rs := map (py_prior pyd alpha) (seq (length (w s)) (k - length (w s))) in
      is_ok r = true /\ g' = g ++ rs /\ v s' = v s ++ beta_answers o g rs /\ d s' = d s /\
      if (length (w s) <? k)%nat then stick_image (v s') (w s') else w s' = w s).
Proof. exact c09_complete. Qed.
Print Assumptions c09_py_complete_absolute_index.

Theorem c09_py_bad_alpha_raises :
  forall pyd alpha k o s0 g0, alpha <= 0 -> new_ws (CPY pyd alpha) 0 0 o = Ok (s0, g0) -> (0 < k)%nat ->
    wm_random (CPY pyd alpha) (SInt (Z.of_nat k)) o s0 g0 = (Err ValueError, s0, g0).
Proof. exact c09_raises. Qed.
Print Assumptions c09_py_bad_alpha_raises.

Example c09_nontrivial :
  let s := set_d [0; 2; 2]%nat (ws_init 0 0) in
  py_ok (1 # 4) (1 # 2) /\
  snd (wm_random (CPY (1 # 4) (1 # 2)) (SInt 4) (const_oracle (1 # 2)) s []) =
    [RBeta (7 # 4) (5 # 2); RBeta (3 # 4) (11 # 4); RBeta (11 # 4) 1; RBeta (3 # 4) (5 # 4)] /\
  new_ws (CPY (1 # 2) (- (1 # 4))) 0 0 (const_oracle 1) = Ok (ws_init 0 0, []).
Proof. unfold py_ok. split; [repeat split; (discriminate || reflexivity)|]. vm_compute. split; reflexivity. Qed.

(* C10 *)
Theorem c10_geometric_random :
  forall a b size n o s g, 0 < a -> 0 < b -> (0 < n)%nat ->
    (size = SNone /\ d s <> [] /\ n = S (list_max (d s)) \/ size = SInt (Z.of_nat n)) ->
    ends_with (wm_random (CGeom a b) size o s g) (geom_drawn a b s n o g).
Proof. exact c10_gen. Qed.
Print Assumptions c10_geometric_random.

Example c10_nontrivial :
  let s := set_d [0; 2; 2]%nat (ws_init 0 0) in
  let r := wm_random (CGeom 1 (1 # 2)) SNone (const_oracle (1 # 3)) s [] in
  snd r = [RBeta 4 (9 # 2)] /\ map Qred (w (snd (fst r))) = [1 # 3; 2 # 9; 4 # 27].
Proof. vm_compute. split; reflexivity. Qed.

(* C11 *)
Theorem c11_dirichlet_random :
  forall n alpha size o s g, d s <> [] -> Forall (fun x => 0 < x) alpha -> (list_max (d s) < length alpha)%nat ->
    let post := map Qred (map (fun j => nth j alpha 0 + nq (n_eq j (d s))) (seq 0 (length alpha))) in
    wm_random (CDirDist n alpha) size o s g =
      (Ok (o_dirichlet o g post), set_w (o_dirichlet o g post) s, g ++ [RDirichlet post]).
Proof. exact c11_proof. Qed.
Print Assumptions c11_dirichlet_random.

Theorem c11_dirichlet_random_prior :
  forall n alpha size o s g, d s = [] -> Forall (fun x => 0 < x) alpha ->
    wm_random (CDirDist n alpha) size o s g =
      (Ok (o_dirichlet o g (map Qred alpha)), set_w (o_dirichlet o g (map Qred alpha)) s, g ++ [RDirichlet (map Qred alpha)]).
Proof. exact c11_prior_proof. Qed.
Print Assumptions c11_dirichlet_random_prior.

Theorem c11_label_out_of_range_raises :
  forall n alpha size o s g, (length alpha <= list_max (d s))%nat -> d s <> [] ->
    wm_random (CDirDist n alpha) size o s g = (Err ValueError, s, g).
Proof. exact c11_raises_proof. Qed.
Print Assumptions c11_label_out_of_range_raises.

Example c11_nontrivial :
  let s := set_d [0; 2; 2]%nat (ws_init 0 0) in
  (list_max (d s) < length [1 # 2; 1; 1 # 3; 2]%Q)%nat /\
  snd (wm_random (CDirDist 4 [1 # 2; 1; 1 # 3; 2]) SNone (const_oracle (1 # 3)) s []) =
    [RDirichlet [3 # 2; 1; 7 # 3; 2]].
Proof. vm_compute. split; [repeat constructor|reflexivity]. Qed.

(* C12 *)
Theorem c12_betabinomial_random_fitted :
  forall n alpha size k o s g, valid_oracle o -> (0 <= n)%Z -> 0 < alpha -> d s <> [] ->
    (size = SNone /\ k = 1%nat \/ size = SInt (Z.of_nat k)) ->
    ends_with (wm_random (CBBin n alpha) size o s g) (bbin_drawn n alpha s k o g).
Proof. exact c12_gen. Qed.
Print Assumptions c12_betabinomial_random_fitted.

Theorem c12_betabinomial_random_prior :
  forall n alpha k o s g, valid_oracle o -> (0 <= n)%Z -> 0 < alpha -> d s = [] -> (0 < k)%nat ->
    let r0 := rbeta 1 alpha in
    let c := bbin_chain o n alpha k (g ++ [r0]) (o_beta o g (Qred 1) (Qred alpha)) in
    ends_with (wm_random (CBBin n alpha) (SInt (Z.of_nat k)) o s g) (fun r s' g' =>
      r = Ok (w s') /\ g' = g ++ r0 :: fst c /\ v s' = snd c /\ stick_image (v s') (w s') /\ d s' = d s).
Proof. exact c12_prior_gen. Qed.
Print Assumptions c12_betabinomial_random_prior.

Example c12_nontrivial :
  let s := set_d [0; 1; 1]%nat (ws_init 0 0) in
  snd (wm_random (CBBin 3 (1 # 2)) (SInt 3) (const_oracle 1) s []) =
    [RBeta 1 (1 # 2); RBeta 2 (5 # 2); RBeta 3 (1 # 2);
     RBinom 3 1; RBinom 3 1; RBinom 3 1;
     RBeta 8 (5 # 2); RBeta 9 (1 # 2);
     RBinom 3 1; RBeta 4 (1 # 2)].
Proof. vm_compute. reflexivity. Qed.
