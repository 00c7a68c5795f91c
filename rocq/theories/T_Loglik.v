(* C23, C24, C59, C60: the log-likelihoods of the weight models. *)
From Coq Require Import Reals Qreals.
From Verif Require Import Prelude Numpy Rng M_Weights M_Loglik S_Weights S_Hist S_Draws S_Oracle S_Loglik P_Loglik.
Open Scope Q_scope.

(* ---- C23 ---- *)
Theorem c23_value :
  forall c parg narg o s0 g0 ops dd s g, valid_oracle o ->
    (forall x al a b pm, c = CBIB x al a b pm -> in01 parg) ->
    new_ws c parg narg o = Ok (s0, g0) -> run_ops c ops o s0 g0 = (s, g) ->
    ends_with (wm_assign_ll c dd o s g) (fun r s' g' => forall x, r = Ok x ->
      which dd s <> [] /\ Forall (fun i => (i < length (w s'))%nat) (which dd s) /\
      ll_value x (w s') (which dd s)).
Proof. exact c23_value_proof. Qed.
Print Assumptions c23_value.

Theorem c23_growing_no_index_error :
  forall c o s g dd, stick_breaking c -> reached c o s g ->
    (forall q al, c = CBB q al -> w s = [] -> (0 < list_max (which dd s))%nat) ->
    ends_with (wm_assign_ll c dd o s g) (fun r s' g' => r <> Err IndexError /\ r <> Diverge /\
      (forall x, r = Ok x -> extends (w s) (w s') /\
         length (w s') = Nat.max (length (w s)) (S (list_max (which dd s))) /\ d s' = d s)).
Proof. exact c23_noindex_proof. Qed.
Print Assumptions c23_growing_no_index_error.

(* a fresh BetaBernoulli asked for the labels [0] *)
Theorem c23_beta_bernoulli_fresh_refuted :
  exists c o s g dd, stick_breaking c /\ valid_oracle o /\ reached c o s g /\
    fst (fst (wm_assign_ll c dd o s g)) = Err IndexError.
Proof.
  exists (CBB (1 # 2) 1), (const_oracle (1 # 2)), (ws_init 0 0), [], (Some [0%nat]).
  split; [exact I|]. split; [apply const_oracle_valid; split; discriminate|]. split; [|reflexivity].
  exists 0, 0%Z, [], (ws_init 0 0), []. split; [discriminate|]. repeat split. constructor.
Qed.
Print Assumptions c23_beta_bernoulli_fresh_refuted.

Theorem c23_fixed_size :
  forall c o s g dd, valid_oracle o -> fixed_ok c -> reached c o s g ->
    ends_with (wm_assign_ll c dd o s g) (fun r s' g' =>
      (r = Err IndexError -> (random_length c (wn s) (d s) SNone <= list_max (which dd s))%nat) /\
      (is_ok r = true -> (list_max (which dd s) < random_length c (wn s) (d s) SNone)%nat)).
Proof. exact c23_fixed_proof. Qed.
Print Assumptions c23_fixed_size.

(* labels 0, 1, 1 on two reached weights 1/3, 2/9 *)
Example c23_nontrivial :
  exists y s' g', wm_assign_ll (CPY (1 # 2) 1) (Some [0; 1; 1]%nat) (const_oracle (1 # 3))
    (set_w [1 # 3; 2 # 9] (set_v [1 # 3; 1 # 3] (ws_init 0 0)))
    [RBeta (1 # 2) 1; RBeta (1 # 2) (3 # 2)] = (Ok (Fin y), s', g').
Proof. eexists _, _, _. cbv -[ln Q2R Rplus IZR]. reflexivity. Qed.

(* a zero weight gives -inf *)
Example c23_zero_weight :
  exists s' g', wm_assign_ll (CDP 1) (Some [1%nat]) (const_oracle 1) (ws_init 0 0) [] = (Ok NegInf, s', g').
Proof. eexists _, _. cbv -[ln Q2R Rplus IZR]. reflexivity. Qed.

(* ---- C24 ---- *)
Theorem c24_dp_sticks_recovered :
  forall al o s g, reached (CDP al) o s g -> w s <> [] -> open_sticks (v s) ->
    exists v', Forall2 Qeq v' (v s) /\ wm_weight_ll (CDP al) s = Ok (map (fun x => TBeta (Some x) 1 al) v').
Proof. exact c24_dp_proof. Qed.
Print Assumptions c24_dp_sticks_recovered.

Theorem c24_py_sticks_recovered :
  forall pyd al o s g, reached (CPY pyd al) o s g -> w s <> [] -> open_sticks (v s) ->
    exists v', Forall2 Qeq v' (v s) /\ wm_weight_ll (CPY pyd al) s =
      Ok (map (fun j => TBeta (Some (nth j v' 0)) (1 - pyd) (al + nq j * pyd)) (seq 0 (length (v s)))).
Proof. exact c24_py_proof. Qed.
Print Assumptions c24_py_sticks_recovered.

Theorem c24_bib_sticks_recovered :
  forall x al a b pm o s g, ~ x == 1 -> reached (CBIB x al a b pm) o s g -> w s <> [] -> open_sticks (v s) ->
    exists v', Forall2 Qeq v' (v s) /\ wm_weight_ll (CBIB x al a b pm) s =
      Ok (map (fun y => TBeta (Some y) (1 + x / (1 - x) * p s) (al + x / (1 - x) * (1 - p s))) v' ++ [TBeta (Some (p s)) a b]).
Proof. exact c24_bib_proof. Qed.
Print Assumptions c24_bib_sticks_recovered.

(* a stick equal to 1 before the last one: the reconstructed sticks contain NaN *)
Theorem c24_dp_stick_one_gives_nan :
  forall al o s g, reached (CDP al) o s g -> ~ open_sticks (v s) ->
    exists l, wm_weight_ll (CDP al) s = Ok l /\ In (TBeta None 1 al) l.
Proof. exact c24_nan_proof. Qed.
Print Assumptions c24_dp_stick_one_gives_nan.

Theorem c24_no_weights_index_error :
  forall c s, (exists al, c = CDP al) \/ (exists pyd al, c = CPY pyd al) \/ (exists x al a b pm, c = CBIB x al a b pm) ->
    w s = [] -> wm_weight_ll c s = Err IndexError.
Proof. exact c24_empty_proof. Qed.
Print Assumptions c24_no_weights_index_error.

Example c24_nontrivial :
  let s := set_w [1 # 3; 2 # 9] (set_v [1 # 3; 1 # 3] (ws_init 0 0)) in
  reached (CPY (1 # 2) 1) (const_oracle (1 # 3)) s [RBeta (1 # 2) 1; RBeta (1 # 2) (3 # 2)] /\
  w s <> [] /\ open_sticks (v s).
Proof.
  split; [|split; [discriminate|]].
  - exists 0, 0%Z, [OpRandom (SInt 2)], (ws_init 0 0), [].
    split; [discriminate|]. split; [reflexivity|]. split; [repeat constructor|]. vm_compute. reflexivity.
  - constructor; [discriminate|constructor].
Qed.
Example c24_nan_nontrivial :
  let s := set_w [1; 0] (set_v [1; 1] (ws_init 0 0)) in
  reached (CDP 1) (const_oracle 1) s [RBeta 1 1; RBeta 1 1] /\ ~ open_sticks (v s).
Proof.
  split.
  - exists 0, 0%Z, [OpRandom (SInt 2)], (ws_init 0 0), [].
    split; [discriminate|]. split; [reflexivity|]. split; [repeat constructor|]. vm_compute. reflexivity.
  - intros H. inversion H; subst. apply H2. reflexivity.
Qed.

(* ---- C59 ---- *)
Theorem c59_betabinomial_terms :
  forall n al o s g, reached (CBBin n al) o s g -> w s <> [] ->
    exists b bs, binoms s = b :: bs /\ wm_weight_ll (CBBin n al) s =
      Ok (TBetaBinom b n 1 al :: chain_terms n al (if (length (v s) <=? 1)%nat then v s else tl (v s)) (binoms s)).
Proof. exact c59_value_proof. Qed.
Print Assumptions c59_betabinomial_terms.

Theorem c59_first_stick_ignored :
  forall n al s x y t, t <> [] ->
    wm_weight_ll (CBBin n al) (set_v (x :: t) s) = wm_weight_ll (CBBin n al) (set_v (y :: t) s).
Proof. exact c59_ignored_proof. Qed.
Print Assumptions c59_first_stick_ignored.

(* so it is not the log-density of the chain *)
Theorem c59_chain_density_refuted :
  exists n al o s g b bs, valid_oracle o /\ reached (CBBin n al) o s g /\ w s <> [] /\ binoms s = b :: bs /\
    wm_weight_ll (CBBin n al) s <> Ok (TBetaBinom b n 1 al :: chain_terms n al (v s) (binoms s)).
Proof.
  destruct (wm_random (CBBin 2 1) (SInt 2) (const_oracle (1 # 3)) (ws_init 0 0) []) as [[r s] g] eqn:E.
  exists 2%Z, 1, (const_oracle (1 # 3)), s, g. vm_compute in E. injection E as <- <- <-.
  eexists _, _. split; [apply const_oracle_valid; split; discriminate|]. split.
  - exists 0, 0%Z, [OpRandom (SInt 2)], (ws_init 0 0), [].
    split; [discriminate|]. split; [reflexivity|]. split; [repeat constructor|]. vm_compute. reflexivity.
  - split; [discriminate|]. split; [reflexivity|]. vm_compute. discriminate.
Qed.
Print Assumptions c59_chain_density_refuted.

(* ---- C60 ---- *)
Theorem c60_betabernoulli_terms :
  forall q al o s g, ~ q == 0 -> reached (CBB q al) o s g -> w s <> [] ->
    exists x t, v s = x :: t /\ length (bern s) = length (v s) /\
      wm_weight_ll (CBB q al) s = Ok (map (fun b => TLog b q) (bern s) ++
        TBeta (Some x) 1 al :: map (fun y => TBeta (Some y) 1 al) (copied_sticks (v s) (bern s))).
Proof. exact c60_value_proof. Qed.
Print Assumptions c60_betabernoulli_terms.

(* the sticks drawn anew are not the ones whose density is added *)
Theorem c60_new_sticks_refuted :
  exists q al o s g, valid_oracle o /\ ~ q == 0 /\ reached (CBB q al) o s g /\ w s <> [] /\
    wm_weight_ll (CBB q al) s <> Ok (map (fun b => TLog b q) (bern s) ++
      map (fun y => TBeta (Some y) 1 al) (new_sticks (v s) (bern s))).
Proof.
  destruct (wm_random (CBB 1 1) (SInt 2) (const_oracle (1 # 3)) (ws_init 0 0) []) as [[r s] g] eqn:E.
  exists 1, 1, (const_oracle (1 # 3)), s, g. vm_compute in E. injection E as <- <- <-.
  split; [apply const_oracle_valid; split; discriminate|]. split; [discriminate|]. split.
  - exists 0, 0%Z, [OpRandom (SInt 2)], (ws_init 0 0), [].
    split; [discriminate|]. split; [reflexivity|]. split; [repeat constructor|]. vm_compute. reflexivity.
  - split; [discriminate|]. vm_compute. discriminate.
Qed.
Print Assumptions c60_new_sticks_refuted.
