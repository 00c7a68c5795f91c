(* Property theorems C100: the prior of BetaInDirichlet is an urn. *)
From Coq Require Import Reals Qreals Lqa Permutation.
From Verif Require Import Prelude Numpy Rng M_Ext M_Weights M_Loglik M_Sample S_Weights S_Hist S_Draws S_Oracle S_Sample S_Var S_Urn P_Var31 P_Urn P_UrnLaw P_UrnLik P_UrnEppf.
Open Scope Q_scope.

Theorem c100_prior_is_an_urn :
  forall al a n o s g, valid_oracle o -> 0 < al -> 0 <= a -> d s = [] ->
  exists ps s' g', wm_random (CBID al a) (SInt (Z.of_nat n)) o s g = (Ok (w s'), s', g') /\ d s' = [] /\
    urn_extends al a (beta_answers o g [rbeta 1 al]) [] (dbase s) [0%nat] n o (g ++ [rbeta 1 al]) s' g' ps.
Proof. exact c100_prior_proof. Qed.
Print Assumptions c100_prior_is_an_urn.

Theorem c100_complete_continues_the_urn :
  forall al a size z seen o s g, valid_oracle o -> 0 < al -> 0 <= a -> seen <> [] -> urn_state seen s -> size_val size = Some z ->
  exists ps s' g', wm_complete (CBID al a) size o s g = (Ok None, s', g') /\ d s' = d s /\
    urn_extends al a (vbase s) (v s) (dbase s) seen (Z.to_nat (z - Z.of_nat (length (v s)))) o g s' g' ps.
Proof. exact c100_complete_proof. Qed.
Print Assumptions c100_complete_continues_the_urn.

Theorem c100_fitted_draw_has_seen_its_labels :
  forall al a size o s g r s' g', valid_oracle o -> d s <> [] -> wm_random (CBID al a) size o s g = (Ok r, s', g') ->
  urn_state (dbase s') s' /\ length (dbase s') = S (list_max (d s)).
Proof. exact c100_fitted_proof. Qed.
Print Assumptions c100_fitted_draw_has_seen_its_labels.

Theorem c100_chance_of_the_labels :
  forall al a base sticks labs seen n o g s' g' ps, Forall (fun j => (j < length base)%nat) seen ->
  urn_extends al a base sticks labs seen n o g s' g' ps ->
  chance o g (urn_requests al a (length base) seen ps) == urn_chance a (length base) seen ps.
Proof. exact c100_chance_proof. Qed.
Print Assumptions c100_chance_of_the_labels.

Theorem c100_law_of_the_ties :
  forall a t, 0 < a -> pattern t ->
  exists evs, NoDup evs /\ (forall ps, In ps evs <-> picks 1 ps /\ same_ties ps t) /\
    qsum (map (urn_chance a 1 [0%nat]) evs) == urn_chance a 0 [] t.
Proof. exact c100_ties_proof. Qed.
Print Assumptions c100_law_of_the_ties.

Theorem c100_law_is_the_eppf :
  forall lg a t, log_gamma_like lg -> 0 < a -> pattern t ->
  exp (dirichlet_log_eppf lg (Q2R a) (block_sizes t)) = Q2R (urn_chance a 0 [] t).
Proof. exact c100_eppf_proof. Qed.
Print Assumptions c100_law_is_the_eppf.

Theorem c100_likelihood_terms :
  forall al a s base ps,
  v s = map (fun p => nth p base 0) ps -> Forall (fun p => (p < length base)%nat) ps ->
  (forall i j, (i < length base)%nat -> (j < length base)%nat -> nth i base 0 == nth j base 0 -> i = j) ->
  exists us t, NoDup us /\ (forall j, In j us <-> In j ps) /\ pattern t /\ same_ties ps t /\
    Permutation (map (fun j => n_eq j ps) us) (block_sizes t) /\
    wm_weight_ll (CBID al a) s = Ok (map (fun j => TBeta (Some (nth j base 0)) 1 al) us ++ [TEppf a (map (fun j => n_eq j ps) us)]).
Proof. exact c100_likelihood_proof. Qed.
Print Assumptions c100_likelihood_terms.

(* three sticks of an unfitted object: the generator opens a base, then repeats
   the last one, ...; the first base stick stays unused *)
Example c100_ex_prior :
  let r := wm_random (CBID 2 (1 # 2)) (SInt 3) (last_oracle (1 # 3)) (ws_init 0 0) [] in
  snd r = [RBeta 1 2; RChoice [1; 1 # 2]; RBeta 1 2; RChoice [1; 1; 1 # 2]; RBeta 1 2; RChoice [1; 1; 1; 1 # 2]; RBeta 1 2] /\
  snd r = RBeta 1 2 :: urn_requests 2 (1 # 2) 1 [0%nat] [1; 2; 3]%nat /\ dbase (snd (fst r)) = [1; 2; 3]%nat /\ cbase (snd (fst r)) = [1; 1; 1; 1]%nat.
Proof. vm_compute. repeat split. Qed.
Example c100_ex_repeat :
  let r := wm_random (CBID 2 (1 # 2)) (SInt 2) (const_oracle (1 # 3)) (ws_init 0 0) [] in
  snd r = [RBeta 1 2; RChoice [1; 1 # 2]; RChoice [2; 1 # 2]] /\ urn_state [0; 0; 0]%nat (snd (fst r)) /\
  urn_chance (1 # 2) 1 [0%nat] [0; 0]%nat == (1 / (3 # 2)) * (2 / (5 # 2)).
Proof. split; [vm_compute; reflexivity|]. split; [split; [vm_compute; reflexivity|repeat constructor]|vm_compute; reflexivity]. Qed.
Example c100_ex_oracles : valid_oracle (last_oracle (1 # 3)) /\ valid_oracle (const_oracle (1 # 3)).
Proof. split; [apply last_oracle_valid; lra|apply const_oracle_valid; lra]. Qed.
(* the pattern x, y, x: three label lists; blocks of sizes 2 and 1 *)
Example c100_ex_ties :
  pattern [0; 1; 0]%nat /\ block_sizes [0; 1; 0]%nat = [2; 1]%nat /\
  Forall (fun ps => picks 1 ps /\ same_ties ps [0; 1; 0]%nat) [[1; 2; 1]; [0; 1; 0]; [1; 0; 1]]%nat /\
  urn_chance 1 0 [] [0; 1; 0]%nat == 1 # 6 /\
  qsum (map (urn_chance 1 1 [0%nat]) [[1; 2; 1]; [0; 1; 0]; [1; 0; 1]]%nat) == 1 # 6.
Proof.
  split; [vm_compute; repeat split; lia|]. split; [reflexivity|]. split; [|split; vm_compute; reflexivity].
  assert (X : forall x y z : nat, x = z -> x <> y -> same_ties [x; y; z] [0; 1; 0]%nat).
  { intros x y z -> N. split; [reflexivity|]. intros [|[|[|i]]] [|[|[|j]]] Hi Hj; simpl in *; try lia; split; intros; congruence. }
  constructor; [|constructor; [|constructor; [|constructor]]]; (split; [vm_compute; repeat split; lia|apply X; [reflexivity|discriminate]]).
Qed.
Example c100_ex_gamma : exists lg, log_gamma_like lg. Proof. apply log_gamma_exists. Qed.
Example c100_ex_likelihood :
  let s := set_v [1 # 2; 1 # 3; 1 # 2] (ws_init 0 0) in
  v s = map (fun p => nth p [1 # 4; 1 # 3; 1 # 2] 0) [2; 1; 2]%nat /\
  wm_weight_ll (CBID 1 2) s = Ok [TBeta (Some (1 # 3)) 1 1; TBeta (Some (1 # 2)) 1 1; TEppf 2 [1; 2]%nat] /\
  (forall i j, (i < 3)%nat -> (j < 3)%nat -> nth i [1 # 4; 1 # 3; 1 # 2] 0 == nth j [1 # 4; 1 # 3; 1 # 2] 0 -> i = j).
Proof.
  split; [reflexivity|]. split; [vm_compute; reflexivity|].
  intros [|[|[|i]]] [|[|[|j]]] Hi Hj E; try lia; vm_compute in E; discriminate.
Qed.
