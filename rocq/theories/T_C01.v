(* C01: weights are always a sub-probability vector. *)
From Verif Require Import Prelude Numpy Rng M_Weights S_Weights S_Oracle P_Inv.
Open Scope Q_scope.

(* Any class, any parameters, any generator, any history of calls (exceptions
   caught by the caller, state kept as left by the exception). *)
Theorem c01_weights_subprob :
  forall c parg narg o s0 g0 ops,
    valid_oracle o ->
    (forall x al a b pm, c = CBIB x al a b pm -> in01 parg) ->
    new_ws c parg narg o = Ok (s0, g0) ->
    subprob (w (fst (run_ops c ops o s0 g0))).
Proof. exact c01_proof. Qed.
Print Assumptions c01_weights_subprob.

(* the restriction on BetaInBeta's argument is needed *)
Theorem c01_bib_p_out_of_range_refuted :
  exists o s0 g0 ops, valid_oracle o /\
    new_ws (CBIB 1 1 1 1 PStatic) 2 0 o = Ok (s0, g0) /\
    ~ subprob (w (fst (run_ops (CBIB 1 1 1 1 PStatic) ops o s0 g0))).
Proof. exact c01_bib_witness. Qed.
Print Assumptions c01_bib_p_out_of_range_refuted.

Example c01_nontrivial :
  valid_oracle (const_oracle (1 # 2)) /\
  new_ws (CDP 1) 0 0 (const_oracle (1 # 2)) = Ok (ws_init 0 0, []) /\
  map Qred (w (fst (run_ops (CDP 1) [OpFit [0; 2]%nat; OpRandom SNone; OpTail 9 (15 # 16)]
        (const_oracle (1 # 2)) (ws_init 0 0) []))) = [1 # 2; 1 # 4; 1 # 8; 1 # 16].
Proof.
  split; [apply const_oracle_valid; split; discriminate|]. split; [reflexivity|]. vm_compute. reflexivity.
Qed.
