(* A fitted two-dimensional mixture, for the Examples of C83. *)
From Verif Require Import Prelude Numpy Rng M_Weights M_Niw M_Utils M_Mix M_Query S_Oracle S_MixEx S_Forms.
Open Scope Q_scope.

Definition form_state : rparams := RP [1 # 2; 1 # 4] [(0%nat, ([1; 2], [[1; 0]; [0; 1]])); (1%nat, ([3; 5], [[1; 0]; [0; 1]]))] [] [].
Definition form_st : ms := MS 0 0 0 None PNone 0 PNone None (ws_init 0 0) [[1; 2]; [0; 5]] 2 false None [] false [] [] (Some form_state) LNeg 0 [form_state] [] []
  (VST (Some 2%Z) [] [([1; 2], 1, [[1; 0]; [0; 1]], 1); ([3; 5], 1, [[1; 0]; [0; 1]], 1)] []) true true true.
(* a density that tells points and means apart *)
Definition form_qenv : qenv := ex_qenv (fun r m => nth 0 r 0 + 10 * nth 0 m 0).
Lemma form_dim : state_dim 2 form_state.
Proof. unfold state_dim, form_state. cbn. repeat constructor. Qed.
Lemma form_vdim : Forall (vatom_dim 2) (vtheta (s_var form_st)).
Proof. repeat constructor. Qed.
