(* Theorems for C68: an explicit array given to variational_mean_log_p_d__w. *)
From Coq Require Import Reals Qreals Lra.
From Verif Require Import Prelude Numpy Rng M_Weights M_Ext M_Var S_Weights S_Draws S_Var P_Arg.
Open Scope R_scope.

Theorem c68_argument_against_fitted_logs :
  forall psi : R -> R, forall c D' s x,
  good_mat D' ->
  (exists al, c = CDP al) \/ (exists pyd al, c = CPY pyd al) \/ (exists n al, c = CDirDist n al) ->
  (forall j, (j < length (rows D'))%nat -> mean_log_w psi c j s = Ok (EF (x j))) ->
  mean_log_pd psi c (Some D') s = (Ok (EF (expected_log D' x)), s).
Proof. exact c68_arg_proof. Qed.
Print Assumptions c68_argument_against_fitted_logs.

Theorem c68_dp_rows_beyond_fit :
  forall psi : R -> R, forall al D s sv D',
  good_mat D' -> fit_var (CDP al) D s = (Ok tt, sv) -> (length (rows D) < length (rows D'))%nat ->
  ((forall j, (length (rows D) <= j < length (rows D'))%nat -> 0 < mass D' j) -> mean_log_pd psi (CDP al) (Some D') sv = (Ok ENI, sv)) /\
  ((exists j, (length (rows D) <= j < length (rows D'))%nat /\ mass D' j = 0) -> mean_log_pd psi (CDP al) (Some D') sv = (Ok ENaN, sv)).
Proof. exact c68_dp_more_proof. Qed.
Print Assumptions c68_dp_rows_beyond_fit.

Theorem c68_other_rows_beyond_fit :
  forall psi : R -> R, forall c D s sv D',
  (exists pyd al, c = CPY pyd al) \/ (exists n al, c = CDirDist n al /\ length al = length (rows D)) ->
  fit_var c D s = (Ok tt, sv) -> (length (rows D) < length (rows D'))%nat ->
  mean_log_pd psi c (Some D') sv = (Err IndexError, sv).
Proof. exact c68_more_proof. Qed.
Print Assumptions c68_other_rows_beyond_fit.

Theorem c68_geometric_argument :
  forall psi : R -> R, forall a b s x y D',
  good_mat D' -> stochastic D' -> rows D' <> [] -> vpar s = PPair x y ->
  mean_log_pd psi (CGeom a b) (Some D') s =
    (Ok (EF (expected_log D' (fun _ => mean_log_beta psi x y + mean_log_beta psi y x))), s).
Proof. exact c68_geom_proof. Qed.
Print Assumptions c68_geometric_argument.

Theorem c68_equal_counts_columns :
  forall psi : R -> R, forall s D',
  (0 < vn s)%Z ->
  mean_log_pd psi CEqual (Some D') s = (Ok (EF (INR (cols D') * ln (IZR (vn s)))), s).
Proof. exact c68_equal_proof. Qed.
Print Assumptions c68_equal_counts_columns.

Theorem c68_frequency_argument :
  forall psi : R -> R, forall n D' s,
  good_mat D' -> (forall j, (j < length (rows D'))%nat -> 0 < mass D' j) ->
  mean_log_pd psi (CFreq n) (Some D') s =
    (Ok (EF (expected_log D' (fun j => ln (mass D' j / sumn (mass D') (length (rows D')))))), VS (Some D') (vk s) (vpar s) (vn s)).
Proof. exact c68_freq_proof. Qed.
Print Assumptions c68_frequency_argument.

Theorem c68_frequency_argument_kept :
  forall psi : R -> R, forall n D' s j,
  let s' := snd (mean_log_pd psi (CFreq n) (Some D') s) in
  (j < length (rows D'))%nat -> (forall k, vk s = Some k -> (Z.of_nat j < k)%Z) -> vk s <> None -> mat_sum D' <> 0 ->
  mean_w (CFreq n) j s' = Ok (EF (mass D' j / sumn (mass D') (length (rows D')))).
Proof. exact c68_freq_replaced_proof. Qed.
Print Assumptions c68_frequency_argument_kept.

Theorem c68_frequency_query_changes_answers_refuted :
  forall psi : R -> R, 
  exists D D' s sv sv' x,
  fit_var (CFreq 1) D s = (Ok tt, sv) /\ mean_log_pd psi (CFreq 1) (Some D') sv = (Ok x, sv') /\
  mean_w (CFreq 1) 0 sv = Ok (EF 1) /\ mean_w (CFreq 1) 0 sv' = Ok (EF (1 / 2)).
Proof. exact c68_freq_changes_proof. Qed.
Print Assumptions c68_frequency_query_changes_answers_refuted.

Theorem c68_unfitted :
  forall psi : R -> R, forall c n D',
  has_variational c -> rows D' <> [] ->
  let s := vs_init n in let r := mean_log_pd psi c (Some D') s in
  match c with
  | CDP _ | CPY _ _ | CDirDist _ _ => r = (Err NotFittedError, s)
  | CGeom _ _ => r = (Err TypeError, s)
  | CEqual => fst r = Ok (ext_scale (INR (cols D')) (ext_log (EF (IZR n)))) /\ snd r = s
  | _ => is_ok (fst r) = true /\ mean_log_pd psi c None (snd r) = (fst r, snd r) /\ forall j, mean_w c j (snd r) = Err TypeError
  end.
Proof. exact c68_unfitted_proof. Qed.
Print Assumptions c68_unfitted.

Definition arg2 := Mat [[1; 0; / 2]; [0; 1; / 2]] 3.
Example c68_nontrivial : good_mat arg2 /\ stochastic arg2 /\ rows arg2 <> [] /\ mass arg2 1 = 3 / 2 /\ (forall j, (j < length (rows arg2))%nat -> 0 < mass arg2 j).
Proof.
  repeat split; try discriminate.
  - repeat constructor; lra.
  - intros i Hi. cbn in Hi. destruct i as [|[|[|i]]]; try lia; cbn; lra.
  - unfold mass; cbn; lra.
  - intros j Hj. cbn in Hj. destruct j as [|[|j]]; try lia; unfold mass; cbn; lra.
Qed.
Example c68_expected_example : forall x, expected_log arg2 x = 3 / 2 * x 0%nat + 3 / 2 * x 1%nat.
Proof. intros x. unfold expected_log, sumn, rsum. cbn. lra. Qed.
Example c68_more_rows_example : exists sv, fit_var (CDP 1) (Mat [[1; 1; 1]] 3) (vs_init 0) = (Ok tt, sv) /\ (1 < length (rows arg2))%nat.
Proof. eexists. split; [reflexivity|cbn; lia]. Qed.
Example c68_freq_example : exists sv, fit_var (CFreq 1) (Mat [[1; 1; 1]] 3) (vs_init 0) = (Ok tt, sv) /\ vk sv = Some 3%Z /\ mat_sum arg2 <> 0.
Proof. eexists. split; [reflexivity|]. split; [reflexivity|]. unfold mat_sum, row_sums, rsum; cbn. lra. Qed.
