(* C21, C22: random labels and normalised weights. *)
From Coq Require Import SpecFloat.
From Verif Require Import Prelude Numpy Rng M_Weights M_Float S_Weights S_Assign S_Oracle P_Assign.
Open Scope Q_scope.

(* ---- C21 ---- *)
(* label j is returned exactly for the draws u in (share j, share (j+1)]
   (closed at 0 for the first component) *)
Theorem c21_label_iff :
  forall w u j, nonneg w -> 0 < qtotal w -> u < 1 -> (j < length w)%nat ->
    (assign_label w u = j <-> u <= share w (S j) /\ (j = 0%nat \/ share w j < u)).
Proof. exact c21_iff_proof. Qed.
Print Assumptions c21_label_iff.

(* an interval of length w_j / sum(w) *)
Theorem c21_interval_length :
  forall w j, 0 < qtotal w -> share w (S j) - share w j == nth j w 0 / qtotal w.
Proof. exact share_step. Qed.
Print Assumptions c21_interval_length.

Theorem c21_label_in_range :
  forall w u, nonneg w -> 0 < qtotal w -> u < 1 -> (assign_label w u < length w)%nat.
Proof. exact c21_range_proof. Qed.
Print Assumptions c21_label_in_range.

Theorem c21_label_has_weight :
  forall w u, nonneg w -> 0 < qtotal w -> 0 < u -> u < 1 -> 0 < nth (assign_label w u) w 0.
Proof. exact c21_positive_proof. Qed.
Print Assumptions c21_label_has_weight.

(* with u = 0 a component of weight 0 can be chosen *)
Theorem c21_zero_draw_refuted :
  exists w, nonneg w /\ 0 < qtotal w /\ nth (assign_label w 0) w 0 == 0.
Proof. exact c21_zero_draw. Qed.
Print Assumptions c21_zero_draw_refuted.

(* the call: k uniform() requests, nothing else; the object is unchanged *)
Theorem c21_call :
  forall o s g k, (0 <= k)%Z ->
    wm_random_assignment (SInt k) o s g =
      (Ok (map (assign_label (w s)) (unif_answers o g (Z.to_nat k))), s, g ++ repeat (RUnif 0 1) (Z.to_nat k)).
Proof. exact c21_call_proof. Qed.
Print Assumptions c21_call.

Theorem c21_call_in_range :
  forall o s g k, valid_oracle o -> (0 <= k)%Z -> nonneg (w s) -> 0 < qtotal (w s) ->
    exists ls, wm_random_assignment (SInt k) o s g = (Ok ls, s, g ++ repeat (RUnif 0 1) (Z.to_nat k)) /\
      length ls = Z.to_nat k /\ Forall (fun j => (j < length (w s))%nat) ls.
Proof. exact c21_call_range_proof. Qed.
Print Assumptions c21_call_in_range.

(* without size the call always raises, after consuming a draw *)
Theorem c21_no_size_raises :
  forall o s g, wm_random_assignment SNone o s g = (Err AxisError, s, g ++ [RUnif 0 1]).
Proof. exact c21_none. Qed.
Print Assumptions c21_no_size_raises.

(* weights that add up to 0 (or no weights at all): every label is 0 *)
Theorem c21_zero_total_labels_zero :
  forall w u, qtotal w == 0 -> assign_label w u = 0%nat.
Proof. exact assign_zero. Qed.
Print Assumptions c21_zero_total_labels_zero.

(* in IEEE double arithmetic the range claim fails: FrequencyWeighting fitted
   to 9 labels, u the largest double below 1 that uniform() can return *)
Theorem c21_double_label_in_range_refuted :
  exists dd k, (0 <= k < 2 ^ 53)%Z /\
    (length (f_frequencies dd) <= f_assign_label (f_frequencies dd) (f_uniform k))%nat.
Proof. exact c21_float. Qed.
Print Assumptions c21_double_label_in_range_refuted.

Example c21_nontrivial :
  let w := [1 # 2; 0; 1 # 4] in
  nonneg w /\ 0 < qtotal w /\ assign_label w (2 # 3) = 0%nat /\ assign_label w (3 # 4) = 2%nat /\
  share w 1 == 2 # 3.
Proof. repeat split; try (repeat constructor; discriminate); reflexivity. Qed.

(* ---- C22 ---- *)
Theorem c22_normalized :
  forall w, nonneg w -> 0 < qtotal w ->
  exists x c, normalized w = map Some x /\ norm_cum w = map Some c /\
    length x = length w /\ length c = length w /\
    prob x /\ (forall j, nth j x 0 * qtotal w == nth j w 0) /\
    (forall i k, (i <= k < length w)%nat -> nth i c 0 <= nth k c 0) /\
    (forall j, (j < length w)%nat -> nth j c 0 == qtotal (firstn (S j) x)) /\
    nth (length w - 1) c 0 == 1.
Proof. exact c22_vec_proof. Qed.
Print Assumptions c22_normalized.

Theorem c22_normalized_history :
  forall c parg narg o s0 g0 ops, valid_oracle o ->
  (forall x al a b pm, c = CBIB x al a b pm -> in01 parg) ->
  new_ws c parg narg o = Ok (s0, g0) ->
  forall w', w' = w (fst (run_ops c ops o s0 g0)) -> 0 < qtotal w' ->
  exists x cc, normalized w' = map Some x /\ norm_cum w' = map Some cc /\
    prob x /\ (forall j, nth j x 0 * qtotal w' == nth j w' 0) /\
    (forall i k, (i <= k < length w')%nat -> nth i cc 0 <= nth k cc 0) /\
    nth (length w' - 1) cc 0 == 1.
Proof. exact c22_history_proof. Qed.
Print Assumptions c22_normalized_history.

(* with sum 0 every entry of both is NaN *)
Theorem c22_zero_total_nan :
  forall w, qtotal w == 0 -> normalized w = repeat None (length w) /\ norm_cum w = repeat None (length w).
Proof. exact c22_zero_proof. Qed.
Print Assumptions c22_zero_total_nan.

Example c22_nontrivial :
  let w := w (fst (run_ops (CDP 1) [OpRandom (SInt 2)] (const_oracle (1 # 2)) (ws_init 0 0) [])) in
  0 < qtotal w /\ map (option_map Qred) (normalized w) = [Some (2 # 3); Some (1 # 3)] /\
  map (option_map Qred) (norm_cum w) = [Some (2 # 3); Some 1].
Proof. repeat split; reflexivity. Qed.
