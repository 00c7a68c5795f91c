(* C78: the slice update of the labels as a Markov kernel. *)
From Coq Require Import Reals Lra.
From Verif Require Import Prelude Numpy Rng M_Weights M_Ext M_Sample M_Niw M_Utils M_Mix S_Weights S_Mix S_Var S_Sample S_Slice S_SliceStep S_MixEx P_MixEx P_Slice P_SliceStep P_SliceLaw.
Open Scope R_scope.

Theorem c78_requests :
  forall E c fuel o s g s' g', valid_oracle o -> gibbs_step E c fuel o s g = (Ok tt, s', g') ->
  (exists gu, s_u s' = fst (unif_draws o (slice_reqs s' (labels_of s)) gu)) /\
  forall i, (i < length (labels_of s'))%nat -> exists ls gi, scores_at E s' i ls /\
    nth i (labels_of s') 0%nat = pick_label ls (o_gumbel o gi (map (fun l => negb (lx_is_neg l)) ls)).
Proof. exact c78_step_proof. Qed.
Print Assumptions c78_requests.

Theorem c78_label_law :
  forall k w f u j, positive k f -> (j < k)%nat -> u < w j ->
  sliced_volume k j (fun us => gumbel_max (slice_scores k w f u) us = Ok j) (label_prob k w f u j).
Proof. exact c78_law_proof. Qed.
Print Assumptions c78_label_law.

Theorem c78_label_law_zero :
  forall k w f u us j, positive k f -> (j < k)%nat -> length us = k -> open_unit us ->
  label_prob k w f u j = 0 -> gumbel_max (slice_scores k w f u) us <> Ok j.
Proof. exact c78_zero_proof. Qed.
Print Assumptions c78_label_law_zero.

Theorem c78_label_law_nothing_above :
  forall k w f u us, (0 < k)%nat -> positive k f -> length us = k -> open_unit us -> (forall j, (j < k)%nat -> w j <= u) ->
  gumbel_max (slice_scores k w f u) us = Ok 0%nat /\ label_prob k w f u 0 = 1.
Proof. exact c78_empty_proof. Qed.
Print Assumptions c78_label_law_nothing_above.

Theorem c78_kernel :
  forall k w f, positive k w -> positive k f -> forall e i j, (i < k)%nat -> (j < k)%nat ->
  exists p, moves e k w f i j p /\ 0 <= p <= 1 /\ forall q, moves e k w f i j q -> q = p.
Proof. exact c78_prob. Qed.
Print Assumptions c78_kernel.

Theorem c78_kernel_total :
  forall k w f, positive k w -> forall e i ps, (i < k)%nat -> (forall j, (j < k)%nat -> moves e k w f i j (ps j)) -> sumn ps k = 1.
Proof. exact c78_total. Qed.
Print Assumptions c78_kernel_total.

Theorem c78_reversible_without_shift :
  forall k w f, positive k w -> positive k f -> forall i j p q, (i < k)%nat -> (j < k)%nat ->
  moves 0 k w f i j p -> moves 0 k w f j i q -> w i * f i * p = w j * f j * q.
Proof. exact c78_reversible. Qed.
Print Assumptions c78_reversible_without_shift.

Theorem c78_invariant_without_shift :
  forall k w f, positive k w -> positive k f -> forall ps j,
  (forall i j, (i < k)%nat -> (j < k)%nat -> moves 0 k w f i j (ps i j)) -> (j < k)%nat ->
  sumn (fun i => w i * f i * ps i j) k = w j * f j.
Proof. exact c78_invariant. Qed.
Print Assumptions c78_invariant_without_shift.

Theorem c78_balance_error :
  forall k w f, positive k w -> positive k f -> forall e i j p q, 0 <= e -> (i < k)%nat -> (j < k)%nat ->
  moves e k w f i j p -> moves e k w f j i q -> Rabs (w i * f i * p - w j * f j * q) <= e * Rmax (f i) (f j).
Proof. exact c78_error. Qed.
Print Assumptions c78_balance_error.

Theorem c78_invariance_error :
  forall k w f, positive k w -> positive k f -> forall e ps j, 0 <= e ->
  (forall i j, (i < k)%nat -> (j < k)%nat -> moves e k w f i j (ps i j)) -> (j < k)%nat ->
  Rabs (sumn (fun i => w i * f i * ps i j) k - w j * f j) <= e * sumn (fun i => Rmax (f i) (f j)) k.
Proof. exact c78_inv_error. Qed.
Print Assumptions c78_invariance_error.

Theorem c78_shift_favours_heavier :
  forall k w f, positive k w -> positive k f -> forall e i j p q, 0 < e -> e < w j -> (i < k)%nat -> (j < k)%nat -> i <> 0%nat -> w i < w j ->
  moves e k w f i j p -> moves e k w f j i q -> w j * f j * q < w i * f i * p.
Proof. exact c78_favour. Qed.
Print Assumptions c78_shift_favours_heavier.

Theorem c78_two_components_not_invariant_refuted :
  forall e w f ps, 0 < e -> e < w 0%nat -> w 1%nat < w 0%nat -> positive 2 w -> positive 2 f ->
  (forall i j, (i < 2)%nat -> (j < 2)%nat -> moves e 2 w f i j (ps i j)) ->
  w 0%nat * f 0%nat < sumn (fun i => w i * f i * ps i 0%nat) 2.
Proof. exact c78_two_proof. Qed.
Print Assumptions c78_two_components_not_invariant_refuted.

Theorem c78_tiny_weights_unreachable :
  forall k w f, positive k w -> forall e i j p, (i < k)%nat -> (j < k)%nat -> j <> 0%nat -> w j <= e -> moves e k w f i j p -> p = 0.
Proof. exact c78_never. Qed.
Print Assumptions c78_tiny_weights_unreachable.

Definition c78_w (j : nat) : R := match j with O => 1 / 2 | _ => 1 / 4 end.
Definition c78_f (j : nat) : R := match j with O => 1 | _ => 3 end.
Example c78_nontrivial : positive 2 c78_w /\ positive 2 c78_f /\ label_prob 2 c78_w c78_f (1 / 8) 1 = 3 / 4 /\ label_prob 2 c78_w c78_f (3 / 8) 1 = 0 /\ label_prob 2 c78_w c78_f 1 0 = 1 /\ open_unit [1 / 2; 1 / 3] /\
  (exists ps, forall i j, (i < 2)%nat -> (j < 2)%nat -> moves (1 / 100) 2 c78_w c78_f i j (ps i j)).
Proof.
  assert (Pw : positive 2 c78_w) by (intros [|[|j]] Hj; simpl; try lra; lia). assert (Pf : positive 2 c78_f) by (intros [|[|j]] Hj; simpl; try lra; lia).
  split; [exact Pw|]. split; [exact Pf|].
  assert (L : forall u, slice_mass 2 c78_w c78_f u = (if Rlt_dec u (1 / 2) then 1 else 0) + ((if Rlt_dec u (1 / 4) then 3 else 0) + 0)) by reflexivity.
  split; [unfold label_prob; rewrite L; unfold above, c78_w, c78_f; destruct (Rlt_dec (1 / 8) (1 / 2)), (Rlt_dec (1 / 8) (1 / 4)); try lra; destruct (Req_EM_T _ 0); lra|].
  split; [unfold label_prob; rewrite L; unfold above, c78_w, c78_f; destruct (Rlt_dec (3 / 8) (1 / 2)), (Rlt_dec (3 / 8) (1 / 4)); try lra; destruct (Req_EM_T _ 0); lra|].
  split; [unfold label_prob; rewrite L; destruct (Rlt_dec 1 (1 / 2)), (Rlt_dec 1 (1 / 4)); try lra; destruct (Req_EM_T _ 0); [reflexivity|lra]|].
  split; [repeat constructor; lra|].
  assert (X : forall i j, exists p, (i < 2)%nat -> (j < 2)%nat -> moves (1 / 100) 2 c78_w c78_f i j p).
  { intros i j. destruct (Nat.lt_decidable i 2) as [Hi|Hi]; [|exists 0; lia]. destruct (Nat.lt_decidable j 2) as [Hj|Hj]; [|exists 0; lia]. destruct (c78_prob 2 c78_w c78_f Pw Pf (1 / 100) i j Hi Hj) as (p & P & _). exists p. auto. }
  destruct (X 0%nat 0%nat) as (p00 & P00). destruct (X 0%nat 1%nat) as (p01 & P01). destruct (X 1%nat 0%nat) as (p10 & P10). destruct (X 1%nat 1%nat) as (p11 & P11).
  exists (fun i j => match i, j with O, O => p00 | O, _ => p01 | _, O => p10 | _, _ => p11 end). intros [|[|i]] [|[|j]] Hi Hj; auto; lia.
Qed.
Example c78_step_nontrivial : let q := ex_run flat_env (CDP 1) 0 7 1 2 o_half [cold y3] in
  let r := gibbs_step flat_env (CDP 1) 60 o_half (fst q) (snd q) in
  fst (fst r) = Ok tt /\ labels_of (snd (fst r)) = [1; 0; 0]%nat /\ map Qred (s_u (snd (fst r))) <> [] /\ length (w (s_wm (snd (fst r)))) = 3%nat.
Proof. vm_compute. repeat split; try reflexivity; discriminate. Qed.
