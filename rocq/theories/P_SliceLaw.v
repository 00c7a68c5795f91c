(* Proofs for C78: Gumbel-max on the slice scores. *)
From Coq Require Import Reals Lra.
From Verif Require Import Prelude M_Ext M_Sample S_Var S_Sample S_Slice P_Var P_Var27 P_Var31 P_Opt P_Sample P_Race P_CondShare P_Slice.
Open Scope R_scope.

Lemma scores_length k w f u : length (slice_scores k w f u) = k.
Proof. unfold slice_scores. rewrite map_length, seq_length. reflexivity. Qed.
Lemma scores_nth k w f u j : (j < k)%nat -> nth j (slice_scores k w f u) ENI = if Rlt_dec u (w j) then EF (ln (f j)) else ENI.
Proof.
  intros Hj. unfold slice_scores. rewrite nth_map_seq by exact Hj. reflexivity.
Qed.
Lemma scores_proper k w f u : proper (slice_scores k w f u).
Proof. unfold proper, slice_scores. apply Forall_forall. intros x Hx. apply in_map_iff in Hx as (j & <- & _). destruct (Rlt_dec u (w j)); eauto. Qed.
Lemma scores_total k w f u : positive k f -> total (slice_scores k w f u) = slice_mass k w f u.
Proof.
  intros Hf. unfold total, slice_scores, slice_mass, sumn. rewrite map_map. f_equal. apply map_ext_in. intros j Hj. apply in_seq in Hj. unfold above.
  destruct (Rlt_dec u (w j)); [|reflexivity]. simpl. apply exp_ln, Hf. lia.
Qed.
Lemma c78_law_proof k w f u j : positive k f -> (j < k)%nat -> u < w j ->
  sliced_volume k j (fun us => gumbel_max (slice_scores k w f u) us = Ok j) (label_prob k w f u j).
Proof.
  intros Hf Hj Hu. assert (E : nth j (slice_scores k w f u) ENI = EF (ln (f j))) by (rewrite scores_nth by exact Hj; destruct (Rlt_dec u (w j)); [reflexivity|contradiction]).
  pose proof (c46_volume_proof (slice_scores k w f u) j (ln (f j)) (scores_proper k w f u) ltac:(rewrite scores_length; exact Hj) E) as V.
  rewrite scores_length in V. rewrite exp_ln in V by (apply Hf, Hj). rewrite scores_total in V by exact Hf.
  unfold label_prob, above. destruct (mass_pos k w f Hf u j Hj Hu) as [_ P]. destruct (Req_EM_T _ 0); [lra|]. destruct (Rlt_dec u (w j)); [exact V|contradiction].
Qed.
Lemma c78_zero_proof k w f u us j : positive k f -> (j < k)%nat -> length us = k -> open_unit us -> label_prob k w f u j = 0 -> gumbel_max (slice_scores k w f u) us <> Ok j.
Proof.
  intros Hf Hj Hl Ho Hp H. unfold label_prob in Hp. 
  pose proof (scores_proper k w f u) as P. 
  destruct (Req_EM_T (slice_mass k w f u) 0) as [E|E].
  - destruct j as [|j]; [simpl in Hp; lra|]. apply c46_race_proof in H; [|exact P|rewrite scores_length; exact Hl|exact Ho]. destruct H as (_ & _ & H). specialize (H 0%nat ltac:(lia)).
    pose proof (mass_zero_inv k w f Hf u E) as Z. unfold pw in H. rewrite !scores_nth in H by lia. destruct (Rlt_dec u (w 0%nat)); [specialize (Z 0%nat ltac:(lia)); lra|]. destruct (Rlt_dec u (w (S j))); [specialize (Z (S j) Hj); lra|]. simpl in H. lra.
  - assert (Z : exists r, In (EF r) (slice_scores k w f u)).
    { assert (G : (exists j, (j < k)%nat /\ u < w j) \/ slice_mass k w f u = 0).
      { assert (D : (exists j, (j < k)%nat /\ u < w j) \/ (forall j, (j < k)%nat -> w j <= u)).
        { clear. induction k as [|n [(j & A & B)|IH]]; [right; intros; lia|left; exists j; split; [lia|exact B]|]. destruct (Rlt_dec u (w n)); [left; exists n; split; [lia|assumption]|]. right. intros j Hj. destruct (Nat.eq_dec j n) as [->|]; [lra|apply IH; lia]. }
        destruct D as [D|D]; [left; exact D|right; apply mass_zero, D]. }
      destruct G as [(i & A & B)|G]; [|contradiction]. exists (ln (f i)). pose proof (scores_nth k w f u i A) as N. destruct (Rlt_dec u (w i)); [|contradiction]. rewrite <- N. apply nth_In. rewrite scores_length. exact A. }
    destruct (c46_support_proof _ us j P ltac:(rewrite scores_length; exact Hl) Ho Z H) as (r & N). rewrite scores_nth in N by exact Hj. unfold above in Hp. destruct (Rlt_dec u (w j)); [|discriminate].
    pose proof (Hf j Hj). pose proof (mass_nonneg k w f Hf u). assert (0 < f j / slice_mass k w f u) by (apply Rdiv_lt_0_compat; lra). lra.
Qed.
Lemma c78_empty_proof k w f u us : (0 < k)%nat -> positive k f -> length us = k -> open_unit us -> (forall j, (j < k)%nat -> w j <= u) -> gumbel_max (slice_scores k w f u) us = Ok 0%nat /\ label_prob k w f u 0 = 1.
Proof.
  intros Hk Hf Hl Ho H. pose proof (mass_zero k w f u H) as E. assert (E0 : label_prob k w f u 0 = 1) by (unfold label_prob; destruct (Req_EM_T _ 0); [reflexivity|contradiction]). split; [|exact E0].
  destruct (c46_total_proof (slice_scores k w f u) us) as (j & G & Hj); [intros K; apply (f_equal (@length _)) in K; rewrite scores_length in K; simpl in K; lia|rewrite scores_length; exact Hl|].
  rewrite scores_length in Hj. destruct j as [|j]; [exact G|]. exfalso. apply (c78_zero_proof k w f u us (S j) Hf Hj Hl Ho); [|exact G]. unfold label_prob. destruct (Req_EM_T _ 0); [reflexivity|contradiction].
Qed.

(* two components *)
Lemma c78_two_proof e w f ps : 0 < e -> e < w 0%nat -> w 1%nat < w 0%nat -> positive 2 w -> positive 2 f -> (forall i j, (i < 2)%nat -> (j < 2)%nat -> moves e 2 w f i j (ps i j)) ->
  w 0%nat * f 0%nat < sumn (fun i => w i * f i * ps i 0%nat) 2.
Proof.
  intros He H0 H1 Hw Hf H. destruct (excess 2 w f Hw Hf e 1 0 (ps 1%nat 0%nat) (ps 0%nat 1%nat)) as (_ & _ & _ & G); try (apply H; lia); try lia; try lra.
  specialize (G ltac:(lia) H1 He H0). pose proof (c78_total 2 w f Hw e 0 (ps 0%nat) ltac:(lia) (fun j Hj => H 0%nat j ltac:(lia) Hj)) as T.
  unfold sumn in *. simpl in *. assert (w 0%nat * f 0%nat * (ps 0%nat 0%nat + (ps 0%nat 1%nat + 0)) = w 0%nat * f 0%nat) by (rewrite T; ring). lra.
Qed.
Lemma c78_favour k w f : positive k w -> positive k f -> forall e i j p q, 0 < e -> e < w j -> (i < k)%nat -> (j < k)%nat -> i <> 0%nat -> w i < w j ->
  moves e k w f i j p -> moves e k w f j i q -> w j * f j * q < w i * f i * p.
Proof.
  intros Hw Hf e i j p q He Hej Hi Hj N L P Q. destruct (excess k w f Hw Hf e i j p q) as (_ & _ & _ & G); auto; try lra; [intros ->; lra|]. specialize (G N L He Hej). lra.
Qed.
