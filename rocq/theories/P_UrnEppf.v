(* The urn that starts empty has Ewens' law. *)
From Coq Require Import Reals Lra Qreals.
From Verif Require Import Prelude Numpy Rng M_Ext M_Weights M_Sample S_Weights S_Hist S_Sample S_Var S_Urn P_Lists P_Urn P_UrnLaw P_Eppf.
Open Scope R_scope.

Lemma Q2R_nq n : Q2R (nq n) = INR n.
Proof. unfold nq, zq, Q2R, inject_Z. simpl. rewrite Rinv_1, Rmult_1_r. symmetry. apply INR_IZR_INZ. Qed.
Lemma grow_counts x : forall (f : nat -> nat) b k, (b <= x)%nat -> (x < b + k)%nat ->
  map (fun j => (f j + if Nat.eqb x j then 1 else 0)%nat) (seq b k) = grow (x - b) (map f (seq b k)).
Proof.
  intros f b k. revert b. induction k as [|k IH]; intros b H1 H2; [lia|]. cbn [seq map]. destruct (Nat.eqb_spec x b) as [->|N].
  - rewrite Nat.sub_diag. cbn [grow]. f_equal; [lia|]. apply map_ext_in. intros j Hj. apply in_seq in Hj. rewrite (proj2 (Nat.eqb_neq b j)) by lia. lia.
  - replace (x - b)%nat with (S (x - S b)) by lia. cbn [grow]. f_equal; [lia|]. apply IH; lia.
Qed.
Lemma sum_counts t : forall k, Forall (fun x => (x < k)%nat) t -> list_sum (counts_of t k) = length t.
Proof.
  intros k H. assert (E : (nq (list_sum (counts_of t k)) == nq (length t))%Q).
  { rewrite <- (qsum_counts k t H). unfold counts_of. induction (seq 0 k) as [|j l IH]; [reflexivity|]. simpl. rewrite nq_add. rewrite IH. reflexivity. }
  unfold nq, zq, Qeq, inject_Z in E. simpl in E. lia.
Qed.
Lemma counts_blocks t : pattern t -> blocks (block_sizes t).
Proof.
  intros H. apply Forall_forall. intros n Hn. apply in_map_iff in Hn. destruct Hn as (j & <- & Hj). apply in_seq in Hj.
  apply count_occ_In. apply pattern_all; [exact H|lia].
Qed.
Lemma c100_eppf_proof : forall lg a t, log_gamma_like lg -> (0 < a)%Q -> pattern t ->
  exp (dirichlet_log_eppf lg (Q2R a) (block_sizes t)) = Q2R (urn_chance a 0 [] t).
Proof.
  intros lg a t L Ha. assert (Ra : 0 < Q2R a) by (rewrite <- RMicromega.Q2R_0; apply Qlt_Rlt; exact Ha).
  induction t as [|x t IH] using rev_ind; intros H.
  - unfold block_sizes. cbn. unfold dirichlet_log_eppf. cbn [length list_sum fold_right map rsum INR]. unfold rsum. simpl. rewrite RMicromega.Q2R_1, !Rplus_0_r.
    replace (lg (Q2R a) - lg (Q2R a) + 0 * ln (Q2R a)) with 0 by ring. apply exp_0.
  - apply picks_snoc in H. destruct H as [H Hx]. specialize (IH H).
    rewrite (Qeq_eqR _ _ (urn_chance_snoc a t 0 [] x)). rewrite Q2R_mult, <- IH. cbn [app length].
    pose proof (picks_lt t 0 H) as F. set (k := labels_after 0 t) in *.
    assert (B : blocks (block_sizes t)) by (apply counts_blocks; exact H).
    assert (Sm : list_sum (block_sizes t) = length t) by (apply sum_counts; exact F).
    assert (D : Q2R (share a k t x / (nq (0 + length t) + a)) = Q2R (share a k t x) / (Q2R a + INR (length t))).
    { rewrite Q2R_div by (apply nqa; exact Ha). rewrite Q2R_plus, Q2R_nq. simpl (0 + length t)%nat. f_equal. ring. }
    rewrite D. unfold share. destruct (Nat.ltb_spec x k) as [Lx|Lx].
    + assert (E : block_sizes (t ++ [x]) = grow x (block_sizes t)).
      { unfold block_sizes. rewrite labels_after_snoc. fold k. unfold next. rewrite (proj2 (Nat.ltb_lt x k)) by exact Lx. unfold counts_of.
        pose proof (grow_counts x (fun j => n_eq j t) 0 k ltac:(lia) ltac:(lia)) as G. rewrite Nat.sub_0_r in G. rewrite <- G. apply map_ext. intros j. apply n_eq_snoc. }
      rewrite E, grow_ratio; [|exact L|exact Ra|exact B|unfold block_sizes; rewrite counts_length; exact Lx].
      rewrite Sm, Q2R_nq. unfold block_sizes. rewrite counts_nth by exact Lx. reflexivity.
    + assert (x = k) by lia. subst x.
      assert (E : block_sizes (t ++ [k]) = block_sizes t ++ [1%nat]).
      { unfold block_sizes. rewrite labels_after_snoc. fold k. unfold next. rewrite (proj2 (Nat.ltb_ge k k)) by lia. symmetry. apply counts_new. exact F. }
      rewrite E, new_ratio by assumption. rewrite Sm. reflexivity.
Qed.

(* ---- the property theorems ---- *)
From Verif Require Import S_Oracle S_Draws.
Open Scope Q_scope.
Lemma c100_prior_proof : forall al a n o s g, valid_oracle o -> 0 < al -> 0 <= a -> d s = [] ->
  exists ps s' g', wm_random (CBID al a) (SInt (Z.of_nat n)) o s g = (Ok (w s'), s', g') /\ d s' = [] /\
    urn_extends al a (beta_answers o g [rbeta 1 al]) [] (dbase s) [0%nat] n o (g ++ [rbeta 1 al]) s' g' ps.
Proof. intros. apply urn_prior; assumption. Qed.
Lemma c100_complete_proof : forall al a size z seen o s g, valid_oracle o -> 0 < al -> 0 <= a -> seen <> [] -> urn_state seen s -> size_val size = Some z ->
  exists ps s' g', wm_complete (CBID al a) size o s g = (Ok None, s', g') /\ d s' = d s /\
    urn_extends al a (vbase s) (v s) (dbase s) seen (Z.to_nat (z - Z.of_nat (length (v s)))) o g s' g' ps.
Proof. intros. apply urn_complete; assumption. Qed.
Lemma c100_fitted_proof : forall al a size o s g r s' g', valid_oracle o -> d s <> [] -> wm_random (CBID al a) size o s g = (Ok r, s', g') ->
  urn_state (dbase s') s' /\ length (dbase s') = S (list_max (d s)).
Proof. intros al a size o s g r s' g'. apply fitted_urn. Qed.
Lemma c100_chance_proof : forall al a base sticks labs seen n o g s' g' ps, Forall (fun j => (j < length base)%nat) seen ->
  urn_extends al a base sticks labs seen n o g s' g' ps ->
  chance o g (urn_requests al a (length base) seen ps) == urn_chance a (length base) seen ps.
Proof. intros al a base sticks labs seen n o g s' g' ps Hf (_ & P & _ & C & _). apply urn_chance_log; assumption. Qed.
