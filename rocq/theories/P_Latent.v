(* Proofs for C77. *)
From Coq Require Import Reals Qreals Lra Lqa.
From Verif Require Import Prelude Numpy Rng M_Weights M_Ext M_Var M_BidScore S_Weights S_Draws S_More S_Oracle S_Var S_Opt S_Cond S_Latent P_Lists P_Wp P_Post P_More P_Var P_Var27 P_Cond P_CondShare.
Open Scope R_scope.

(* ---- the moments of a stick ---- *)
Lemma rising_pos x n : (0 < x)%Q -> (0 < rising x n)%Q.
Proof. intros H. induction n as [|n IH]; cbn [rising]; [reflexivity|]. apply Qmult_lt_0_compat; [exact IH|]. pose proof (nq_nonneg n). Lqa.lra. Qed.
Lemma q2r_pos q : (0 < q)%Q -> 0 < Q2R q.
Proof. intros H. apply Qlt_Rlt in H. rewrite RMicromega.Q2R_0 in H. exact H. Qed.
Lemma q2r_rising_S x n : Q2R (rising x (S n)) = Q2R (rising x n) * (Q2R x + INR n).
Proof. cbn [rising]. rewrite Q2R_mult, Q2R_plus, q2r_nq. reflexivity. Qed.
Lemma q2r_marg al A B : (0 < al)%Q -> Q2R (marg al A B) = Q2R (rising 1 A) * Q2R (rising al B) / Q2R (rising (1 + al) (A + B)).
Proof.
  intros H. unfold marg. rewrite Q2R_div, Q2R_mult; [reflexivity|]. pose proof (rising_pos (1 + al) (A + B) ltac:(Lqa.lra)). intros E. rewrite E in *. Lqa.lra.
Qed.
Lemma c77_marg_proof al : (0 < al)%Q -> beta_moments 1 (Q2R al) (fun A B => Q2R (marg al A B)).
Proof.
  intros H. pose proof (q2r_pos _ H) as Ha.
  assert (P1 : forall n, 0 < Q2R (rising 1 n)) by (intros n; apply q2r_pos, rising_pos; reflexivity).
  assert (P2 : forall n, 0 < Q2R (rising al n)) by (intros n; apply q2r_pos, rising_pos; exact H).
  assert (P3 : forall n, 0 < Q2R (rising (1 + al) n)) by (intros n; apply q2r_pos, rising_pos; Lqa.lra).
  split; [|split].
  - rewrite q2r_marg by exact H. cbn [rising plus]. rewrite q2r_1. Lra.lra.
  - intros m n. rewrite !q2r_marg by exact H. replace (S m + n)%nat with (S (m + n)) by lia. replace (m + S n)%nat with (S (m + n)) by lia. rewrite !q2r_rising_S, Q2R_plus, q2r_1, plus_INR.
    specialize (P1 m). specialize (P2 n). specialize (P3 (m + n)%nat). pose proof (pos_INR m). pose proof (pos_INR n). field. split; Lra.lra.
  - intros m n. rewrite !q2r_marg by exact H. replace (S m + n)%nat with (S (m + n)) by lia. rewrite !q2r_rising_S, Q2R_plus, q2r_1, plus_INR.
    specialize (P1 m). specialize (P2 n). specialize (P3 (m + n)%nat). pose proof (pos_INR m). pose proof (pos_INR n). field. split; Lra.lra.
Qed.
Lemma marg_pos al A B : (0 < al)%Q -> 0 < Q2R (marg al A B).
Proof.
  intros H. rewrite q2r_marg by exact H. apply Rdiv_lt_0_compat; [apply Rmult_lt_0_compat|]; apply q2r_pos, rising_pos; try reflexivity; try exact H. Lqa.lra.
Qed.

(* ---- base labels of BetaInDirichlet ---- *)
Lemma lg_rising lg x n : log_gamma_like lg -> (0 < x)%Q -> Q2R (rising x n) = exp (lg (Q2R x + INR n) - lg (Q2R x)).
Proof.
  intros [_ Hl] Hx. pose proof (q2r_pos _ Hx) as Px. induction n as [|n IH].
  - cbn [rising]. rewrite q2r_1. simpl. rewrite Rplus_0_r, Rminus_diag_eq by reflexivity. symmetry. apply exp_0.
  - rewrite q2r_rising_S, IH, S_INR. pose proof (pos_INR n). replace (Q2R x + (INR n + 1)) with (Q2R x + INR n + 1) by ring. rewrite Hl by Lra.lra.
    rewrite <- (exp_ln (Q2R x + INR n)) at 2 by Lra.lra. rewrite <- exp_plus. f_equal. ring.
Qed.
Lemma new_score lg al a A B : log_gamma_like lg -> (0 < al)%Q -> 0 < a -> score_weight (bid_new_score lg (Q2R al) a A B) = a * Q2R (marg al A B) / Q2R al.
Proof.
  intros Hl Ha Pa. pose proof (q2r_pos _ Ha) as P. unfold bid_new_score, ext_log, rltb. destruct (Rlt_dec 0 a); [|contradiction]. cbn [ext_add score_weight].
  rewrite q2r_marg by exact Ha. rewrite !(lg_rising lg) by (assumption || reflexivity || Lqa.lra). rewrite Q2R_plus, q2r_1, plus_INR.
  pose proof (proj2 Hl (Q2R al) P) as E1. pose proof (proj1 Hl) as E0. rewrite E0. replace (1 + Q2R al) with (Q2R al + 1) by ring. rewrite E1.
  rewrite exp_plus, exp_ln by exact Pa. unfold Rdiv. rewrite <- exp_Ropp. rewrite !Rmult_assoc. f_equal.
  replace (/ Q2R al) with (exp (- ln (Q2R al))) by (rewrite exp_Ropp, exp_ln by exact P; reflexivity). rewrite <- !exp_plus. f_equal. rewrite <- !Rplus_assoc. ring.
Qed.
Lemma old_score c A B x : (0 < c)%nat -> 0 < x < 1 -> score_weight (bid_old_score c A B x) = INR c * (x ^ A * (1 - x) ^ B) /\ bid_old_score c A B x <> ENI.
Proof.
  intros Hc Hx. unfold bid_old_score, ext_log, rltb. apply lt_0_INR in Hc.
  destruct (Rlt_dec 0 (INR c)); [|contradiction]. destruct (Rlt_dec 0 x); [|Lra.lra]. destruct (Rlt_dec 0 (1 - x)); [|Lra.lra]. cbn [ext_scale ext_add score_weight].
  split; [|discriminate]. rewrite !exp_plus, exp_ln by exact Hc. rewrite <- !ln_pow by Lra.lra. rewrite !exp_ln by (apply pow_lt; Lra.lra). ring.
Qed.
Lemma ncount_occ j l : ncount j l = count_occ Nat.eq_dec l j.
Proof. unfold ncount. induction l as [|x l IH]; [reflexivity|]. cbn [filter count_occ]. destruct (Nat.eq_dec x j) as [->|N]. - rewrite Nat.eqb_refl. simpl. f_equal. exact IH. - destruct (Nat.eqb_spec j x); [congruence|]. exact IH. Qed.
Lemma scores_nth lg al a vb A B red kmax : (forall j, (kmax < j)%nat -> used red j = false) -> forall n m nb i, (i < n)%nat -> (nb = true -> exists j, (j < m)%nat /\ used red j = false) -> (nb = false -> forallb (used red) (seq 0 m) = true) ->
  nth i (bid_scores lg al a vb A B red kmax (seq m n) nb) ENI =
    if used red (m + i)%nat then bid_old_score (count_occ Nat.eq_dec red (m + i)%nat) A B (nth (m + i)%nat vb 0)
    else if forallb (used red) (seq 0 (m + i)%nat) then bid_new_score lg al a A B else ENI.
Proof.
  intros HK. induction n as [|n IH]; intros m nb i Hi H1 H2; [lia|]. cbn [seq bid_scores]. rewrite ncount_occ. fold (negb (negb (Nat.eqb (count_occ Nat.eq_dec red m) 0))).
  assert (U : Nat.eqb (count_occ Nat.eq_dec red m) 0 = negb (used red m)) by (unfold used; rewrite negb_involutive; reflexivity). rewrite U.
  assert (FA : forallb (used red) (seq 0 (S m)) = forallb (used red) (seq 0 m) && used red m) by (rewrite seq_S, forallb_app; simpl; rewrite andb_true_r; reflexivity).
  assert (NF : forall k j, (j < k)%nat -> used red j = false -> forallb (used red) (seq 0 k) = false).
  { intros k j Hj Hu. destruct (forallb (used red) (seq 0 k)) eqn:E; [|reflexivity]. rewrite forallb_forall in E. rewrite (E j) in Hu by (apply in_seq; lia). discriminate. }
  destruct (used red m) eqn:Um.
  - cbn [negb andb]. destruct i as [|i]; cbn [nth]; [rewrite Nat.add_0_r, Um; reflexivity|]. rewrite IH; [replace (S m + i)%nat with (m + S i)%nat by lia; reflexivity|lia| |].
    + intros E. destruct (H1 E) as (j & Hj & Hu). exists j. split; [lia|exact Hu].
    + intros E. rewrite FA, H2 by exact E. reflexivity.
  - cbn [negb andb]. destruct nb; cbn [negb].
    + destruct (H1 eq_refl) as (j & Hj & Hu). destruct (Nat.ltb_spec m (kmax + 1)).
      * destruct i as [|i]; cbn [nth]; [rewrite Nat.add_0_r, Um, (NF m j Hj Hu); reflexivity|]. rewrite IH; [replace (S m + i)%nat with (m + S i)%nat by lia; reflexivity|lia| |discriminate]. intros _. exists j. split; [lia|exact Hu].
      * assert (E : forall n m0, (kmax < m0)%nat -> bid_scores lg al a vb A B red kmax (seq m0 n) true = []).
        { clear -HK. induction n as [|n IH]; intros m0 Hm; [reflexivity|]. cbn [seq bid_scores]. rewrite ncount_occ. specialize (HK m0 Hm) as U. unfold used in U. apply negb_false_iff in U. rewrite U. cbn [andb negb]. destruct (Nat.ltb_spec m0 (kmax + 1)); [lia|]. apply IH. lia. }
        rewrite E by lia. rewrite (HK (m + i)%nat) by lia. rewrite (NF (m + i)%nat j) by (lia || exact Hu). destruct i; reflexivity.
    + destruct i as [|i]; cbn [nth]; [rewrite Nat.add_0_r, Um, H2 by reflexivity; reflexivity|]. rewrite IH; [replace (S m + i)%nat with (m + S i)%nat by lia; reflexivity|lia| |discriminate]. intros _. exists m. split; [lia|exact Um].
Qed.
Lemma used_above red j : (nmax red < j)%nat -> used red j = false.
Proof.
  intros H. unfold used. apply negb_false_iff, Nat.eqb_eq, count_occ_not_In. intros I. pose proof (nmax_forall red) as F. rewrite Forall_forall in F. apply F in I. lia.
Qed.
Lemma base_weight_far al a vb A B red dd : red <> [] -> (nmax red + 1 < dd)%nat -> base_weight al a vb A B red dd = 0.
Proof.
  intros Hr H. unfold base_weight. rewrite used_above by lia. destruct (forallb _ _) eqn:E; [|reflexivity]. rewrite forallb_forall in E. specialize (E (nmax red + 1)%nat). rewrite used_above in E by lia. assert (X : false = true) by (apply E, in_seq; lia). discriminate X.
Qed.
Lemma score_value lg al a vb A B red dd : log_gamma_like lg -> (0 < al)%Q -> 0 < a -> red <> [] -> (forall r, In r red -> 0 < nth r vb 0 < 1) ->
  score_weight (nth dd (bid_scores lg (Q2R al) a vb A B red (nmax red) (seq 0 (nmax red + 2)) false) ENI) =
    (if used red dd then 1 else / Q2R al) * base_weight al a vb A B red dd.
Proof.
  intros Hl Ha Pa Hr Hv. destruct (Nat.lt_ge_cases dd (nmax red + 2)) as [L|L].
  - rewrite (scores_nth lg (Q2R al) a vb A B red (nmax red) (used_above red)) by (assumption || discriminate || reflexivity). cbn [plus]. unfold base_weight. destruct (used red dd) eqn:U.
    + unfold used in U. apply negb_true_iff, Nat.eqb_neq in U. assert (I : In dd red) by (apply (count_occ_In Nat.eq_dec); lia).
      assert (U' : (0 < count_occ Nat.eq_dec red dd)%nat) by lia. rewrite (proj1 (old_score _ A B _ U' (Hv dd I))). ring.
    + destruct (forallb _ _); [rewrite new_score by assumption; unfold Rdiv; ring|cbn [score_weight]; ring].
  - rewrite base_weight_far by (assumption || lia). rewrite Rmult_0_r. rewrite nth_overflow; [reflexivity|].
    assert (LE : forall dds nb, (length (bid_scores lg (Q2R al) a vb A B red (nmax red) dds nb) <= length dds)%nat).
    { induction dds as [|x dds IH]; intros nb; cbn [bid_scores length]; [lia|]. destruct (_ && _); [simpl; specialize (IH true); lia|]. destruct (Nat.eqb _ 0); [destruct (x <? _)%nat; simpl; specialize (IH nb); lia|simpl; specialize (IH nb); lia]. }
    specialize (LE (seq 0 (nmax red + 2)) false). rewrite seq_length in LE. lia.
Qed.
Lemma first_unused red : exists dd, used red dd = false /\ forallb (used red) (seq 0 dd) = true.
Proof.
  assert (H : exists n, used red n = false) by (exists (S (nmax red)); apply used_above; lia). destruct H as [n Hn].
  induction n as [n IH] using (well_founded_induction lt_wf). destruct (forallb (used red) (seq 0 n)) eqn:E; [eauto|].
  assert (X : exists m, (m < n)%nat /\ used red m = false).
  { clear -E. induction n as [|n IHn]; [discriminate|]. rewrite seq_S, forallb_app in E. cbn [forallb plus] in E. rewrite andb_true_r in E. destruct (forallb (used red) (seq 0 n)) eqn:F; [exists n; split; [lia|exact E]|]. destruct (IHn eq_refl) as (m & Hm & U). exists m. split; [lia|exact U]. }
  destruct X as (m & Hm & U). eapply IH; eassumption.
Qed.
Lemma c77_bid_proof lg al a vb A B red : log_gamma_like lg -> (0 < al)%Q -> 0 < a -> red <> [] -> (forall r, In r red -> 0 < nth r vb 0 < 1) ->
  let scores := bid_scores lg (Q2R al) a vb A B red (nmax red) (seq 0 (nmax red + 2)) false in
  ((exists C, forall dd, score_weight (nth dd scores ENI) = C * base_weight al a vb A B red dd) <-> (al == 1)%Q).
Proof.
  intros Hl Ha Pa Hr Hv scores. pose proof (q2r_pos _ Ha) as P. split.
  - intros (C & H). assert (X : exists r, In r red) by (clear -Hr; destruct red as [|r t]; [congruence|exists r; left; reflexivity]). destruct X as (r & Ir). assert (Ur : used red r = true).
    { unfold used. apply negb_true_iff, Nat.eqb_neq. apply (count_occ_In Nat.eq_dec) in Ir. lia. }
    assert (W : 0 < base_weight al a vb A B red r).
    { unfold base_weight. rewrite Ur. apply Rmult_lt_0_compat; [apply lt_0_INR, (count_occ_In Nat.eq_dec), Ir|]. destruct (Hv r Ir). apply Rmult_lt_0_compat; apply pow_lt; Lra.lra. }
    pose proof (H r) as H1. unfold scores in H1. rewrite score_value, Ur in H1 by assumption. assert (EC : C = 1) by (apply (Rmult_eq_reg_r (base_weight al a vb A B red r)); [symmetry; exact H1|Lra.lra]).
    destruct (first_unused red) as (z & Uz & Fz). pose proof (H z) as H2. unfold scores in H2. rewrite score_value, Uz in H2 by assumption.
    assert (W2 : 0 < base_weight al a vb A B red z) by (unfold base_weight; rewrite Uz, Fz; apply Rmult_lt_0_compat; [exact Pa|apply marg_pos, Ha]).
    subst C. assert (E : / Q2R al = 1) by (apply (Rmult_eq_reg_r (base_weight al a vb A B red z)); [exact H2|Lra.lra]). apply eqR_Qeq. rewrite q2r_1. apply (f_equal Rinv) in E. rewrite Rinv_inv, Rinv_1 in E. exact E.
  - intros E. exists 1. intros dd. unfold scores. rewrite score_value by assumption. apply Qeq_eqR in E. rewrite E, q2r_1, Rinv_1. destruct (used red dd); ring.
Qed.
Lemma c77_bid_link_proof lg al a vb A B red kmax : 0 < a -> (forall r, In r red -> 0 < nth r vb 0 < 1) -> forall dds nb,
  map (fun x => match x with EF _ => true | _ => false end) (bid_scores lg al a vb A B red kmax dds nb) = bid_logits red kmax dds nb.
Proof.
  intros Pa Hv. induction dds as [|dd dds IH]; intros nb; [reflexivity|]. cbn [bid_scores bid_logits]. destruct (Nat.eqb (ncount dd red) 0) eqn:E; cbn [andb].
  - destruct nb; cbn [negb]; [destruct (dd <? _)%nat; cbn [map]; rewrite ?IH; reflexivity|]. cbn [map]. rewrite IH. f_equal. unfold bid_new_score, ext_log, rltb. destruct (Rlt_dec 0 a); [reflexivity|contradiction].
  - cbn [map]. rewrite IH. f_equal. apply Nat.eqb_neq in E. rewrite ncount_occ in *. assert (I : In dd red) by (apply (count_occ_In Nat.eq_dec); lia). specialize (Hv dd I).
    unfold bid_old_score, ext_log, rltb. assert (0 < INR (count_occ Nat.eq_dec red dd)) by (apply lt_0_INR; lia). destruct (Rlt_dec 0 (INR _)); [|contradiction]. destruct (Rlt_dec 0 (nth dd vb 0)); [|Lra.lra]. destruct (Rlt_dec 0 (1 - nth dd vb 0)); [reflexivity|Lra.lra].
Qed.
