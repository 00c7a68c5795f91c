(* Proofs for C78: what a sweep requests, and the law of the new label. *)
From Coq Require Import Lqa.
From Verif Require Import Prelude Numpy Rng M_Weights M_Niw M_Utils M_Mix M_Query S_Weights S_Hist S_Mix S_SliceStep P_Lists P_Wp P_Hoare P_Inv P_Complete P_Random P_Tail P_Sticks P_Geom P_Grow P_Fixed P_Bid P_Loglik P_Mix P_MixW P_Mix37 P_Mix33 P_Mix34 P_Mix38.
Open Scope Q_scope.
Open Scope m_scope.

Lemma gather_prefix x t : forall idx r, gather x idx = Some r -> r = map (fun i => nth i (x ++ t) 0) idx.
Proof.
  induction idx as [|i l IH]; simpl; intros r H; [congruence|]. destruct (nth_error x i) eqn:Ei; [|discriminate]. destruct (gather x l) eqn:El; [|discriminate].
  injection H as <-. f_equal; [|apply IH; reflexivity]. apply nth_error_split in Ei as (l1 & l2 & -> & <-). rewrite <- app_assoc. rewrite app_nth2 by lia. rewrite Nat.sub_diag. reflexivity.
Qed.
Lemma update_weights_slices c fuel o s g : valid_oracle o ->
  wp o (update_weights c fuel) (fun r s' g' => r = Ok tt -> exists gu, s_u s' = fst (unif_draws o (slice_reqs s' (labels_of s)) gu)) s g.
Proof.
  intros Ho. unfold update_weights. wpure. unfold wm_fit. apply wp_bind, wp_onw, wp_upd. cbv iota beta.
  set (s1 := upd_wm _ _).
  destruct (s_d s) as [dl|] eqn:Ed.
  2:{ apply wp_bind, wp_onw. eapply wp_mono; [apply wp_any_triv|]. intros [a|e|] x g' _; wsteps; discriminate. }
  assert (El : labels_of s = dl) by (unfold labels_of; rewrite Ed; reflexivity).
  destruct (is_nil dl) eqn:Enil.
  { apply isnil in Enil. subst dl. apply wp_bind, wp_onw. eapply wp_mono; [apply wp_any_triv|]. intros [a|e|] x g' _; try discriminate.
    cbv beta iota. rewrite Enil. simpl gather. cbv iota. wstep. wstep. unfold tail_to_slice. wpure. simpl. wstep. discriminate. }
  apply nonnil in Enil.
  apply wp_bind, wp_onw. eapply wp_mono; [apply (random_full c o (s_wm s1) g Ho)|].
  { unfold s1; simpl. rewrite El; exact Enil. }
  intros [a|e|] x g1 H; try discriminate. destruct (H a eq_refl) as (Hf & -> & Hd & _). cbv beta iota.
  destruct (gather (w x) dl) as [wd|] eqn:Eg; [|wstep; discriminate].
  wstep. wstep. unfold tail_to_slice. wpure.
  match goal with |- context [upd_u ?u _] => set (uu := u) end.
  destruct (is_nil (s_u _)) eqn:Eu; [wstep; discriminate|].
  apply wp_bind, wp_onw. eapply wp_mono; [apply (tail_full c o fuel _ _ _ Ho)|]; [exact Hf|].
  intros [b|e|] x' g2 HT; try discriminate. destruct (HT b eq_refl) as (_ & _ & (t & HT3) & _). wstep. intros _.
  exists g1. simpl. unfold uu, slice_reqs. simpl. rewrite HT3, El. simpl. rewrite (gather_prefix (w x) t _ _ Eg), map_map. reflexivity.
Qed.
Lemma logpdf_rows_atoms E o js : forall s g, wp o (logpdf_rows E js) (fun r s' g' => forall ll, r = Ok ll ->
   length ll = length js /\ forall i, (i < length js)%nat -> exists a, lookup (nth i js 0%nat) (s_theta s') = Some a /\ e_logpdf E (s_y s) a = Ok (nth i ll [])) s g.
Proof.
  induction js as [|j t IH]; intros s g; simpl.
  - wstep. intros l [= <-]. split; [reflexivity|]. intros i Hi; lia.
  - eapply wp_call; [apply wp_and; [apply get_atom_wp|apply (keeps_wp o s_y _ s g (keeps_get_atom s_y j ltac:(reflexivity)))]| | |]; try (intros; congruence).
    intros a s1 g1 [H1 E1]. cbv beta in E1. specialize (H1 a eq_refl). wpure. apply wp_bind, wp_of_res.
    destruct (e_logpdf E (s_y s1) a) as [l0|e|] eqn:El; try discriminate.
    apply wp_bind. eapply wp_mono; [apply wp_and; [apply IH|apply (mono_wp o kept_atoms _ s1 g1 (kept_logpdf_rows E t))]|]. intros [l|e|] s2 g2 [H K]; try discriminate. wstep. intros l1 [= <-].
    destruct (H l eq_refl) as [Hl Ha]. split; [simpl; lia|]. intros [|i] Hi; cbn [nth].
    + exists a. split; [apply K, H1|]. rewrite <- E1. exact El.
    + rewrite <- E1. apply Ha. lia.
Qed.
Lemma update_d_scores E o s g : wp o (update_d E) (fun r s' g' => r = Ok tt -> s_u s' = s_u s /\ s_wm s' = s_wm s /\
   forall i, (i < length (labels_of s'))%nat -> exists ls gi, scores_at E s' i ls /\
     nth i (labels_of s') 0%nat = pick_label ls (o_gumbel o gi (map (fun l => negb (lx_is_neg l)) ls))) s g.
Proof.
  unfold update_d. wpure. set (k := length (w (s_wm s))).
  pose proof (keeps_wp o _ _ s g (keeps_logpdf_rows (fun s => (s_wm s, s_y s, s_u s)) E (seq 0 k) ltac:(reflexivity))) as W1.
  pose proof (logpdf_rows_atoms E o (seq 0 k) s g) as W2.
  apply wp_bind. unfold wp in W1, W2. unfold wp at 1. destruct (logpdf_rows E (seq 0 k) o s g) as [[[ll|e|] s1] g1]; try discriminate.
  destruct (W2 ll eq_refl) as [W4 W5]. injection W1 as Ewm Ey Eu. rewrite seq_length in W4, W5.
  cbv zeta. destruct (_ || _) eqn:Eb; [wstep; discriminate|].
  unfold wp, bind. rewrite draw_labels_eq. simpl. intros _. split; [exact Eu|]. split; [exact Ewm|]. intros i Hi. unfold labels_of in *. simpl in *.
  destruct (label_answers_nth o _ g1 i [] ltac:(rewrite label_answers_length in Hi; exact Hi)) as (gg & Hgg). rewrite label_answers_length, map_length, seq_length in Hi.
  rewrite nth_map_seq in Hgg by exact Hi. eexists _, gg. split; [|exact Hgg]. split; [simpl; rewrite Ewm; apply logits_length; exact W4|].
  intros j Hj. rewrite logits_length in Hj by exact W4. destruct (W5 j Hj) as (a & Ha & Hl). rewrite seq_nth in Ha by exact Hj.
  exists a, (nth j ll []). split; [exact Ha|]. simpl. rewrite Ey, Eu, Ewm. split; [exact Hl|]. apply nth_logits; [exact W4|exact Hj].
Qed.
Lemma c78_step_proof E c fuel o s g s' g' : valid_oracle o -> gibbs_step E c fuel o s g = (Ok tt, s', g') ->
  (exists gu, s_u s' = fst (unif_draws o (slice_reqs s' (labels_of s)) gu)) /\
  forall i, (i < length (labels_of s'))%nat -> exists ls gi, scores_at E s' i ls /\
     nth i (labels_of s') 0%nat = pick_label ls (o_gumbel o gi (map (fun l => negb (lx_is_neg l)) ls)).
Proof.
  intros Ho H. assert (W : wp o (gibbs_step E c fuel) (fun r s' g' => r = Ok tt ->
    (exists gu, s_u s' = fst (unif_draws o (slice_reqs s' (labels_of s)) gu)) /\
    forall i, (i < length (labels_of s'))%nat -> exists ls gi, scores_at E s' i ls /\
     nth i (labels_of s') 0%nat = pick_label ls (o_gumbel o gi (map (fun l => negb (lx_is_neg l)) ls))) s g).
  2:{ unfold wp in W. rewrite H in W. apply W; reflexivity. }
  unfold gibbs_step, update_all_atoms. wpure.
  eapply wp_call; [apply (keeps_wp o s_d _ s g (keeps_update_atoms s_d (nunique (labels_of s)) ltac:(reflexivity)))| | |]; try discriminate.
  intros [] s1 g1 E1. cbv beta in E1. assert (El : labels_of s1 = labels_of s) by (unfold labels_of; rewrite E1; reflexivity).
  eapply wp_call; [apply (update_weights_slices c fuel o s1 g1 Ho)| | |]; try discriminate.
  intros [] s2 g2 E2. destruct (E2 eq_refl) as (gu & Eu). 
  eapply wp_mono; [apply update_d_scores|]. intros r s3 g3 K Hr. destruct (K Hr) as (K1 & K2 & K3). split; [|exact K3].
  exists gu. rewrite K1, Eu. unfold slice_reqs. rewrite K2, El. reflexivity.
Qed.
