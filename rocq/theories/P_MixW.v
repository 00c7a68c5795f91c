(* Weight-model facts used by the Gibbs sampler: random() after fit(), tail,
   and the likelihood's complete. *)
From Coq Require Import Lqa.
From Verif Require Import Prelude Numpy Rng M_Weights S_Weights S_Hist P_Lists P_Hoare P_Wp P_Inv P_Complete P_Random P_Tail P_Sticks P_Geom P_Grow P_Fixed.
Open Scope Q_scope.
Open Scope m_scope.

(* the weight object right after random() in a sweep, and later in it *)
Definition wfull (c : cls) (x : ws) : Prop :=
  w x <> [] /\
  if growing c then coherent c x
  else prob (w x) /\
       match c with
       | CDirDist _ al => length (w x) = length al
       | CEqual => (0 < wn x)%Z /\ w x = repeat (1 / zq (wn x)) (Z.to_nat (wn x))
       | CFreq _ => d x <> [] /\ w x = map (fun y => y / qsum (map nq (bincount (d x)))) (map nq (bincount (d x)))
       | _ => True
       end.

Lemma prob_nonnil l : prob l -> l <> [].
Proof. intros [_ H] ->. simpl in H. lra. Qed.

Lemma random_full c o x g : valid_oracle o -> d x <> [] ->
  wp o (wm_random c SNone) (fun r x' g' => forall a, r = Ok a -> wfull c x' /\ a = w x' /\ d x' = d x /\
      (c <> CEqual -> (nmax (d x) < length (w x'))%nat)) x g.
Proof.
  intros Ho Hd. destruct (growing c) eqn:Hg.
  - eapply wp_mono; [apply (wm_random_wp c o SNone x g Hg I)|].
    intros [a|e|] x' g' H b Hb; try discriminate. injection Hb as <-.
    destruct H as (H1 & H2 & H3 & H4). pose proof (coherent_len _ _ H1) as HL.
    assert (E : length (w x') = S (nmax (d x))).
    { rewrite HL, H2. unfold random_len. destruct c; try discriminate Hg; reflexivity. }
    split; [|repeat split; auto; lia]. split; [intros K; rewrite K in E; discriminate|]. rewrite Hg. exact H1.
  - destruct c; try discriminate Hg; simpl wm_random.
    + unfold dd_random. wstep. wstep; [apply isnil in Heqb; congruence|].
      wstep; [wstep; discriminate|]. apply Nat.leb_gt in Heqb0.
      wstep; [|discriminate]. wsteps. intros a [= <-].
      match goal with |- context [set_w ?l x] => set (X := l) end.
      assert (HX : length X = length alpha).
      { unfold X. rewrite (vo_dir_len o Ho), !map_length, combine_length, pad_length. lia. }
      assert (HP : prob X).
      { apply dirichlet_prob; auto. intros K. apply (f_equal (@length _)) in K.
        rewrite map_length, combine_length, pad_length in K. simpl in K. lia. }
      split; [|simpl; repeat split; auto; intros; lia].
      split; [simpl; apply prob_nonnil; exact HP|]. simpl. auto.
    + unfold eq_random, repeat_inv. wsteps; try discriminate. intros a [= <-].
      apply Z.ltb_ge in Heqb0. apply Z.eqb_neq in Heqb.
      assert (HP : prob (repeat (1 / zq (wn x)) (Z.to_nat (wn x)))) by (apply repeat_inv_prob; lia).
      split; [|simpl; repeat split; auto; congruence].
      split; [simpl; apply prob_nonnil; exact HP|]. simpl. repeat split; try apply HP; auto; lia.
    + unfold freq_random. wstep. wstep; [apply isnil in Heqb; congruence|]. wsteps. intros a [= <-].
      pose proof (freq_prob _ Hd) as HP.
      split; [|simpl; repeat split; auto; intros; rewrite !map_length, bincount_length by assumption; lia].
      split; [simpl; apply prob_nonnil; exact HP|]. simpl. auto.
Qed.

Lemma tail_full c o fuel q x g : valid_oracle o -> wfull c x ->
  wp o (wm_tail c fuel q) (fun r x' g' => forall a, r = Ok a -> wfull c x' /\ d x' = d x /\
      (exists t, w x' = w x ++ t) /\ 0 <= q /\ q < 1 /\ ((forall pa pb, c <> CGeom pa pb) -> q <= qsum (w x'))) x g.
Proof.
  intros Ho [Hn Hx]. destruct (growing c) eqn:Hg.
  - assert (P : forall x', coherent c x' -> (exists t, v x' = v x ++ t) -> wfull c x' /\ exists t, w x' = w x ++ t).
    { intros x' H1 (t & H2).
      assert (exists t, w x' = w x ++ t) as (t' & E).
      { rewrite (proj1 H1), (proj1 Hx), H2. destruct (stick_extends (v x) t) as (l & El). exists l. exact El. }
      split; [|eauto]. split; [|rewrite Hg; exact H1]. rewrite E. destruct (w x); [congruence|discriminate]. }
    assert (D : (exists pa pb, c = CGeom pa pb) \/ (forall pa pb, c <> CGeom pa pb)) by (destruct c; eauto; right; congruence).
    destruct D as [(pa & pb & ->)|D].
    + simpl wm_tail. eapply wp_mono; [apply (geom_tail_wp pa pb o q x g Hx)|].
      intros [a|e|] x' g' [H1 H2] b Hb; try discriminate. injection Hb as <-.
      destruct H1 as (H1 & H3 & H4). destruct (P x' H1 H3) as [P1 P2]. destruct (H2 _ eq_refl) as (Q1 & Q2 & _).
      repeat split; auto; try apply P1. intros K. destruct (K pa pb); reflexivity.
    + rewrite tail_is_base by exact D.
      eapply wp_mono; [apply (base_tail_wp c o fuel q x g Hg Hx)|].
      intros [a|e|] x' g' [H1 H2] b Hb; try discriminate. injection Hb as <-.
      destruct H1 as (H1 & H3 & H4). destruct (P x' H1 H3) as [P1 P2]. destruct (H2 _ eq_refl) as (Q1 & Q2 & Q3 & _).
      repeat split; auto; apply P1.
  - assert (D : forall pa pb, c <> CGeom pa pb) by (intros pa pb ->; discriminate Hg).
    rewrite tail_is_base by exact D. unfold base_tail. wstep; [wstep; discriminate|].
    apply range_ok in Heqb as [Hq0 Hq].
    wstep. destruct (is_nil (w x)) eqn:E; [apply isnil in E; congruence|]. wstep.
    unfold wp, bind. rewrite tail_loop_fix; [|exact Hq|apply Hx]. simpl. intros a _.
    split; [split; [exact Hn|rewrite Hg; exact Hx]|]. split; [reflexivity|]. split; [exists []; rewrite app_nil_r; reflexivity|].
    split; [exact Hq0|]. split; [exact Hq|]. intros _. destruct Hx as [[_ Hs] _]. rewrite qsum_total, Hs. lra.
Qed.

(* complete(k) with k no larger than the number of weights *)
Lemma complete_full c o k x g : wfull c x -> (k < length (w x))%nat ->
  wp o (wm_complete c (SNp64 (Z.of_nat k + 1))) (fun r x' g' => forall a, r = Ok a -> wfull c x' /\ d x' = d x /\ w x' = w x) x g.
Proof.
  intros [Hn Hx] Hk. destruct (growing c) eqn:Hg.
  - eapply wp_mono; [eapply (wm_complete_wp c o _ _ x g Hg Hx); reflexivity|].
    intros [a|e|] x' g' H b Hb; try discriminate. destruct H as (H1 & (t & H2) & H3 & H4 & _).
    rewrite (coherent_len _ _ Hx) in Hk.
    assert (t = []) as ->.
    { assert (M : (min_len c <= 1)%nat) by (destruct c; simpl; lia).
      rewrite H2, app_length in H3. destruct t; [reflexivity|]. cbn [length] in H3. lia. }
    rewrite app_nil_r in H2.
    assert (E : w x' = w x) by (rewrite (proj1 H1), (proj1 Hx), H2; reflexivity).
    split; [split; [congruence|rewrite Hg; exact H1]|auto].
  - destruct c; try discriminate Hg; simpl wm_complete.
    + unfold dd_complete. wstep. wstep; [|discriminate]. wstep. wstep.
      destruct (is_nil (w x)) eqn:E; [apply isnil in E; congruence|]. wsteps. intros; split; [split; [exact Hn|exact Hx]|auto].
    + destruct Hx as (H1 & H2 & H3). unfold eq_random, repeat_inv. wsteps; try discriminate. intros; split; [|split; [reflexivity|simpl; congruence]].
      split; simpl; [congruence|]. rewrite <- H3; auto.
    + destruct Hx as (H1 & H2 & H3). unfold freq_random. wstep. wstep. wstep; [wsteps; apply isnil in Heqb; congruence|].
      wsteps. intros; split; [|split; [reflexivity|simpl; congruence]].
      split; simpl; [congruence|]. rewrite <- H3; auto.
Qed.
Lemma gather_ok x (l : list nat) : Forall (fun j => (j < length x)%nat) l -> exists r : list Q, gather x l = Some r.
Proof. intros H. destruct (gather x l) eqn:E; [eauto|]. apply gather_none in E. apply Exists_exists in E. rewrite Forall_forall in H. destruct E as (y & Hy & K). specialize (H y Hy). lia. Qed.

Lemma assign_full c o l x g : wfull c x -> Forall (fun j => (j < length (w x))%nat) l -> l <> [] ->
  wp o (wm_assign_weights c (Some l)) (fun r x' g' => 
     (forall a, r = Ok a -> wfull c x' /\ d x' = d x /\ w x' = w x /\ gather (w x) l = Some a) /\ (r = Err IndexError -> wm_complete c (SNp64 (Z.of_nat (nmax l) + 1)) o x g = (Err IndexError, x', g'))) x g.
Proof.
  intros Hx Hl Hn. unfold wm_assign_weights. wstep. destruct (is_nil l) eqn:E; [apply isnil in E; congruence|].
  assert (Hm : (nmax l < length (w x))%nat) by (rewrite Forall_forall in Hl; apply Hl, nmax_in, Hn).
  pose proof (complete_full c o (nmax l) x g Hx Hm) as W. unfold wp, bind in *. simpl.
  destruct (wm_complete c (SNp64 (Z.of_nat (nmax l) + 1)) o x g) as [[[a|e|] x'] g'] eqn:EC.
  - destruct (W a eq_refl) as (W1 & W2 & W3). unfold get. rewrite W3. destruct (gather_ok _ _ Hl) as (r & Er). rewrite Er.
    simpl. split; [|discriminate]. intros b [= <-]; auto.
  - split; [discriminate|]. congruence.
  - split; discriminate.
Qed.
