(* C17: BetaInDirichlet. *)
From Coq Require Import Lqa.
From Verif Require Import Prelude Numpy Rng M_Weights S_Weights S_Hist S_Draws S_Oracle P_Lists P_Hoare P_Wp P_Complete P_Random P_Post P_BB P_BB16.
Open Scope Q_scope.
Open Scope m_scope.

(* the candidates offered for a label *)
Lemma bid_logits_length red kmax : forall dds nb, (length (bid_logits red kmax dds nb) <= length dds)%nat.
Proof.
  induction dds as [|dd t IH]; intros nb; simpl; [lia|].
  destruct (_ && _); simpl; [specialize (IH true); lia|].
  destruct (Nat.eqb _ 0); [destruct (dd <? kmax + 1)%nat; simpl; specialize (IH nb); lia|simpl; specialize (IH nb); lia].
Qed.
Lemma bid_logits_true red kmax : In true (bid_logits red kmax (seq 0 (kmax + 2)) false).
Proof.
  replace (kmax + 2)%nat with (S (S kmax)) by lia. cbn [seq bid_logits]. rewrite andb_true_r.
  destruct (Nat.eqb (ncount 0 red) 0); left; reflexivity.
Qed.

Lemma firstn_incl {A} j (l : list A) : incl (firstn j l) l.
Proof. intros x Hx. rewrite <- (firstn_skipn j l). apply in_or_app; left; exact Hx. Qed.
Lemma skipn_incl {A} j (l : list A) : incl (skipn j l) l.
Proof. intros x Hx. rewrite <- (firstn_skipn j l). apply in_or_app; right; exact Hx. Qed.
Lemma ndelete_incl {A} j (l : list A) : incl (ndelete j l) l.
Proof. intros x Hx. apply in_app_or in Hx. destruct Hx; [eapply firstn_incl|eapply skipn_incl]; eassumption. Qed.
Lemma nmax_incl a b : incl a b -> (nmax a <= nmax b)%nat.
Proof.
  intros H. apply nmax_lub. apply Forall_forall. intros x Hx. pose proof (nmax_ge b) as G. rewrite Forall_forall in G. auto.
Qed.
Lemma nmax_nset j x l : (nmax (nset j x l) <= Nat.max x (nmax l))%nat.
Proof.
  apply nmax_lub. apply Forall_forall. intros y Hy. unfold nset in Hy. apply in_app_or in Hy.
  pose proof (nmax_ge l) as G. rewrite Forall_forall in G.
  destruct Hy as [H|[->|H]]; [apply firstn_incl in H; specialize (G y H); lia|lia|apply skipn_incl in H; specialize (G y H); lia].
Qed.

Lemma nth_true_lt l i : nth i l false = true -> (i < length l)%nat.
Proof. intros H. destruct (lt_dec i (length l)); [assumption|]. rewrite nth_overflow in H by lia. discriminate. Qed.

(* labels stay within the base sticks *)
Definition lab_ok (s : ws) : Prop := (nmax (dbase s) < length (vbase s))%nat.
Definition lpost (al : Q) {A} (s : ws) : post ws A := fun r s' g' =>
  r <> Err IndexError /\ d s' = d s /\ (0 < al -> length (dbase s') = length (dbase s) /\ lab_ok s') /\ (is_ok r = true -> length (dbase s') = length (dbase s) /\ lab_ok s').

Lemma bid_update_j_lab o al a j s g : valid_oracle o -> (j < length (dbase s))%nat -> lab_ok s ->
  wp o (bid_update_j al a j) (fun r s' g' => r <> Err IndexError /\ r <> Diverge /\ d s' = d s /\
    (is_ok r = true -> length (dbase s') = length (dbase s) /\ lab_ok s' /\
       (Qeq_bool a 0 = true -> nth j (dbase s') 1%nat = 0%nat /\ vbase s' = vbase s /\ (forall i, i <> j -> nth i (dbase s') 1%nat = nth i (dbase s) 1%nat)))) s g.
Proof.
  intros V Hj Hl. unfold bid_update_j. wpure. destruct (Qeq_bool a 0) eqn:Ea.
  - wpure. cbn [dbase set_dbase vbase d]. split; [discriminate|]. split; [discriminate|]. split; [reflexivity|].
    intros _. split; [apply nset_length; assumption|]. split.
    + unfold lab_ok in *. cbn [dbase set_dbase vbase]. pose proof (nmax_nset j 0 (dbase s)). lia.
    + intros _. split; [apply nth_nset_same; assumption|]. split; [reflexivity|]. intros i Hi. apply nth_nset_other; assumption.
  - destruct (is_nil (ndelete j (dbase s))) eqn:En.
    { apply wp_raise. repeat split; try discriminate. }
    pose proof (nmax_incl _ _ (ndelete_incl j (dbase s))) as Hk.
    set (k := nmax (ndelete j (dbase s))) in *. unfold lab_ok in Hl.
    destruct (Nat.ltb_spec k (length (vbase s))); [|lia]. cbn [negb].
    apply wp_bind, wp_gumbel1. wpure. cbn [dbase set_dbase vbase].
    set (x := o_gumbel o g (bid_logits (ndelete j (dbase s)) k (seq 0 (k + 2)) false)).
    assert (Hx : (x <= k + 1)%nat).
    { pose proof (vo_gumbel o V g _ (bid_logits_true (ndelete j (dbase s)) k)) as T. apply nth_true_lt in T. fold x in T.
      pose proof (bid_logits_length (ndelete j (dbase s)) k (seq 0 (k + 2)) false) as L. rewrite seq_length in L. lia. }
    pose proof (nmax_nset j x (dbase s)) as Hn.
    destruct (Nat.leb_spec (nmax (nset j x (dbase s))) (length (vbase s))); [|lia].
    apply wp_bind, wp_beta1.
    + intros _. wpure. cbn [dbase set_dbase vbase set_vbase d]. split; [discriminate|]. split; [discriminate|]. split; [reflexivity|].
      intros _. split; [apply nset_length; assumption|]. split; [|discriminate].
      unfold lab_ok. cbn [dbase set_dbase vbase set_vbase]. rewrite app_length. simpl. lia.
    + intros _. repeat split; try discriminate.
Qed.

Lemma bid_update_all_lab o al a : valid_oracle o -> forall js s g, Forall (fun j => j < length (dbase s))%nat js -> lab_ok s -> NoDup js ->
  wp o (bid_update_all al a js) (fun r s' g' => r <> Err IndexError /\ r <> Diverge /\ d s' = d s /\
    (is_ok r = true -> length (dbase s') = length (dbase s) /\ lab_ok s' /\
       (Qeq_bool a 0 = true -> vbase s' = vbase s /\ (forall i, In i js -> nth i (dbase s') 1%nat = 0%nat) /\
          (forall i, ~ In i js -> nth i (dbase s') 1%nat = nth i (dbase s) 1%nat)))) s g.
Proof.
  intros V. induction js as [|j js IH]; intros s g Hf Hl Hnd; cbn [bid_update_all].
  - wpure. split; [discriminate|]. split; [discriminate|]. split; [reflexivity|]. intros _. split; [reflexivity|]. split; [assumption|].
    intros _. split; [reflexivity|]. split; [intros i []|reflexivity].
  - inversion Hf as [|? ? Hj Hf']; subst. inversion Hnd as [|? ? Nj Nd]; subst. eapply wp_call; [apply bid_update_j_lab; assumption|..]; cbv beta.
    + intros [] s1 g1 (_ & _ & D1 & H1). destruct (H1 eq_refl) as (L1 & K1 & Z1). eapply wp_mono; [apply IH|]; auto.
      * rewrite L1. assumption.
      * cbv beta. intros r s2 g2 (A & B & C & D2). split; [exact A|]. split; [exact B|]. split; [congruence|]. intros Hr.
        destruct (D2 Hr) as (L2 & K2 & Z2). split; [congruence|]. split; [assumption|]. intros Ha.
        destruct (Z1 Ha) as (Y1 & Y2 & Y3). destruct (Z2 Ha) as (X1 & X2 & X3). split; [congruence|]. split.
        -- intros i [->|Hi]; [rewrite X3 by assumption; exact Y1|apply X2; exact Hi].
        -- intros i Hi. rewrite X3 by (intros F; apply Hi; right; exact F). apply Y3. intros ->. apply Hi. left; reflexivity.
    + intros e s1 g1 (A & B & C & _). repeat split; try congruence; try discriminate.
    + intros s1 g1 (_ & F & _). congruence.
Qed.

Lemma bid_draw_len o al ac bc dbs : forall js s g, wp o (bid_draw_vbase al ac bc dbs js) (fun r s' g' =>
   s' = s /\ r <> Err IndexError /\ r <> Diverge /\ (forall x, r = Ok x -> length x = length js)) s g.
Proof.
  induction js as [|j js IH]; intros s g; cbn [bid_draw_vbase].
  - wpure. split; [reflexivity|]. split; [discriminate|]. split; [discriminate|]. intros x [= <-]; reflexivity.
  - apply wp_bind, wp_beta1; [intros _|intros _; repeat split; discriminate].
    eapply wp_call; [apply IH|..]; cbv beta.
    + intros r s1 g1 (-> & _ & _ & H). wpure. split; [reflexivity|]. split; [discriminate|]. split; [discriminate|].
      intros x [= <-]. simpl. rewrite (H r eq_refl). reflexivity.
    + intros e sA gA (-> & A & _ & _). split; [reflexivity|]. split; [congruence|]. split; discriminate.
    + intros s1 g1 (_ & _ & F & _). congruence.
Qed.

Lemma lab_gather s : lab_ok s -> gather (vbase s) (dbase s) = Some (map (fun j => nth j (vbase s) 0) (dbase s)).
Proof.
  intros H. unfold lab_ok in H. pose proof (nmax_ge (dbase s)) as G.
  assert (F : Forall (fun j => j < length (vbase s))%nat (dbase s)). { eapply Forall_impl; [|exact G]. intros y Hy. simpl in Hy. lia. }
  clear - F. induction F as [|j t Hj F IH]; [reflexivity|]. cbn [gather map]. rewrite (nth_error_nth' _ 0 Hj), IH. reflexivity.
Qed.

Definition bid_fit_body (al a : Q) (dd : list nat) : M ws (list Q) :=
      let n := S (nmax dd) in
      upd (fun s => set_dbase (firstn n (dbase s ++ repeat 0%nat (n - length (dbase s)))) s) ;;
      s1 <- get ;;
      let k := S (nmax (dbase s1)) in
      let a_c := bincount dd in
      let b_c := tail_counts a_c in
      vb <- bid_draw_vbase al a_c b_c (dbase s1) (seq 0 k) ;;
      upd (set_vbase vb) ;;
      bid_update_all al a (seq 0 n) ;;
      upd (fun s => set_cbase (map (fun j => ncount j (dbase s)) (seq 0 (length (vbase s)))) s) ;;
      s2 <- get ;;
      match gather (vbase s2) (dbase s2) with
      | None => raise IndexError
      | Some nv => upd (set_v nv) ;; upd refresh_w ;; s3 <- get ;; ret (w s3)
      end.

Lemma bid_fit_body_wp al a dd o s g : valid_oracle o ->
  wp o (bid_fit_body al a dd) (fun r s' g' => r <> Err IndexError /\ r <> Diverge /\ d s' = d s /\ (is_ok r = true -> bid_fit_state a dd s')) s g.
Proof.
  intros V. unfold bid_fit_body. set (n := S (nmax dd)). wpure.
  set (db := firstn n (dbase s ++ repeat 0%nat (n - length (dbase s)))).
  assert (Ldb : length db = n) by (unfold db; rewrite firstn_length, app_length, repeat_length; lia).
  cbn [dbase set_dbase].
  eapply wp_call; [apply bid_draw_len|..]; cbv beta;
    [ intros vb sA gA (-> & _ & _ & Hvb); specialize (Hvb vb eq_refl); rewrite seq_length in Hvb; wpure
    | intros e sA gA (-> & A & _ & _); repeat split; try congruence; discriminate
    | intros sA gA (_ & _ & F & _); congruence].
  match goal with |- wp _ _ _ ?s2 ?g2 => set (s3 := s2); set (g3 := g2) end.
  assert (L3 : lab_ok s3) by (unfold lab_ok, s3; cbn [dbase set_dbase vbase set_vbase]; rewrite Hvb; lia).
  eapply wp_call; [apply (bid_update_all_lab o al a V (seq 0 n) s3 g3);
       [apply Forall_forall; intros j Hj; apply in_seq in Hj; change (dbase s3) with db; lia|exact L3|apply seq_NoDup]|..]; cbv beta;
    [ | intros e sB gB (A & B & D & _); split; [congruence|]; split; [congruence|]; split; [exact D|]; intros X; discriminate X | intros sB gB (_ & F & _); congruence].
  intros [] s4 g4 (_ & _ & D4 & H4); destruct (H4 eq_refl) as (L4 & K4 & Z4); wpure.
  match goal with |- context [match gather (vbase ?s2) (dbase ?s2) with _ => _ end] => set (s5 := s2) end.
  assert (K5 : lab_ok s5) by exact K4; rewrite (lab_gather s5 K5); wpure.
  split; [discriminate|]. split; [discriminate|]. split; [exact D4|]. intros _. unfold bid_fit_state.
  cbn [dbase vbase v cbase refresh_w set_w set_v].
  change (dbase s5) with (dbase s4); change (vbase s5) with (vbase s4).
  change (dbase s3) with db in *.
  split; [rewrite L4; exact Ldb|].
  split; [pose proof (nmax_ge (dbase s4)) as G; eapply Forall_impl; [|exact G]; intros y Hy; simpl in Hy; unfold lab_ok in K4; lia|].
  split; [unfold s5, counts_of; cbn [cbase set_cbase dbase vbase]; apply map_ext; intros j; apply ncount_n_eq|].
  split; [reflexivity|].
  intros Ha; apply Qeq_bool_iff in Ha; destruct (Z4 Ha) as (_ & Z5 & _).
  exists (nth 0%nat (vbase s4) 0).
  change (S (list_max dd)) with n.
  assert (E : dbase s4 = repeat 0%nat n).
  { apply nth_ext with (d := 1%nat) (d' := 1%nat); [rewrite repeat_length; lia|].
     intros i Hi; rewrite nth_repeat' by lia; apply Z5; apply in_seq; lia. }
  rewrite E, map_repeat. reflexivity.
Qed.

Lemma bid_step_noindex o al a s g : wp o (bid_complete_step al a) (fun r s' g' => r <> Err IndexError /\ r <> Diverge /\ d s' = d s) s g.
Proof. unfold bid_complete_step. wsteps; simpl; repeat split; discriminate. Qed.
Lemma repeatM_noindex o (m : M ws unit) n :
  (forall s g, wp o m (fun r s' g' => r <> Err IndexError /\ r <> Diverge /\ d s' = d s) s g) ->
  forall s g, wp o (repeatM n m) (fun r s' g' => r <> Err IndexError /\ r <> Diverge /\ d s' = d s) s g.
Proof.
  intros H. induction n as [|n IH]; intros s g; cbn [repeatM].
  - wpure. repeat split; discriminate.
  - eapply wp_call; [apply H|..]; cbv beta.
    + intros x s1 g1 (_ & _ & D). eapply wp_mono; [apply IH|]. cbv beta. intros r s2 g2 (P1 & P2 & D2). repeat split; congruence.
    + intros e s1 g1 (P1 & _ & D). repeat split; congruence.
    + intros s1 g1 (_ & F & _). congruence.
Qed.

Lemma bid_complete_noindex o al a z s g :
  wp o (bid_complete al a z) (fun r s' g' => r <> Err IndexError /\ r <> Diverge /\ d s' = d s) s g.
Proof.
  unfold bid_complete.
  assert (F : forall s1 g1, d s1 = d s ->
    wp o (z0 <- need_int z;; s0 <- get;;
           repeatM (Z.to_nat (z0 - Z.of_nat (length (v s0)))) (bid_complete_step al a);; upd refresh_w)
       (fun r s' g' => r <> Err IndexError /\ r <> Diverge /\ d s' = d s) s1 g1).
  { intros s1 g1 D1. apply wp_bind, wp_need_int; [intros k Hk|intros _; repeat split; try discriminate; exact D1]. wstep.
    eapply wp_call; [apply repeatM_noindex; intros; apply bid_step_noindex|..]; cbv beta.
    - intros [] s2 g2 (_ & _ & D). wpure. repeat split; try discriminate. cbn [d refresh_w set_w]. congruence.
    - intros e s2 g2 (A & B & C). repeat split; congruence.
    - intros s2 g2 (_ & B & _). congruence. }
  wstep. repeat first [solve [apply F; simpl; auto] | wstep]; simpl; auto; repeat split; discriminate.
Qed.

Lemma bid_random_noindex o al a z s g : valid_oracle o ->
  wp o (bid_random al a z) (fun r s' g' => r <> Err IndexError /\ r <> Diverge /\ d s' = d s /\
     (d s <> [] -> is_ok r = true -> bid_fit_state a (d s) s')) s g.
Proof.
  intros V. unfold bid_random. wstep. destruct (is_nil (d s)) eqn:Ed.
  - apply isnil in Ed. destruct (is_snone z) eqn:Ez; cbn [andb].
    { apply wp_raise. repeat split; try discriminate. }
    assert (F : forall z s1 g1, d s1 = d s -> wp o (bid_complete al a z ;; s <- get ;; ret (w s)) (fun r s' g' => r <> Err IndexError /\ r <> Diverge /\ d s' = d s /\
     (d s <> [] -> is_ok r = true -> bid_fit_state a (d s) s')) s1 g1).
    { intros z1 s1 g1 D. eapply wp_call; [apply bid_complete_noindex|..]; cbv beta.
      - intros [] s2 g2 (A & B & C). wpure. repeat split; try discriminate; try congruence.
      - intros e s2 g2 (A & B & C). repeat split; try congruence; discriminate.
      - intros s2 g2 (_ & B & _). congruence. }
    destruct z; try discriminate; try (apply wp_raise; repeat split; discriminate); wstep; wstep; apply F; reflexivity.
  - rewrite andb_false_r. destruct z; try (apply wp_raise; repeat split; discriminate); wstep; wstep.
    all: eapply wp_mono; [apply (bid_fit_body_wp al a (d s) o _ _ V)|]; cbv beta; intros r s1 g1 (A & B & C & D); repeat split; auto; apply D; auto.
Qed.

Lemma bid_tail_noindex o al a : forall fuel x s g, wp o (tail_loop (CBID al a) fuel x) (fun r s' g' => r <> Err IndexError /\ d s' = d s) s g.
Proof.
  induction fuel as [|f IH]; intros x s g; cbn [tail_loop]; wstep; (destruct (qltb (qsum (w s)) x); [|wpure; split; [discriminate|reflexivity]]).
  - unfold wp. split; [discriminate|reflexivity].
  - cbn [wm_complete]. apply wp_assoc. eapply wp_call; [apply bid_complete_noindex|..]; cbv beta.
    + intros [] s1 g1 (_ & _ & D). wpure. eapply wp_mono; [apply IH|]. cbv beta. intros r s2 g2 (A & B). split; congruence.
    + intros e s1 g1 (A & _ & D). split; congruence.
    + intros s1 g1 (_ & A & _). congruence.
Qed.

Lemma c17_noindex_proof al a op o s g : valid_oracle o -> wp o (exec_op (CBID al a) op) (fun r s' g' => r <> Err IndexError) s g.
Proof.
  intros V. destruct op as [z|z|fuel x|dd| |dd|z]; cbn [exec_op].
  - eapply wp_call; [apply (bid_random_noindex o al a z s g V)|..]; cbv beta; [intros; wpure; discriminate|intros e s1 g1 (A & _); congruence|intros; discriminate].
  - cbn [wm_complete]. apply wp_assoc. eapply wp_call; [apply bid_complete_noindex|..]; cbv beta; [intros; wpure; discriminate|intros e s1 g1 (A & _); congruence|intros; discriminate].
  - cbn [wm_tail]. unfold base_tail. destruct (qleb 1 x || qltb x 0); [apply wp_bind, wp_raise; discriminate|].
    apply wp_assoc, wp_bind, wp_get.
    assert (F : forall s1 g1, wp o (tail_loop (CBID al a) fuel x ;; s' <- get ;; ret (w s')) (fun r _ _ => r <> Err IndexError) s1 g1).
    { intros s1 g1. eapply wp_call; [apply bid_tail_noindex|..]; cbv beta; [intros; wpure; discriminate|intros e s2 g2 (A & _); congruence|intros; discriminate]. }
    destruct (is_nil (w s)).
    + apply wp_assoc. eapply wp_call; [apply (bid_random_noindex o al a (SInt 1) s g V)|..]; cbv beta; [|intros e s1 g1 (A & _); congruence|intros; discriminate].
      intros y s1 g1 _. eapply wp_call; [apply F|..]; cbv beta; [intros; wpure; discriminate|intros e s2 g2 A; congruence|intros; discriminate].
    + apply wp_assoc, wp_bind, wp_ret. eapply wp_call; [apply F|..]; cbv beta; [intros; wpure; discriminate|intros e s2 g2 A; congruence|intros; discriminate].
  - unfold wp. cbn. discriminate.
  - unfold wp. cbn. discriminate.
  - unfold wm_assign_weights. apply wp_assoc, wp_bind, wp_get. set (dl := match dd with Some l => l | None => d s end).
    destruct (is_nil dl); [apply wp_bind, wp_raise; discriminate|].
    apply wp_assoc. cbn [wm_complete]. apply wp_assoc.
    assert (H : wp o (bid_complete al a (SNp64 (Z.of_nat (nmax dl) + 1))) (fun r s' _ => r <> Err IndexError /\ r <> Diverge /\ (is_ok r = true -> (nmax dl < length (w s'))%nat)) s g).
    { pose proof (bid_complete_noindex o al a (SNp64 (Z.of_nat (nmax dl) + 1)) s g) as A.
      pose proof (bid_complete_wp o al a (SNp64 (Z.of_nat (nmax dl) + 1)) _ s g eq_refl) as B.
      unfold wp in *. destruct (bid_complete al a _ o s g) as [[r s'] g']. destruct A as (A1 & A2 & _). repeat split; auto.
      intros Hr. destruct r; try discriminate. destruct B as (_ & Hw & Hlen & _) . rewrite Hw, stick_length. lia. }
    eapply wp_call; [exact H|..]; cbv beta; [|intros e s2 g2 (A & _); congruence|intros; discriminate].
    intros [] s1 g1 (_ & _ & L). wpure. specialize (L eq_refl).
    assert (G : exists r, gather (w s1) dl = Some r).
    { assert (F : Forall (fun j => j < length (w s1))%nat dl). { eapply Forall_impl; [|apply nmax_ge]. intros y Hy. simpl in Hy. lia. }
      clear - F. induction F as [|j t Hj F [r IH]]; [exists []; reflexivity|]. cbn [gather]. rewrite (nth_error_nth' _ 0 Hj), IH. eauto. }
    destruct G as [r ->]. wpure. discriminate.
  - unfold wm_random_assignment. destruct z; wsteps; discriminate.
Qed.

Lemma bid_draw_verr o al ac bc dbs : forall js s g, wp o (bid_draw_vbase al ac bc dbs js) (fun r s' g' =>
   s' = s /\ (r = Err ValueError \/ exists x, r = Ok x)) s g.
Proof.
  induction js as [|j js IH]; intros s g; cbn [bid_draw_vbase].
  - wpure. eauto.
  - apply wp_bind, wp_beta1; [intros _|intros _; auto].
    eapply wp_call; [apply IH|..]; cbv beta.
    + intros r s1 g1 (-> & _). wpure. eauto.
    + intros e s1 g1 (-> & [A|[x A]]); [injection A as ->; auto|discriminate].
    + intros s1 g1 (_ & [A|[x A]]); discriminate.
Qed.

Lemma c17_single_proof al a z o s g : d s <> [] -> list_max (d s) = 0%nat -> ~ a == 0 -> int_or_none z ->
  wp o (bid_random al a z) (fun r s' g' => r = Err ValueError) s g.
Proof.
  intros Hd Hm Ha Hz. unfold bid_random. wstep. rewrite (snil _ Hd), andb_false_r.
  assert (F : forall s g, wp o (bid_fit_body al a (d s)) (fun r s' g' => list_max (d s) = 0%nat -> r = Err ValueError) s g).
  { clear - Ha. intros s g. unfold bid_fit_body. wpure. eapply wp_call; [apply bid_draw_verr|..]; cbv beta.
    - intros x sA gA (-> & _). wpure. unfold wp. intros. change (nmax (d s)) with (list_max (d s)).
      destruct (list_max (d s)) eqn:E.
      + cbn [seq bid_update_all]. 
        match goal with |- match bind (bind (bid_update_j _ _ _) _) _ _ ?s1 ?g1 with _ => _ end =>
          assert (X : bid_update_j al a 0 o s1 g1 = (Err ValueError, s1, g1)) end.
        { unfold bid_update_j, bind, get. destruct (Qeq_bool a 0) eqn:Q; [apply Qeq_bool_iff in Q; contradiction|].
          cbn [set_vbase set_dbase dbase].
          match goal with |- context [is_nil (ndelete 0 ?l)] => assert (Y : length l = 1%nat) end.
          { rewrite firstn_length, app_length, repeat_length. lia. }
          match goal with |- context [is_nil (ndelete 0 ?l)] => destruct l as [|y0 [|]]; try discriminate Y end.
          reflexivity. }
        unfold bind at 1 2. rewrite X. reflexivity.
      + match goal with |- match ?e with _ => _ end => destruct e as [[? ?] ?] end. discriminate.
    - intros e sA gA (-> & [A|[y A]]) _; [exact A|discriminate].
    - intros sA gA (-> & [A|[y A]]) _; discriminate. }
  destruct z; try contradiction; wstep; wstep.
  all: match goal with |- wp _ _ _ ?s1 ?g1 => pose proof (F s1 g1) as X end; eapply wp_mono; [exact X|]; cbv beta; intros r s1 g1 Y; apply Y; exact Hm.
Qed.

Lemma c17_fit_proof al a size o s g : valid_oracle o -> d s <> [] ->
  wp o (wm_random (CBID al a) size) (fun r s' _ => is_ok r = true -> bid_fit_state a (d s) s') s g.
Proof. intros V H. eapply wp_mono; [apply (bid_random_noindex o al a size s g V)|]. cbv beta. intros r s' g' (_ & _ & _ & X). auto. Qed.
Lemma c17_single_proof' al a z o s g : d s <> [] -> list_max (d s) = 0%nat -> ~ a == 0 -> int_or_none z ->
  wp o (wm_random (CBID al a) z) (fun r s' g' => r = Err ValueError) s g.
Proof. apply c17_single_proof. Qed.
