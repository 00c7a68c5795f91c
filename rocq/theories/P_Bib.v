(* C13, C14: BetaInBeta at x = 0 and x = 1. *)
From Coq Require Import Lqa.
From Verif Require Import Prelude Numpy Rng M_Weights S_Weights S_Hist S_Draws S_Oracle P_Lists P_Hoare P_Wp P_Complete P_Random P_Post P_Rel.
Open Scope Q_scope.
Open Scope m_scope.

Lemma rel_same {A} o s1 s2 g (m1 m2 : M ws A) : rel same_view same_view same_view m1 m2 -> same_view s1 s2 ->
  same_call same_view (m1 o s1 g) (m2 o s2 g).
Proof.
  intros H Hs. specialize (H o s1 s2 g Hs). unfold same_call.
  destruct (m1 o s1 g) as [[r1 t1] g1], (m2 o s2 g) as [[r2 t2] g2].
  destruct H as (A1 & A2 & H). repeat split; auto; destruct r1; apply H.
Qed.
Lemma c13_random_proof x al a b pm z o s1 s2 g : x == 0 -> int_or_none z -> same_view s1 s2 ->
  same_call same_view (wm_random (CBIB x al a b pm) z o s1 g) (wm_random (CDP al) z o s2 g).
Proof. intros. apply rel_same; auto. apply c13_random; assumption. Qed.
Lemma c13_complete_proof x al a b pm z o s1 s2 g : x == 0 -> same_view s1 s2 ->
  same_call same_view (wm_complete (CBIB x al a b pm) z o s1 g) (wm_complete (CDP al) z o s2 g).
Proof. intros. apply rel_same; auto. apply c13_wm_complete; assumption. Qed.
Lemma c13_history_proof x al a b pm parg o ops s1 g1 s2 g2 : x == 0 -> Forall int_sized ops ->
  new_ws (CBIB x al a b pm) parg 0 o = Ok (s1, g1) -> new_ws (CDP al) 0 0 o = Ok (s2, g2) ->
  let '(t1, h1) := run_ops (CBIB x al a b pm) ops o s1 g1 in
  let '(t2, h2) := run_ops (CDP al) ops o s2 g2 in
  same_view t1 t2 /\ h1 = h2.
Proof.
  intros Hx Hf E1 E2. injection E1 as <- <-. injection E2 as <- <-.
  pose proof (c13_run x al a b pm o Hx ops (ws_init parg 0) (ws_init 0 0) [] Hf) as H.
  destruct (run_ops (CBIB x al a b pm) ops o (ws_init parg 0) []) as [t1 h1], (run_ops (CDP al) ops o (ws_init 0 0) []) as [t2 h2].
  apply H. repeat split.
Qed.


Lemma x1_facts x : x == 1 -> Qeq_bool x 1 = true /\ qltb x 1 = false /\ qltb 0 x = true.
Proof. intros H. split; [apply Qeq_bool_iff; assumption|split; [apply qltb_ge; lra|apply qltb_lt; lra]]. Qed.

Lemma wp_random_p1 x a b pm o s g (P : post ws Q) : x == 1 -> 0 < a -> 0 < b ->
  (let pp := o_beta o g (Qred (a + nq (length (d s)))) (Qred (b + nq (list_sum (d s)))) in
   P (Ok pp) (set_p pp s) (g ++ [bib_req a b (d s)])) ->
  wp o (bib_random_p x a b pm) P s g.
Proof.
  intros Hx Ha Hb H. destruct (x1_facts x Hx) as (E1 & _ & _). unfold bib_random_p. wpure. rewrite E1.
  apply wp_bind. change (nsum (d s)) with (list_sum (d s)). apply wp_beta1_ok.
  - pose proof (nq_nonneg (length (d s))). lra.
  - pose proof (nq_nonneg (list_sum (d s))). lra.
  - wpure. exact H.
Qed.

(* unfitted: no draw; every stick is the stored p *)
Lemma c14_unfitted_proof x al a b pm k o s g : x == 1 -> d s = [] -> (0 < k)%nat ->
  ends_with (wm_random (CBIB x al a b pm) (SInt (Z.of_nat k)) o s g) (fun r s' g' =>
    r = Ok (w s') /\ g' = g /\ v s' = repeat (p s) k /\ p s' = p s /\ stick_image (v s') (w s')).
Proof.
  intros Hx Hd Hk. destruct (x1_facts x Hx) as (E1 & E2 & E3).
  change (wp o (wm_random (CBIB x al a b pm) (SInt (Z.of_nat k))) (fun r s' g' =>
    r = Ok (w s') /\ g' = g /\ v s' = repeat (p s) k /\ p s' = p s /\ stick_image (v s') (w s')) s g).
  simpl wm_random. unfold bib_random. wpure. rewrite Hd. cbn [is_snone is_nil andb]. wpure.
  unfold bib_complete. apply wp_assoc. apply wp_bind. cbn [base_complete_check]. wpure.
  cbn [v set_v length Nat.eqb negb]. wpure. eapply wp_int; [reflexivity|]. wpure.
  cbn [v set_v length]. rewrite E2.
  destruct (Z.ltb_spec (Z.of_nat 0) (Z.of_nat k)); [|lia]. wpure.
  replace (Z.to_nat (Z.of_nat k - Z.of_nat 0)) with k by lia.
  cbn. repeat split; auto. - apply stick_length. - intros j Hj. apply stick_image_stick. exact Hj.
Qed.

(* complete on existing sticks: p is redrawn, old sticks stay *)
Lemma c14_complete_wp x al a b pm k o s g : x == 1 -> 0 < a -> 0 < b -> v s <> [] -> (0 <= k)%Z ->
  let pp := o_beta o g (Qred (a + nq (length (d s)))) (Qred (b + nq (list_sum (d s)))) in
  wp o (bib_complete x al a b pm (SInt k)) (fun r s' g' =>
    g' = g ++ [bib_req a b (d s)] /\ p s' = pp /\ d s' = d s /\
    v s' = v s ++ repeat pp (Z.to_nat k - length (v s)) /\
    r = Ok (w s') /\ w s' = if (length (v s) <? Z.to_nat k)%nat then stick (v s') else w s) s g.
Proof.
  intros Hx Ha Hb Hv Hk pp. destruct (x1_facts x Hx) as (E1 & E2 & E3).
  unfold bib_complete. apply wp_bind. cbn [base_complete_check]. wpure.
  assert (Hl : (length (v s) <> 0)%nat) by (destruct (v s); [congruence|discriminate]).
  apply Nat.eqb_neq in Hl. rewrite Hl. cbn [negb].
  apply wp_bind. apply wp_random_p1; auto. cbv zeta. eapply wp_int; [reflexivity|]. wpure.
  fold pp. cbn [v set_p p]. rewrite E2.
  destruct (Z.ltb_spec (Z.of_nat (length (v s))) k).
  - wpure. replace (Z.to_nat (k - Z.of_nat (length (v s)))) with (Z.to_nat k - length (v s))%nat by lia.
    destruct (Nat.ltb_spec (length (v s)) (Z.to_nat k)); [|lia]. repeat split; reflexivity.
  - wpure. destruct (Nat.ltb_spec (length (v s)) (Z.to_nat k)); [lia|].
    replace (Z.to_nat k - length (v s))%nat with 0%nat by lia. simpl. rewrite app_nil_r. repeat split; reflexivity.
Qed.

Lemma c14_fitted_proof x al a b pm size k o s g : x == 1 -> 0 < a -> 0 < b -> d s <> [] -> (0 < k)%nat ->
  (size = SNone /\ k = S (list_max (d s)) \/ size = SInt (Z.of_nat k)) ->
  let rq := bib_req a b (d s) in
  ends_with (wm_random (CBIB x al a b pm) size o s g) (fun r s' g' =>
    r = Ok (w s') /\ g' = g ++ [rq; rq] /\ d s' = d s /\
    (exists p1, beta_answers o g [rq; rq] = [p1; p s'] /\ v s' = repeat p1 k) /\
    stick_image (v s') (w s')).
Proof.
  intros Hx Ha Hb Hd Hk Hz rq. destruct (x1_facts x Hx) as (E1 & E2 & E3).
  change (wp o (wm_random (CBIB x al a b pm) size) (fun r s' g' =>
    r = Ok (w s') /\ g' = g ++ [rq; rq] /\ d s' = d s /\
    (exists p1, beta_answers o g [rq; rq] = [p1; p s'] /\ v s' = repeat p1 k) /\
    stick_image (v s') (w s')) s g).
  simpl wm_random. unfold bib_random. wpure.
  rewrite (snil _ Hd). rewrite andb_false_r. wpure. rewrite E3.
  apply wp_bind. apply wp_random_p1; auto. cbv zeta.
  assert (Ez : (if is_snone size then SInt (Z.of_nat (length (bincount (d s)))) else size) = SInt (Z.of_nat k)).
  { destruct Hz as [[-> ->]| ->]; simpl; [|reflexivity]. rewrite bincount_length by assumption. reflexivity. }
  rewrite Ez. eapply wp_int; [reflexivity|]. wpure. rewrite E2.
  destruct (Z.ltb_spec (Z.of_nat k) 0); [lia|]. wpure. rewrite Nat2Z.id.
  set (p1 := o_beta o g (Qred (a + nq (length (d (set_v [] s))))) (Qred (b + nq (list_sum (d (set_v [] s)))))).
  cbn [p set_p].
  match goal with |- wp _ _ _ ?s1 ?g1 => set (s2 := s1) end.
  assert (Hv2 : v s2 = repeat p1 k) by reflexivity.
  eapply wp_call.
  - apply (c14_complete_wp x al a b pm (Z.of_nat k) o s2 _ Hx Ha Hb); [|lia].
    rewrite Hv2. destruct k; [lia|discriminate].
  - cbv beta. intros r s' g' (G1 & G2 & G3 & G4 & G5 & G6). wpure.
    rewrite Nat2Z.id, Hv2, repeat_length, Nat.ltb_irrefl, Nat.sub_diag in *. simpl in G4. rewrite app_nil_r in G4.
    split; [reflexivity|]. split; [rewrite G1, <- app_assoc; reflexivity|]. split; [exact G3|]. split.
    + exists p1. split; [|exact G4]. rewrite G2. reflexivity.
    + rewrite G6. change (w s2) with (stick (v s2)). rewrite G4, <- Hv2. apply stick_image_stick.
  - intros e s' g' (_ & _ & _ & _ & G & _); discriminate.
  - intros s' g' (_ & _ & _ & _ & G & _); discriminate.
Qed.

Lemma c14_complete_proof x al a b pm k o s g : x == 1 -> 0 < a -> 0 < b -> v s <> [] ->
  let rq := bib_req a b (d s) in
  ends_with (wm_complete (CBIB x al a b pm) (SInt (Z.of_nat k)) o s g) (fun r s' g' =>
    r = Ok (Some (w s')) /\ g' = g ++ [rq] /\ beta_answers o g [rq] = [p s'] /\
    v s' = v s ++ repeat (p s') (k - length (v s))).
Proof.
  intros Hx Ha Hb Hv rq.
  change (wp o (wm_complete (CBIB x al a b pm) (SInt (Z.of_nat k))) (fun r s' g' =>
    r = Ok (Some (w s')) /\ g' = g ++ [rq] /\ beta_answers o g [rq] = [p s'] /\
    v s' = v s ++ repeat (p s') (k - length (v s))) s g).
  simpl wm_complete. eapply wp_call; [apply (c14_complete_wp x al a b pm (Z.of_nat k) o s g Hx Ha Hb Hv); lia|..]; cbv beta.
  - intros r s' g' (G1 & G2 & G3 & G4 & G5 & G6). wpure. injection G5 as ->. rewrite Nat2Z.id in G4. rewrite <- G2 in G4.
    repeat split; auto. rewrite G2. reflexivity.
  - intros e s' g' (_ & _ & _ & _ & G & _); discriminate.
  - intros s' g' (_ & _ & _ & _ & G & _); discriminate.
Qed.
