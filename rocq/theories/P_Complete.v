(* complete / random / tail: how the stick vector and the weights evolve. *)
From Coq Require Import Lqa.
From Verif Require Import Prelude Numpy Rng M_Weights S_Weights P_Lists P_Hoare P_Wp.
Open Scope Q_scope.
Open Scope m_scope.

(* weights and sticks agree *)
Definition coherent (c : cls) (s : ws) : Prop :=
  w s = stick (v s) /\
  match c with CGeom _ _ => v s = repeat (p s) (length (v s)) | _ => True end.

Definition grew (s s' : ws) (n : nat) : Prop :=
  (exists t, v s' = v s ++ t) /\ w s' = stick (v s') /\ length (v s') = n /\ d s' = d s.

Lemma grew_refl s : w s = stick (v s) -> grew s s (length (v s)).
Proof. intros H; repeat split; auto. exists []; rewrite app_nil_r; reflexivity. Qed.

Lemma max_lt a z : (Z.of_nat a < z)%Z -> Nat.max a (Z.to_nat z) = Z.to_nat z.
Proof. intros; lia. Qed.
Lemma max_ge a z : (z <= Z.of_nat a)%Z -> Nat.max a (Z.to_nat z) = a.
Proof. intros; lia. Qed.

Ltac zb := repeat match goal with
  | H : (_ <? _)%Z = true |- _ => apply Z.ltb_lt in H
  | H : (_ <? _)%Z = false |- _ => apply Z.ltb_ge in H
  | H : (_ <=? _)%Z = true |- _ => apply Z.leb_le in H
  | H : (_ =? _)%nat = true |- _ => apply Nat.eqb_eq in H
  | H : (_ =? _)%nat = false |- _ => apply Nat.eqb_neq in H
  end.

(* result of complete: Ok with growth to max(len, size), or an exception *)
Definition cpost {A} (s : ws) (n : Z) (r : res A) (s' : ws) : Prop :=
  match r with
  | Ok _ => grew s s' (Nat.max (length (v s)) (Z.to_nat n))
  | Err _ => d s' = d s
  | Diverge => False
  end.
(* the returned array is the stored one *)
Definition retw (r : res (list Q)) (s' : ws) : Prop := forall a, r = Ok a -> a = w s'.

Ltac fin_grew :=
  first [ rewrite max_lt by lia; repeat split; simpl; auto;
          [eexists; reflexivity|rewrite ?app_length, ?beta_draws_length, ?repeat_length, ?map_length, ?seq_length; lia]
        | rewrite max_ge by lia; match goal with H : _ \/ _ |- _ => destruct H; [auto using grew_refl|lia] end ].
Ltac fin_c Hz :=
  simpl; auto; zb;
  try (split; [solve [auto]|intros ? ?; discriminate]);
  try match goal with H : size_val ?z = Some ?k |- _ =>
    lazymatch H with Hz => fail | _ => rewrite Hz in H; injection H as <- end end;
  try congruence;
  try (split; [|intros ? [= <-]; reflexivity]; try fin_grew).

Lemma dp_complete_wp o al z n s g : size_val z = Some n -> w s = stick (v s) \/ (Z.of_nat (length (v s)) < n)%Z ->
  wp o (dp_complete al z) (fun r s' g' => cpost s n r s' /\ retw r s') s g.
Proof. intros Hz Hs. unfold dp_complete. wsteps; fin_c Hz. Qed.

Lemma py_complete_wp o pd al z n s g : size_val z = Some n -> w s = stick (v s) ->
  wp o (py_complete pd al z) (fun r s' g' => cpost s n r s' /\ retw r s') s g.
Proof.
  intros Hz Hs0. pose proof (or_introl (B := (Z.of_nat (length (v s)) < n)%Z) Hs0) as Hs. unfold py_complete.
  assert (E : length (w s) = length (v s)) by (rewrite Hs0; apply stick_length).
  wsteps; rewrite ?E in *; fin_c Hz.
Qed.

Lemma geom_complete_wp o z n s g : size_val z = Some n -> w s = stick (v s) \/ (Z.of_nat (length (v s)) < n)%Z ->
  v s = repeat (p s) (length (v s)) ->
  wp o (geom_complete z) (fun r s' g' => cpost s n r s' /\ retw r s' /\ g' = g /\ p s' = p s /\ 
       (r = Ok (w s') -> v s' = repeat (p s') (length (v s')))) s g.
Proof.
  intros Hz Hs Hv. unfold geom_complete. wsteps; simpl; auto; zb;
  try match goal with H : size_val ?z = Some ?k |- _ =>
    lazymatch H with Hz => fail | _ => rewrite Hz in H; injection H as <- end end; try congruence.
  - repeat split; auto.
    + simpl. exists (repeat (p s) (Z.to_nat n - length (v s))). rewrite Hv at 1. rewrite <- repeat_app. f_equal; lia.
    + simpl. rewrite repeat_length; lia.
    + intros ? [= <-]; reflexivity.
    + intros _. simpl. rewrite repeat_length; reflexivity.
  - repeat split; auto.
    + exists []; rewrite app_nil_r; reflexivity.
    + destruct Hs; [assumption|lia].
    + lia.
    + intros ? [= <-]; reflexivity.
  - repeat split; auto; discriminate.
Qed.

Lemma bib_random_p_wp o x a b pm s g :
  wp o (bib_random_p x a b pm) (fun r s' g' => r <> Diverge /\ s' = set_p (p s') s) s g.
Proof.
  assert (E : s = set_p (p s) s) by (destruct s; reflexivity).
  unfold bib_random_p. wsteps; simpl; (split; [discriminate|auto]).
Qed.
Lemma bib_complete_wp o x al a b pm z n s g : size_val z = Some n -> w s = stick (v s) \/ (Z.of_nat (length (v s)) < n)%Z ->
  wp o (bib_complete x al a b pm z) (fun r s' g' => cpost s n r s' /\ retw r s') s g.
Proof.
  intros Hz Hs. unfold bib_complete.
  wstep; [|fin_c Hz].
  wstep. wstep.
  - eapply wp_mono; [apply bib_random_p_wp|]. intros [a1|e|] s' g' [Hn Hp]; try (rewrite Hp; fin_c Hz; fail).
    + assert (Hw : w s' = w s) by (rewrite Hp; reflexivity).
      assert (Hv : v s' = v s) by (rewrite Hp; reflexivity).
      assert (Hd : d s' = d s) by (rewrite Hp; reflexivity).
      wsteps; fin_c Hz; rewrite ?Hv in *; try assumption.
      * rewrite max_lt by lia; repeat split; simpl; auto; [eexists; reflexivity|].
        rewrite app_length, beta_draws_length, repeat_length; lia.
      * rewrite max_lt by lia; repeat split; simpl; auto; [eexists; reflexivity|].
        rewrite app_length, repeat_length; lia.
      * rewrite max_ge by lia. destruct Hs as [Hs|]; [|lia]. repeat split; auto; try congruence. exists []; rewrite app_nil_r; assumption.
  - wsteps; fin_c Hz.
Qed.

(* the two while loops that append one stick per pass *)
Lemma repeatM_grow (step : M ws unit) o :
  (forall s g, wp o step (fun r s' g' => match r with
      | Ok _ => exists x, v s' = v s ++ [x] /\ d s' = d s
      | Err _ => d s' = d s | Diverge => False end) s g) ->
  forall k s g, wp o (repeatM k step) (fun r s' g' => match r with
      | Ok _ => exists t, v s' = v s ++ t /\ length t = k /\ d s' = d s
      | Err _ => d s' = d s | Diverge => False end) s g.
Proof.
  intros Hst; induction k as [|k IH]; intros s g; simpl.
  - wstep. exists []; rewrite app_nil_r; auto.
  - eapply wp_call; [apply Hst| | |]; simpl; auto.
    intros _ s' g' (x & Hv & Hd). eapply wp_mono; [apply IH|].
    intros [u|e|] s2 g2; auto; try congruence.
    intros (t & Ht & Hl & Hd2). exists (x :: t). rewrite Ht, Hv, <- app_assoc. simpl; repeat split; auto; congruence.
Qed.

Lemma bid_step_wp o al a s g : wp o (bid_complete_step al a) (fun r s' g' => match r with
      | Ok _ => exists x, v s' = v s ++ [x] /\ d s' = d s
      | Err _ => d s' = d s | Diverge => False end) s g.
Proof. unfold bid_complete_step. wsteps; simpl; eauto. Qed.

Lemma bid_complete_wp o al a z n s g : size_val z = Some n ->
  wp o (bid_complete al a z) (fun r s' g' => cpost s n r s') s g.
Proof.
  intros Hz. unfold bid_complete.
  assert (F : forall s1 g1, v s1 = v s -> d s1 = d s ->
    wp o (z0 <- need_int z;; s0 <- get;;
           repeatM (Z.to_nat (z0 - Z.of_nat (length (v s0)))) (bid_complete_step al a);; upd refresh_w)
       (fun r s' g' => cpost s n r s') s1 g1).
  { intros s1 g1 Hv1 Hd1. apply (wp_int _ _ _ _ _ _ _ Hz). wstep.
    eapply wp_call; [apply repeatM_grow; intros; apply bid_step_wp| | |]; simpl; auto; try congruence.
    intros _ s' g' (t & Hv & Hl & Hd). wsteps. repeat split; simpl; auto; try congruence.
    - exists t; congruence.
    - rewrite Hv, app_length, Hl, Hv1. lia. }
  wstep. repeat first [solve [apply F; simpl; auto] | wstep]; simpl; auto.
Qed.

Lemma bb_complete_wp o q al z n s g : size_val z = Some n -> w s = stick (v s) \/ (Z.of_nat (length (v s)) < n)%Z ->
  wp o (bb_complete q al z) (fun r s' g' => cpost s n r s' /\ retw r s') s g.
Proof.
  intros Hz Hs. unfold bb_complete. wstep; [|fin_c Hz]. apply (wp_int _ _ _ _ _ _ _ Hz). wstep.
  wstep; [|wstep; fin_c Hz].
  assert (F : forall s1 g1, (exists t, v s1 = v s ++ t) -> v s1 <> [] -> d s1 = d s ->
     (Z.of_nat (length (v s1)) <= n)%Z ->
     wp o (s0 <- get;; m <- binom_rep 1 q (Z.to_nat (n - Z.of_nat (length (v s0))));;
           upd (set_bern (bern s0 ++ map Z.to_nat m));;
           (if is_nil (ncumsum (map Z.to_nat m)) then raise IndexError
            else nb <- beta_rep 1 al (last (ncumsum (map Z.to_nat m)) 0%nat);;
              match gather (last (v s0) 0 :: nb) (ncumsum (map Z.to_nat m)) with
              | Some e => upd (set_v (v s0 ++ e));; upd refresh_w;; s' <- get;; ret (w s')
              | None => raise IndexError
              end)) (fun r s' g' => cpost s n r s' /\ retw r s') s1 g1).
  { intros s1 g1 [t Ht] Hn Hd Hl. wsteps; fin_c Hz.
    repeat split; simpl; auto.
    - rewrite Ht, <- app_assoc. eexists; reflexivity.
    - match goal with H : gather _ _ = Some _ |- _ => apply gather_length in H;
        unfold ncumsum in H; rewrite ncumsum_from_length, map_length, binom_draws_length, repeat_length in H;
        rewrite app_length, H end.
      assert (length (v s) <= length (v s1))%nat by (rewrite Ht, app_length; lia). lia. }
  zb. wstep.
  - wstep; [|fin_c Hz]. wstep. apply F; simpl; auto.
    + destruct (v s); [|discriminate]. simpl; eauto.
    + discriminate.
    + destruct (v s); [|discriminate]. simpl in *. lia.
  - wstep. apply F; auto.
    + exists []; rewrite app_nil_r; reflexivity.
    + intros E; rewrite E in *; discriminate.
    + lia.
Qed.

Lemma bbin_step_wp o n al s g : wp o (bbin_step n al) (fun r s' g' => match r with
      | Ok _ => exists x, v s' = v s ++ [x] /\ d s' = d s
      | Err _ => d s' = d s | Diverge => False end) s g.
Proof. unfold bbin_step. wsteps; simpl; eauto. Qed.

(* BetaBinomial.complete always leaves at least one stick *)
Definition cpost1 {A} (s : ws) (n : Z) (r : res A) (s' : ws) : Prop :=
  match r with
  | Ok _ => grew s s' (Nat.max 1 (Nat.max (length (v s)) (Z.to_nat n)))
  | Err _ => d s' = d s
  | Diverge => False
  end.

Lemma bbin_complete_wp o nn al z n s g : size_val z = Some n ->
  wp o (bbin_complete nn al z) (fun r s' g' => cpost1 s n r s' /\ retw r s') s g.
Proof.
  intros Hz. unfold bbin_complete. wstep; [|fin_c Hz].
  clear H.
  assert (F : forall s1 g1, (exists t, v s1 = v s ++ t) -> length (v s1) = Nat.max 1 (length (v s)) -> d s1 = d s ->
    wp o (z0 <- need_int z;; s0 <- get;;
           repeatM (Z.to_nat (z0 - Z.of_nat (length (v s0)))) (bbin_step nn al);; upd refresh_w;;
           s' <- get ;; ret (w s'))
       (fun r s' g' => cpost1 s n r s' /\ retw r s') s1 g1).
  { intros s1 g1 [t1 Hv1] Hl1 Hd1. apply (wp_int _ _ _ _ _ _ _ Hz). wstep.
    eapply wp_call; [apply repeatM_grow; intros; apply bbin_step_wp| | |]; simpl; auto; try (fin_c Hz; fail).
    - intros _ s' g' (t & Hv & Hl & Hd). wsteps. split; [|intros ? [= <-]; reflexivity].
      unfold cpost1, grew, refresh_w, set_w; cbn [v w d]. repeat split; try congruence.
      + exists (t1 ++ t). rewrite app_assoc; congruence.
      + rewrite Hv, app_length, Hl, Hl1. lia.
    - intros e s' g' E. split; [congruence|]. intros ? ?; discriminate.
    }
  wstep. wstep.
  - repeat first [solve [apply F; simpl; eauto; destruct (v s); simpl; eauto; discriminate] | wstep]; fin_c Hz.
  - wstep. apply F; auto.
    + exists []; rewrite app_nil_r; reflexivity.
    + destruct (v s); [discriminate|]. cbn [length]. lia.
Qed.
