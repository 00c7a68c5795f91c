(* Posterior request logs: C08-C12. *)
From Coq Require Import Lqa.
From Verif Require Import Prelude Numpy Rng M_Weights S_Weights S_Hist S_Draws S_Oracle P_Lists P_Hoare P_Wp P_Inv P_Complete P_Random P_Tail P_Sticks P_Geom.
Open Scope Q_scope.
Open Scope m_scope.

Lemma nmax_list_max l : nmax l = list_max l.
Proof. induction l; simpl; [reflexivity|]. rewrite IHl. reflexivity. Qed.

Definition breq (x : Q * Q) : req := rbeta (fst x) (snd x).
Lemma beta_draws_answers o ab : forall g, fst (beta_draws o ab g) = beta_answers o g (map breq ab).
Proof. induction ab as [|[a b] t IH]; intros g; simpl; [reflexivity|]. rewrite IH. reflexivity. Qed.
Lemma binom_draws_answers o n ps : forall g, fst (binom_draws o n ps g) = binom_answers o g (map (rbinom n) ps).
Proof. induction ps as [|x t IH]; intros g; simpl; [reflexivity|]. rewrite IH. reflexivity. Qed.

Lemma allpos_forall l : Forall (fun ab => 0 < fst ab /\ 0 < snd ab) l -> allpos l = true.
Proof.
  intros H. unfold allpos. apply forallb_forall. intros x Hx. rewrite Forall_forall in H.
  destruct (H x Hx) as [H1 H2]. apply qltb_lt in H1, H2. rewrite H1, H2; reflexivity.
Qed.

Lemma wp_beta_many_ok {S} o ab (P : post S (list Q)) s g :
  Forall (fun ab => 0 < fst ab /\ 0 < snd ab) ab ->
  P (Ok (beta_answers o g (map breq ab))) s (g ++ map breq ab) -> wp o (beta_many ab) P s g.
Proof.
  intros H HP. apply wp_beta_many; intros E.
  - rewrite beta_draws_answers. exact HP.
  - rewrite allpos_forall in E by assumption; discriminate.
Qed.
Lemma wp_beta_rep_ok {S} o a b n (P : post S (list Q)) s g :
  0 < a -> 0 < b ->
  P (Ok (beta_answers o g (repeat (rbeta a b) n))) s (g ++ repeat (rbeta a b) n) -> wp o (beta_rep a b n) P s g.
Proof.
  intros Ha Hb HP. apply wp_beta_rep; intros E.
  - rewrite beta_draws_answers, map_repeat. exact HP.
  - rewrite allpos_forall in E by (constructor; [split; assumption|constructor]); discriminate.
Qed.
Lemma wp_beta1_ok {S} o a b (P : post S Q) s g :
  0 < a -> 0 < b -> P (Ok (o_beta o g (Qred a) (Qred b))) s (g ++ [rbeta a b]) -> wp o (beta1 a b) P s g.
Proof.
  intros Ha Hb HP. apply wp_beta1; intros E; [exact HP|].
  rewrite allpos_forall in E by (constructor; [split; assumption|constructor]); discriminate.
Qed.
Lemma beta_answers_app o l1 : forall g l2, Forall (fun r => exists a b, r = RBeta a b) l1 ->
  beta_answers o g (l1 ++ l2) = beta_answers o g l1 ++ beta_answers o (g ++ l1) l2.
Proof.
  induction l1 as [|r t IH]; intros g l2 H; simpl; [rewrite app_nil_r; reflexivity|].
  inversion H; subst. destruct H2 as (a & b & ->). rewrite IH, <- app_assoc by assumption. reflexivity.
Qed.
Lemma breq_beta ab : Forall (fun r => exists a b, r = RBeta a b) (map breq ab).
Proof. induction ab; simpl; constructor; auto. unfold breq, rbeta; eauto. Qed.

(* the pairs built from counts *)
Lemma combine_map2 {A B C} (f : A -> B) (h : A -> C) l : combine (map f l) (map h l) = map (fun x => (f x, h x)) l.
Proof. induction l; simpl; congruence. Qed.
Lemma firstn_map' {A B} (f : A -> B) n l : firstn n (map f l) = map f (firstn n l).
Proof. revert n; induction l; intros [|n]; simpl; auto. rewrite IHl; reflexivity. Qed.
Lemma firstn_seq a n k : firstn k (seq a n) = seq a (Nat.min k n).
Proof. revert a k; induction n; intros a [|k]; simpl; auto. rewrite IHn; reflexivity. Qed.

Lemma nmaxS_labels dd : seq 0 (S (nmax dd)) = labels dd.
Proof. unfold labels; rewrite nmax_list_max; reflexivity. Qed.

Definition dp_pair (alpha : Q) (dd : list nat) (j : nat) : Q * Q := (1 + nq (n_eq j dd), alpha + nq (n_gt j dd)).
Lemma dp_pairs al dd : dd <> [] -> pairs (map (fun n => 1 + nq n) (bincount dd)) (map (fun n => al + nq n) (tail_counts (bincount dd)))
  = map (dp_pair al dd) (labels dd).
Proof.
  intros H. rewrite tail_counts_eq, bincount_eq by assumption.
  unfold pairs. rewrite !map_map, combine_map2, nmaxS_labels. reflexivity.
Qed.
Lemma dp_pair_pos al dd l : 0 < al -> Forall (fun ab => 0 < fst ab /\ 0 < snd ab) (map (dp_pair al dd) l).
Proof.
  intros H. apply Forall_forall. intros x Hx. apply in_map_iff in Hx as (j & <- & _). simpl.
  pose proof (nq_nonneg (n_eq j dd)). pose proof (nq_nonneg (n_gt j dd)). split; lra.
Qed.
Lemma labels_length dd : length (labels dd) = S (nmax dd).
Proof. unfold labels. rewrite seq_length. reflexivity. Qed.

Lemma wp_eq {S A} o (m : M S A) s g r s' g' : wp o m (fun r1 s1 g1 => (r1, s1, g1) = (r, s', g')) s g -> m o s g = (r, s', g').
Proof. unfold wp. destruct (m o s g) as [[? ?] ?]; auto. Qed.
Lemma wp_ex {S A} o (m : M S A) (P : post S A) s g : wp o m P s g -> exists r s' g', m o s g = (r, s', g') /\ P r s' g'.
Proof. unfold wp. destruct (m o s g) as [[r s'] g']; eauto. Qed.


Lemma dp_complete_log al k o s g : 0 < al -> (0 <= k)%Z ->
  wp o (dp_complete al (SInt k)) (fun r s' g' =>
    let rs := repeat (rbeta 1 al) (Z.to_nat k - length (v s)) in
    r = Ok (w s') /\ g' = g ++ rs /\ v s' = v s ++ beta_answers o g rs /\ d s' = d s /\
    w s' = (if (Z.of_nat (length (v s)) <? k)%Z then stick (v s') else w s)) s g.
Proof.
  intros Ha Hk. unfold dp_complete. wstep; [|discriminate]. eapply wp_int; [reflexivity|]. wstep.
  wstep.
  - apply wp_bind. apply wp_beta_rep_ok; [lra|exact Ha|]. wsteps. apply Z.ltb_lt in Heqb.
    replace (Z.to_nat (k - Z.of_nat (length (v s)))) with (Z.to_nat k - length (v s))%nat by lia.
    cbv zeta. repeat split; reflexivity.
  - wstep. apply Z.ltb_ge in Heqb. replace (Z.to_nat k - length (v s))%nat with 0%nat by lia.
    simpl. rewrite !app_nil_r. repeat split; reflexivity.
Qed.

(* requests of random(size) for a fitted Dirichlet process *)
Definition dp_reqs (al : Q) (dd : list nat) (size : option nat) : list req :=
  match size with
  | None => map (dp_post al dd) (labels dd)
  | Some k => map (dp_post al dd) (seq 0 (Nat.min k (S (list_max dd)))) ++ repeat (rbeta 1 al) (k - S (list_max dd))
  end.

Lemma py_take_firstn {A} k (l : list A) : (0 <= k)%Z -> py_take k l = firstn (Z.to_nat k) l.
Proof. intros H. unfold py_take. apply Z.leb_le in H. rewrite H. reflexivity. Qed.

Lemma answers_len o ab : forall g, length (beta_answers o g (map breq ab)) = length ab.
Proof. intros g. rewrite <- beta_draws_answers. apply beta_draws_length. Qed.
Lemma combine_firstn {A B} n (a : list A) (b : list B) : combine (firstn n a) (firstn n b) = firstn n (combine a b).
Proof. revert a b; induction n; intros [|x a] [|y b]; simpl; auto. rewrite IHn; reflexivity. Qed.

Lemma c08_none al o s g : d s <> [] -> 0 < al ->
  wp o (wm_random (CDP al) SNone) (drawn s (map (dp_post al (d s)) (labels (d s))) o g) s g.
Proof.
  intros Hd Ha. simpl wm_random. unfold dp_random. wstep. assert (En : is_nil (d s) = false) by (destruct (d s); [congruence|reflexivity]). rewrite En.
  cbn [is_snone andb]. wstep. cbv zeta. rewrite dp_pairs by assumption.
  apply wp_bind. apply wp_beta_many_ok; [apply dp_pair_pos; assumption|]. wsteps.
  unfold drawn. rewrite map_map. unfold refresh_w, set_w, set_v; cbn [v w d].
  repeat split; try reflexivity; apply stick_image_stick.
Qed.

Lemma c08_some al k o s g : d s <> [] -> 0 < al -> (0 < k)%nat ->
  wp o (wm_random (CDP al) (SInt (Z.of_nat k)))
    (drawn s (map (dp_post al (d s)) (seq 0 (Nat.min k (S (list_max (d s))))) ++ repeat (rbeta 1 al) (k - S (list_max (d s)))) o g) s g.
Proof.
  intros Hd Ha Hk. simpl wm_random. unfold dp_random. wstep. assert (En : is_nil (d s) = false) by (destruct (d s); [congruence|reflexivity]). rewrite En.
  cbn [is_snone andb]. wstep. cbv zeta.
  rewrite bincount_length by assumption. rewrite !py_take_firstn by lia. rewrite Nat2Z.id.
  assert (E : pairs
       (map (fun n : nat => 1 + nq n) (if (Z.of_nat k <? Z.of_nat (S (nmax (d s))))%Z then firstn k (bincount (d s)) else bincount (d s)))
       (map (fun n : nat => al + nq n) (if (Z.of_nat k <? Z.of_nat (S (nmax (d s))))%Z then firstn k (tail_counts (bincount (d s))) else tail_counts (bincount (d s))))
     = map (dp_pair al (d s)) (seq 0 (Nat.min k (S (list_max (d s)))))).
  { change (list_max (d s)) with (nmax (d s)). destruct (Z.ltb_spec (Z.of_nat k) (Z.of_nat (S (nmax (d s))))).
    - unfold pairs. rewrite <- !firstn_map', combine_firstn. fold (pairs (map (fun n => 1 + nq n) (bincount (d s))) (map (fun n => al + nq n) (tail_counts (bincount (d s))))).
      rewrite dp_pairs, firstn_map' by assumption. unfold labels. rewrite firstn_seq. reflexivity.
    - rewrite dp_pairs by assumption. unfold labels. change (list_max (d s)) with (nmax (d s)). do 2 f_equal. lia. }
  rewrite E. clear E.
  set (ab := map (dp_pair al (d s)) (seq 0 (Nat.min k (S (list_max (d s)))))).
  apply wp_bind. apply wp_beta_many_ok; [apply dp_pair_pos; assumption|].
  do 2 wstep.
  eapply wp_call; [apply (dp_complete_log al (Z.of_nat k) o _ _ Ha ltac:(lia))| | |]; try (intros; simpl in *; intuition discriminate).
  intros a s' g' (_ & Hg & Hv & Hdd & Hw). wsteps. unfold refresh_w, set_w, set_v in Hg, Hv, Hdd, Hw; cbn [v w d] in Hg, Hv, Hdd, Hw.
  assert (L : length (beta_answers o g (map breq ab)) = Nat.min k (S (list_max (d s)))).
  { rewrite answers_len. unfold ab. rewrite map_length, seq_length. reflexivity. }
  rewrite L, Nat2Z.id in Hg, Hv.
  replace (k - Nat.min k (S (list_max (d s))))%nat with (k - S (list_max (d s)))%nat in Hg, Hv by lia.
  assert (Em : map breq ab = map (dp_post al (d s)) (seq 0 (Nat.min k (S (list_max (d s)))))) by (unfold ab; rewrite map_map; reflexivity).
  unfold drawn. rewrite <- Em.
  assert (Hv' : v s' = beta_answers o g (map breq ab ++ repeat (rbeta 1 al) (k - S (list_max (d s))))).
  { rewrite Hv. symmetry. apply beta_answers_app, breq_beta. }
  assert (Hst : w s' = stick (v s')).
  { rewrite Hw. destruct (_ <? _)%Z eqn:El; auto. f_equal. rewrite Hv.
    apply Z.ltb_ge in El. rewrite L in El. replace (k - S (list_max (d s)))%nat with 0%nat by lia. simpl. rewrite app_nil_r. reflexivity. }
  repeat split; auto.
  - rewrite app_assoc. exact Hg.
  - rewrite Hst; apply stick_length.
  - rewrite Hst; apply stick_image_stick.
Qed.

Lemma snil {A} (l : list A) : l <> [] -> is_nil l = false.
Proof. destruct l; [congruence|reflexivity]. Qed.

Lemma c08_prior al k o s g : d s = [] -> 0 < al -> (0 < k)%nat ->
  wp o (wm_random (CDP al) (SInt (Z.of_nat k))) (drawn s (repeat (rbeta 1 al) k) o g) s g.
Proof.
  intros Hd Ha Hk. simpl wm_random. unfold dp_random. wstep. rewrite Hd. cbn [is_nil is_snone andb]. wstep.
  eapply wp_call; [apply (dp_complete_log al (Z.of_nat k) o _ _ Ha ltac:(lia))| | |]; try (intros; simpl in *; intuition discriminate).
  intros a s' g' (_ & Hg & Hv & Hdd & Hw). wsteps. unfold set_v in Hg, Hv, Hdd, Hw; cbn [v w d length app] in Hg, Hv, Hdd, Hw.
  rewrite Nat2Z.id, Nat.sub_0_r in *. destruct (Z.ltb_spec (Z.of_nat 0) (Z.of_nat k)); [|lia].
  unfold drawn. rewrite Hw. repeat split; auto; try apply stick_image_stick; try congruence.
Qed.

(* ---------------- Pitman-Yor ---------------- *)
Definition py_pair (pd al : Q) (dd : list nat) (j : nat) : Q * Q := (1 - pd + nq (n_eq j dd), al + nq j * pd + nq (n_gt j dd)).
Definition py_pprior (pd al : Q) (j : nat) : Q * Q := (1 - pd, al + nq j * pd).
Lemma py_pair_pos pd al dd l : py_ok pd al -> Forall (fun ab => 0 < fst ab /\ 0 < snd ab) (map (py_pair pd al dd) l).
Proof.
  intros (H1 & H2 & H3). apply Forall_forall. intros x Hx. apply in_map_iff in Hx as (j & <- & _). simpl.
  pose proof (nq_nonneg (n_eq j dd)). pose proof (nq_nonneg (n_gt j dd)). pose proof (nq_nonneg j).
  assert (0 <= nq j * pd) by nra. split; lra.
Qed.
Lemma py_pprior_pos pd al l : py_ok pd al -> Forall (fun ab => 0 < fst ab /\ 0 < snd ab) (map (py_pprior pd al) l).
Proof.
  intros (H1 & H2 & H3). apply Forall_forall. intros x Hx. apply in_map_iff in Hx as (j & <- & _). simpl.
  pose proof (nq_nonneg j). assert (0 <= nq j * pd) by nra. split; lra.
Qed.

Lemma combine_seq_map {B} (h : nat -> B) a n : combine (seq a n) (map h (seq a n)) = map (fun j => (j, h j)) (seq a n).
Proof. rewrite <- (map_id (seq a n)) at 1. rewrite combine_map2. reflexivity. Qed.

Lemma py_pairs pd al dd k : dd <> [] -> (k <= S (list_max dd))%nat ->
  pairs (map (fun n => 1 - pd + nq n) (firstn k (bincount dd)))
        (map (fun jn : nat * nat => al + nq (fst jn) * pd + nq (snd jn))
             (combine (seq 0 (length (firstn k (bincount dd)))) (firstn k (tail_counts (bincount dd)))))
  = map (py_pair pd al dd) (seq 0 k).
Proof.
  intros H Hk. rewrite tail_counts_eq, bincount_eq by assumption.
  change (nmax dd) with (list_max dd). rewrite !firstn_map', !firstn_seq. replace (Nat.min k (S (list_max dd))) with k by lia.
  rewrite map_length, seq_length, combine_seq_map. unfold pairs. rewrite !map_map, combine_map2. reflexivity.
Qed.

Lemma py_complete_log pd al k o s g : py_ok pd al ->
  wp o (py_complete pd al (SInt (Z.of_nat k))) (fun r s' g' =>
    let rs := map (py_prior pd al) (seq (length (w s)) (k - length (w s))) in
    r = Ok (w s') /\ g' = g ++ rs /\ v s' = v s ++ beta_answers o g rs /\ d s' = d s /\
    w s' = (if (length (w s) <? k)%nat then stick (v s') else w s)) s g.
Proof.
  intros Ha. unfold py_complete. wstep; [|discriminate]. eapply wp_int; [reflexivity|]. wstep. rewrite Nat2Z.id.
  change (fun j : nat => (1 - pd, al + nq j * pd)) with (py_pprior pd al).
  wstep.
  - apply wp_bind. apply wp_beta_many_ok; [apply py_pprior_pos; assumption|]. wsteps. apply Z.ltb_lt in Heqb.
    cbv zeta. rewrite map_map. destruct (Nat.ltb_spec (length (w s)) k); [|lia]. repeat split; reflexivity.
  - wstep. apply Z.ltb_ge in Heqb. replace (k - length (w s))%nat with 0%nat by lia.
    destruct (Nat.ltb_spec (length (w s)) k); [lia|]. simpl. rewrite !app_nil_r. repeat split; reflexivity.
Qed.

Lemma firstn_all_len {A} k (l : list A) : (length l <= k)%nat -> firstn k l = l.
Proof. intros; apply firstn_all2; assumption. Qed.

Lemma c09_none pd al o s g : d s <> [] -> py_ok pd al ->
  wp o (wm_random (CPY pd al) SNone) (drawn s (map (py_post pd al (d s)) (labels (d s))) o g) s g.
Proof.
  intros Hd Ha. simpl wm_random. unfold py_random. wstep. rewrite (snil _ Hd). cbn [is_snone andb].
  apply wp_assoc || idtac. wstep. cbv zeta.
  pose proof (py_pairs pd al (d s) (S (list_max (d s))) Hd ltac:(lia)) as E.
  rewrite !firstn_all_len in E by (rewrite ?tail_counts_length, bincount_length by (try apply bincount_nonnil; assumption); apply le_n).
  rewrite E. apply wp_bind. apply wp_beta_many_ok; [apply py_pair_pos; assumption|]. wsteps.
  unfold drawn. rewrite map_map. unfold refresh_w, set_w, set_v; cbn [v w d].
  repeat split; try reflexivity; apply stick_image_stick.
Qed.

Lemma c09_some pd al k o s g : d s <> [] -> py_ok pd al -> (0 < k)%nat ->
  wp o (wm_random (CPY pd al) (SInt (Z.of_nat k)))
    (drawn s (map (py_post pd al (d s)) (seq 0 (Nat.min k (S (list_max (d s))))) ++
              map (py_prior pd al) (seq (S (list_max (d s))) (k - S (list_max (d s))))) o g) s g.
Proof.
  intros Hd Ha Hk. simpl wm_random. unfold py_random. wstep. rewrite (snil _ Hd). cbn [is_snone andb].
  apply wp_assoc. eapply wp_int; [reflexivity|]. wstep. cbv zeta.
  rewrite bincount_length by assumption. rewrite !py_take_firstn by lia. rewrite Nat2Z.id.
  set (m := Nat.min k (S (list_max (d s)))).
  assert (E1 : (if (Z.of_nat k <? Z.of_nat (S (nmax (d s))))%Z then firstn k (bincount (d s)) else bincount (d s)) = firstn m (bincount (d s))).
  { unfold m. change (list_max (d s)) with (nmax (d s)). destruct (Z.ltb_spec (Z.of_nat k) (Z.of_nat (S (nmax (d s))))).
    - rewrite Nat.min_l by lia. reflexivity.
    - rewrite Nat.min_r by lia. symmetry. apply firstn_all_len. rewrite bincount_length by assumption. lia. }
  assert (E2 : (if (Z.of_nat k <? Z.of_nat (S (nmax (d s))))%Z then firstn k (tail_counts (bincount (d s))) else tail_counts (bincount (d s))) = firstn m (tail_counts (bincount (d s)))).
  { unfold m. change (list_max (d s)) with (nmax (d s)). destruct (Z.ltb_spec (Z.of_nat k) (Z.of_nat (S (nmax (d s))))).
    - rewrite Nat.min_l by lia. reflexivity.
    - rewrite Nat.min_r by lia. symmetry. apply firstn_all_len. rewrite tail_counts_length, bincount_length by (try apply bincount_nonnil; assumption). lia. }
  rewrite E1, E2. rewrite py_pairs by (try assumption; unfold m; lia).
  set (ab := map (py_pair pd al (d s)) (seq 0 m)).
  apply wp_bind. apply wp_beta_many_ok; [apply py_pair_pos; assumption|].
  do 2 wstep.
  eapply wp_call; [apply (py_complete_log pd al k o _ _ Ha)| | |]; try (intros; simpl in *; intuition discriminate).
  intros a s' g' (_ & Hg & Hv & Hdd & Hw). wsteps. unfold refresh_w, set_w, set_v in Hg, Hv, Hdd, Hw; cbn [v w d] in Hg, Hv, Hdd, Hw.
  rewrite stick_length in *.
  assert (L : length (beta_answers o g (map breq ab)) = m).
  { rewrite answers_len. unfold ab. rewrite map_length, seq_length. reflexivity. }
  rewrite L in *.
  assert (Es : seq m (k - m) = seq (S (list_max (d s))) (k - S (list_max (d s)))).
  { unfold m. destruct (Nat.le_ge_cases k (S (list_max (d s)))).
    - replace (k - S (list_max (d s)))%nat with 0%nat by lia. replace (k - Nat.min k (S (list_max (d s))))%nat with 0%nat by lia. reflexivity.
    - rewrite Nat.min_r by assumption. reflexivity. }
  rewrite Es in *.
  assert (Em : map breq ab = map (py_post pd al (d s)) (seq 0 m)) by (unfold ab; rewrite map_map; reflexivity).
  unfold drawn. rewrite <- Em.
  assert (Hv' : v s' = beta_answers o g (map breq ab ++ map (py_prior pd al) (seq (S (list_max (d s))) (k - S (list_max (d s)))))).
  { rewrite Hv. symmetry. apply beta_answers_app, breq_beta. }
  assert (Hst : w s' = stick (v s')).
  { rewrite Hw. destruct (Nat.ltb_spec m k) as [|El]; auto. f_equal. rewrite Hv.
    unfold m in El. replace (k - S (list_max (d s)))%nat with 0%nat by lia. simpl. rewrite app_nil_r. reflexivity. }
  repeat split; auto.
  - rewrite app_assoc. exact Hg.
  - rewrite Hst; apply stick_length.
  - rewrite Hst; apply stick_image_stick.
Qed.

Lemma c09_prior pd al k o s g : d s = [] -> py_ok pd al -> (0 < k)%nat ->
  wp o (wm_random (CPY pd al) (SInt (Z.of_nat k))) (drawn s (map (py_prior pd al) (seq 0 k)) o g) s g.
Proof.
  intros Hd Ha Hk. simpl wm_random. unfold py_random. wstep. rewrite Hd. cbn [is_nil is_snone andb].
  eapply wp_int; [reflexivity|].
  assert (E : (Z.of_nat k <? 0)%Z || negb (qltb 0 (1 - pd)) = false).
  { destruct Ha as (H1 & H2 & H3). assert (Q1 : qltb 0 (1 - pd) = true) by (apply qltb_lt; lra). rewrite Q1.
    destruct (Z.ltb_spec (Z.of_nat k) 0); [lia|reflexivity]. }
  rewrite E. rewrite Nat2Z.id. change (fun j : nat => (1 - pd, al + nq j * pd)) with (py_pprior pd al).
  apply wp_bind. apply wp_beta_many_ok; [apply py_pprior_pos; assumption|]. wsteps.
  unfold drawn. rewrite map_map. unfold refresh_w, set_w, set_v; cbn [v w d].
  repeat split; try reflexivity; try apply stick_image_stick; try congruence.
Qed.

(* constructor accepts alpha <= 0, for which the first prior draw fails *)
Lemma c09_raises pd al k o s0 g0 : al <= 0 -> new_ws (CPY pd al) 0 0 o = Ok (s0, g0) -> (0 < k)%nat ->
  wm_random (CPY pd al) (SInt (Z.of_nat k)) o s0 g0 = (Err ValueError, s0, g0).
Proof.
  intros Ha Hn Hk. apply wp_eq. simpl in Hn. destruct (qltb (- pd) al); [|discriminate]. injection Hn as <- <-.
  simpl wm_random. unfold py_random. wstep. cbn [is_nil d ws_init is_snone andb].
  eapply wp_int; [reflexivity|]. wstep; [wstep; reflexivity|]. rewrite Nat2Z.id. wstep; [|reflexivity].
  exfalso. destruct k; [lia|]. simpl in H. unfold allpos in H. simpl in H.
  apply andb_prop in H as [H _]. apply andb_prop in H as [_ H]. apply qltb_lt in H.
  change (nq 0) with 0 in H. lra.
Qed.

(* ---------------- Geometric ---------------- *)
Lemma sum_nsum l : nsum l = list_sum l. Proof. reflexivity. Qed.

Lemma geom_complete_log o k s g :
  v s = [] -> (0 < k)%Z -> wp o (geom_complete (SInt k)) (fun r s' g' => r = Ok (w s') /\ g' = g /\ p s' = p s /\ d s' = d s /\
     v s' = repeat (p s) (Z.to_nat k) /\ w s' = stick (v s')) s g /\
     wp o (geom_complete (SNp64 k)) (fun r s' g' => r = Ok (w s') /\ g' = g /\ p s' = p s /\ d s' = d s /\
     v s' = repeat (p s) (Z.to_nat k) /\ w s' = stick (v s')) s g.
Proof.
  intros Hv Hk. split; unfold geom_complete; (wstep; [|discriminate]); (eapply wp_int; [reflexivity|]); wstep; rewrite Hv;
  change (Z.of_nat (length (@nil Q))) with 0%Z; apply Z.ltb_lt in Hk; rewrite Hk; wsteps; repeat split; reflexivity.
Qed.

Lemma c10_gen a b z n o s g : 0 < a -> 0 < b -> (0 < n)%nat ->
  (z = SNone /\ d s <> [] /\ n = S (list_max (d s)) \/ z = SInt (Z.of_nat n)) ->
  wp o (wm_random (CGeom a b) z) (geom_drawn a b s n o g) s g.
Proof.
  intros Ha Hb Hn Hz. simpl wm_random. unfold geom_random. wstep.
  assert (E : is_snone z && is_nil (d s) = false).
  { destruct Hz as [(-> & Hd & _)| ->]; [rewrite snil by assumption|]; reflexivity. }
  rewrite E. wstep. cbv zeta. apply wp_bind. 
  pose proof (nq_nonneg (length (d s))). pose proof (nq_nonneg (nsum (d s))).
  apply wp_beta1_ok; [lra|lra|]. wstep. 
  set (s1 := set_p _ _).
  assert (K : wp o (geom_complete (if is_snone z then SNp64 (Z.of_nat (nmax (d s)) + 1) else z)) (fun r s' g' => r = Ok (w s') /\ g' = g ++ [rbeta (a + nq (length (d s))) (b + nq (nsum (d s)))] /\ p s' = p s1 /\ d s' = d s /\
     v s' = repeat (p s1) n /\ w s' = stick (v s')) s1 (g ++ [rbeta (a + nq (length (d s))) (b + nq (nsum (d s)))])).
  { destruct Hz as [(-> & Hd & Hn')| ->]; cbn [is_snone].
    - eapply wp_mono; [apply (geom_complete_log o); [reflexivity|lia]|]. simpl. intros r s' g' (K1 & K2 & K3 & K4 & K5 & K6).
      replace (Z.to_nat (Z.of_nat (nmax (d s)) + 1)) with n in K5 by (change (nmax (d s)) with (list_max (d s)); lia).
      repeat split; auto.
    - eapply wp_mono; [apply (geom_complete_log o); [reflexivity|lia]|]. simpl. intros r s' g' (K1 & K2 & K3 & K4 & K5 & K6).
      rewrite Nat2Z.id in K5. repeat split; auto. }
  eapply wp_call; [exact K| | |]; try (intros; simpl in *; intuition discriminate).
  intros y s' g' (_ & K2 & K3 & K4 & K5 & K6). wsteps.
  assert (C : coherent (CGeom a b) s').
  { split; [exact K6|]. rewrite K5, repeat_length, K3. reflexivity. }
  destruct (geom_weights s' a b C) as [W _].
  assert (L : length (w s') = n) by (rewrite K6, stick_length, K5, repeat_length; reflexivity).
  unfold geom_drawn. repeat split; auto.
  - simpl. rewrite K3. reflexivity.
  - intros j Hj. apply W. rewrite L; exact Hj.
Qed.

(* ---------------- Dirichlet distribution ---------------- *)
Lemma dd_params al dd : dd <> [] -> (list_max dd < length al)%nat ->
  map (fun an : Q * nat => fst an + nq (snd an)) (combine al (firstn (length al) (bincount dd ++ repeat 0%nat (length al - length (bincount dd)))))
  = map (fun j => nth j al 0 + nq (n_eq j dd)) (seq 0 (length al)).
Proof.
  intros Hd Hm.
  assert (E : firstn (length al) (bincount dd ++ repeat 0%nat (length al - length (bincount dd))) = map (fun j => n_eq j dd) (seq 0 (length al))).
  { rewrite bincount_length by assumption. change (nmax dd) with (list_max dd).
    rewrite firstn_all_len by (rewrite app_length, repeat_length, bincount_length by assumption; change (nmax dd) with (list_max dd); lia).
    rewrite bincount_eq by assumption. change (nmax dd) with (list_max dd).
    replace (length al) with (S (list_max dd) + (length al - S (list_max dd)))%nat at 2 by lia.
    rewrite seq_app, map_app. f_equal.
    set (m := (length al - S (list_max dd))%nat). cbn [Nat.add].
    assert (Z : forall a n, (list_max dd < a)%nat -> repeat 0%nat n = map (fun j => n_eq j dd) (seq a n)).
    { intros a n; revert a; induction n; intros a Ha; simpl; [reflexivity|]. rewrite <- IHn by lia. f_equal.
      symmetry. unfold n_eq. apply count_occ_not_In. intros K.
      pose proof (nmax_ge dd) as G. rewrite Forall_forall in G. specialize (G a K). change (nmax dd) with (list_max dd) in G. lia. }
    apply Z; lia. }
  rewrite E. clear E Hm.
  assert (G : forall (al pre : list Q), map (fun an : Q * nat => fst an + nq (snd an)) (combine al (map (fun j => n_eq j dd) (seq (length pre) (length al))))
     = map (fun j => nth j (pre ++ al) 0 + nq (n_eq j dd)) (seq (length pre) (length al))).
  { clear al. induction al as [|x t IH]; intros pre; simpl; [reflexivity|]. f_equal.
    - rewrite app_nth2, Nat.sub_diag by lia. reflexivity.
    - specialize (IH (pre ++ [x])). rewrite app_length in IH. cbn [length] in IH.
      replace (length pre + 1)%nat with (S (length pre)) in IH by lia. rewrite IH.
      rewrite <- app_assoc. reflexivity. }
  exact (G al []).
Qed.

Lemma c11_proof k al z o s g : d s <> [] -> Forall (fun x => 0 < x) al -> (list_max (d s) < length al)%nat ->
  let post := map Qred (map (fun j => nth j al 0 + nq (n_eq j (d s))) (seq 0 (length al))) in
  wm_random (CDirDist k al) z o s g = (Ok (o_dirichlet o g post), set_w (o_dirichlet o g post) s, g ++ [RDirichlet post]).
Proof.
  intros Hd Hal Hm post. apply wp_eq. simpl wm_random. unfold dd_random. wstep. rewrite (snil _ Hd).
  destruct (Nat.leb_spec (length al) (nmax (d s))); [change (nmax (d s)) with (list_max (d s)) in *; lia|].
  cbv zeta. rewrite dd_params by assumption.
  unfold wp, bind, dirichlet1.
  assert (P : forallb (qltb 0) (map (fun j => nth j al 0 + nq (n_eq j (d s))) (seq 0 (length al))) = true).
  { apply forallb_forall. intros x Hx. apply in_map_iff in Hx as (j & <- & Hj). apply in_seq in Hj.
    apply qltb_lt. pose proof (nq_nonneg (n_eq j (d s))). rewrite Forall_forall in Hal.
    assert (Lj : (j < length al)%nat) by lia. specialize (Hal (nth j al 0) (nth_In _ _ Lj)). lra. }
  rewrite P. reflexivity.
Qed.
Lemma c11_prior_proof k al z o s g : d s = [] -> Forall (fun x => 0 < x) al ->
  wm_random (CDirDist k al) z o s g = (Ok (o_dirichlet o g (map Qred al)), set_w (o_dirichlet o g (map Qred al)) s, g ++ [RDirichlet (map Qred al)]).
Proof.
  intros Hd Hal. simpl. unfold dd_random, bind, get. rewrite Hd. cbn [is_nil]. unfold dirichlet1.
  assert (P : forallb (qltb 0) al = true) by (apply forallb_forall; intros x Hx; apply qltb_lt; rewrite Forall_forall in Hal; auto).
  rewrite P. reflexivity.
Qed.
Lemma c11_raises_proof k al z o s g : (length al <= list_max (d s))%nat -> d s <> [] ->
  wm_random (CDirDist k al) z o s g = (Err ValueError, s, g).
Proof.
  intros H Hd. simpl. unfold dd_random, bind, get. rewrite (snil _ Hd). apply Nat.leb_le in H.
  change (nmax (d s)) with (list_max (d s)). rewrite H. reflexivity.
Qed.

(* ---------------- Beta-binomial ---------------- *)
Lemma zadd2_nth bs : zadd2 (removelast bs) (tl bs) = map (fun j => (nth j bs 0 + nth (S j) bs 0)%Z) (seq 0 (length bs - 1)).
Proof.
  induction bs as [|x t IH]; [reflexivity|]. destruct t as [|y u]; [reflexivity|].
  change (removelast (x :: y :: u)) with (x :: removelast (y :: u)). cbn [tl] in *.
  replace (length (x :: y :: u) - 1)%nat with (S (length (y :: u) - 1)) by (cbn [length]; lia).
  cbn [seq]. rewrite <- seq_shift, map_cons, map_map. cbn [zadd2]. f_equal.
  exact IH.
Qed.
Lemma map3_map {A B C D E} (f : A -> B -> C -> D) (a : E -> A) (b : E -> B) (c : E -> C) l :
  map3 f (map a l) (map b l) (map c l) = map (fun x => f (a x) (b x) (c x)) l.
Proof. induction l; simpl; congruence. Qed.

Lemma binom_answers_len o n ps g : length (binom_answers o g (map (rbinom n) ps)) = length ps.
Proof. rewrite <- binom_draws_answers. apply binom_draws_length. Qed.
Lemma binom_answers_range o n ps : valid_oracle o -> (0 <= n)%Z -> Forall (fun x => 0 <= x <= 1) ps ->
  forall g, Forall (fun b => (0 <= b <= n)%Z) (binom_answers o g (map (rbinom n) ps)).
Proof.
  intros Ho Hn. induction ps as [|x t IH]; intros H g; simpl; constructor; inversion H; subst; auto.
  apply (vo_binom _ Ho); auto. rewrite !Qred_correct; assumption.
Qed.
Lemma beta_answers_range o ab : valid_oracle o -> Forall (fun ab => 0 < fst ab /\ 0 < snd ab) ab ->
  forall g, Forall (fun x => 0 <= x <= 1) (beta_answers o g (map breq ab)).
Proof.
  intros Ho. induction ab as [|[a b] t IH]; intros H g; simpl; constructor; inversion H; subst; auto.
  simpl in *. apply (vo_beta _ Ho); rewrite Qred_correct; tauto.
Qed.
Lemma wp_binom_many_ok {S} o n ps (P : post S (list Z)) s g :
  (0 <= n)%Z -> Forall (fun x => 0 <= x <= 1) ps ->
  P (Ok (binom_answers o g (map (rbinom n) ps))) s (g ++ map (rbinom n) ps) -> wp o (binom_many n ps) P s g.
Proof.
  intros Hn H HP. apply wp_binom_many; intros E; [rewrite binom_draws_answers; exact HP|].
  exfalso. apply Z.leb_le in Hn. rewrite Hn in E. simpl in E.
  assert (K : forallb prob_ok ps = true); [|congruence].
  apply forallb_forall. intros x Hx. rewrite Forall_forall in H. specialize (H x Hx) as [A B].
  unfold prob_ok. apply andb_true_intro; split; apply Qle_bool_iff; assumption.
Qed.
Lemma wp_binom1_ok {S} o n x (P : post S Z) s g :
  (0 <= n)%Z -> 0 <= x <= 1 ->
  P (Ok (o_binom o g n (Qred x))) s (g ++ [rbinom n x]) -> wp o (binom1 n x) P s g.
Proof.
  intros Hn [A B] HP. apply wp_binom1; intros E; [exact HP|].
  exfalso. apply Z.leb_le in Hn. rewrite Hn in E. unfold prob_ok in E. apply Qle_bool_iff in A, B. unfold qleb in E. rewrite A, B in E. discriminate.
Qed.
Lemma wp_binom_rep1_ok {S} o n x (P : post S (list Z)) s g :
  (0 <= n)%Z -> 0 <= x <= 1 ->
  P (Ok [o_binom o g n (Qred x)]) s (g ++ [rbinom n x]) -> wp o (binom_rep n x 1) P s g.
Proof.
  intros Hn [A B] HP. apply wp_binom_rep; intros E; [exact HP|].
  exfalso. apply Z.leb_le in Hn. rewrite Hn in E. unfold prob_ok in E. apply Qle_bool_iff in A, B. unfold qleb in E. rewrite A, B in E. discriminate.
Qed.

Lemma zq_le a b : (a <= b)%Z -> zq a <= zq b.
Proof. intros; unfold zq. rewrite <- Zle_Qle. assumption. Qed.

Lemma chain_params al n b : 0 < al -> (0 <= b <= n)%Z -> 0 < 1 + zq b /\ 0 < al + zq n - zq b.
Proof.
  intros Ha [H1 H2]. apply zq_le in H1, H2. change (zq 0) with 0 in H1. split; lra.
Qed.

Lemma bbin_steps_log o n al : valid_oracle o -> (0 <= n)%Z -> 0 < al -> forall m s g,
  v s <> [] -> 0 <= last (v s) 0 <= 1 ->
  wp o (repeatM m (bbin_step n al)) (fun r s' g' =>
     r = Ok tt /\ g' = g ++ fst (bbin_chain o n al m g (last (v s) 0)) /\
     v s' = v s ++ snd (bbin_chain o n al m g (last (v s) 0)) /\ d s' = d s) s g.
Proof.
  intros Ho Hn Ha. induction m as [|m IH]; intros s g Hv Hl; simpl repeatM.
  - wstep. simpl. rewrite !app_nil_r. repeat split; reflexivity.
  - unfold bbin_step at 1. apply wp_assoc. wstep. wstep. apply wp_bind. apply wp_binom1_ok; auto. cbv beta iota.
    set (b := o_binom o g n (Qred (last (v s) 0))).
    assert (Hb : (0 <= b <= n)%Z) by (apply (vo_binom _ Ho); auto; rewrite Qred_correct; assumption).
    destruct (chain_params al n b Ha Hb) as [P1 P2].
    wstep. wstep. wstep. apply wp_bind. apply wp_beta1_ok; auto. cbv beta iota.
    wstep. set (y := o_beta o _ _ _). 
    assert (Hy : 0 <= y <= 1) by (apply (vo_beta _ Ho); rewrite Qred_correct; assumption).
    eapply wp_mono; [apply IH|].
    + cbn. destruct (v s); discriminate.
    + cbn. rewrite last_last. exact Hy.
    + cbn [v set_v set_binoms]. rewrite last_last. intros r s' g' (H1 & H2 & H3 & H4).
      split; [exact H1|]. rewrite <- !app_assoc in H2, H3. cbn [app] in H2, H3.
      simpl bbin_chain. cbv zeta. fold b. fold y. cbn [fst snd]. rewrite <- ?app_assoc in *. cbn [app] in *.
      split; [exact H2|]. split; [|exact H4]. exact H3.
Qed.

Lemma bbin_complete_log o n al k s g : valid_oracle o -> (0 <= n)%Z -> 0 < al -> v s <> [] -> 0 <= last (v s) 0 <= 1 ->
  wp o (bbin_complete n al (SInt (Z.of_nat k))) (fun r s' g' =>
     let c := bbin_chain o n al (k - length (v s)) g (last (v s) 0) in
     r = Ok (w s') /\ g' = g ++ fst c /\ v s' = v s ++ snd c /\ d s' = d s /\ w s' = stick (v s')) s g.
Proof.
  intros Ho Hn Ha Hv Hl. unfold bbin_complete. wstep; [|discriminate]. wstep. rewrite (snil _ Hv). wstep.
  eapply wp_int; [reflexivity|]. wstep.
  replace (Z.to_nat (Z.of_nat k - Z.of_nat (length (v s)))) with (k - length (v s))%nat by lia.
  eapply wp_call; [apply bbin_steps_log; assumption| | |]; try (intros; simpl in *; intuition discriminate).
  intros a s' g' (_ & H2 & H3 & H4). wsteps. cbv zeta. unfold refresh_w; cbn. repeat split; auto.
Qed.

Lemma chain_len o n al m : forall g x, length (snd (bbin_chain o n al m g x)) = m.
Proof. induction m; intros; simpl; auto. Qed.

Lemma c12_gen n al z k o s g : valid_oracle o -> (0 <= n)%Z -> 0 < al -> d s <> [] ->
  (z = SNone /\ k = 1%nat \/ z = SInt (Z.of_nat k)) ->
  wp o (wm_random (CBBin n al) z) (bbin_drawn n al s k o g) s g.
Proof.
  intros Ho Hn Ha Hd Hz. simpl wm_random. unfold bbin_random. wstep. rewrite (snil _ Hd), andb_false_r.
  assert (Ez : (if is_snone z then SInt 1 else z) = SInt (Z.of_nat k)) by (destruct Hz as [[-> ->]| ->]; reflexivity).
  rewrite Ez. clear z Hz Ez. wstep. unfold bbin_random_binomials. apply wp_assoc. wstep. cbn [d set_v].
  assert (E1 : pairs (map (fun k => 1 + nq k) (0%nat :: bincount (d s))) (map (fun k => al + nq k) (0%nat :: tail_counts (bincount (d s))))
     = (1 + nq 0, al + nq 0) :: map (dp_pair al (d s)) (labels (d s))).
  { cbn [map]. unfold pairs. cbn [combine]. f_equal. apply dp_pairs; assumption. }
  rewrite E1. clear E1.
  assert (P1 : Forall (fun ab => 0 < fst ab /\ 0 < snd ab) ((1 + nq 0, al + nq 0) :: map (dp_pair al (d s)) (labels (d s)))).
  { constructor; [|apply dp_pair_pos; assumption]. simpl. change (nq 0) with 0. split; lra. }
  assert (E2 : map breq ((1 + nq 0, al + nq 0) :: map (dp_pair al (d s)) (labels (d s))) = bbin_latent al (d s)).
  { cbn [map]. unfold bbin_latent. rewrite map_map. f_equal. unfold breq, rbeta. cbn [fst snd].
    f_equal; apply Qred_complete; change (nq 0) with 0; ring. }
  wstep. apply wp_bind. apply wp_beta_many_ok; [exact P1|]. cbv beta iota. 
  pose proof (beta_answers_range o _ Ho P1 g) as R1. pose proof (answers_len o ((1 + nq 0, al + nq 0) :: map (dp_pair al (d s)) (labels (d s))) g) as L1.
  rewrite E2 in *. clear E2 P1. cbn [length] in L1. rewrite map_length, labels_length in L1. 
  wstep. apply wp_bind. apply wp_binom_many_ok; auto. cbv beta iota.
  fold (bbin_counts o n al (d s) g).
  pose proof (binom_answers_range o n _ Ho Hn R1 (g ++ bbin_latent al (d s))) as R2.
  pose proof (binom_answers_len o n (beta_answers o g (bbin_latent al (d s))) (g ++ bbin_latent al (d s))) as L2.
  fold (bbin_counts o n al (d s) g) in R2, L2.
  set (bs := binom_answers o (g ++ bbin_latent al (d s)) (bbin_counts o n al (d s) g)) in *. rewrite L1 in L2.
  wstep. wstep. wstep. cbv zeta.
  assert (E3 : map3 (fun x y (z : Z) => (1 + nq x + zq z, al + nq y + 2 * zq n - zq z)) (bincount (d s)) (tail_counts (bincount (d s))) (zadd2 (removelast bs) (tl bs))
    = map (fun j => (1 + nq (n_eq j (d s)) + zq (nth j bs 0 + nth (S j) bs 0)%Z, al + nq (n_gt j (d s)) + 2 * zq n - zq (nth j bs 0 + nth (S j) bs 0)%Z)) (labels (d s))).
  { rewrite tail_counts_eq, bincount_eq, zadd2_nth, L2 by assumption.
    replace (S (S (nmax (d s))) - 1)%nat with (S (nmax (d s))) by lia. rewrite map3_map. reflexivity. }
  rewrite E3. clear E3.
  assert (P3 : Forall (fun ab => 0 < fst ab /\ 0 < snd ab) (map (fun j => (1 + nq (n_eq j (d s)) + zq (nth j bs 0 + nth (S j) bs 0)%Z, al + nq (n_gt j (d s)) + 2 * zq n - zq (nth j bs 0 + nth (S j) bs 0)%Z)) (labels (d s)))).
  { apply Forall_forall. intros x Hx. apply in_map_iff in Hx as (j & <- & Hj). cbn [fst snd].
    assert (B : forall i, (0 <= nth i bs 0 <= n)%Z).
    { intros i. destruct (Nat.lt_ge_cases i (length bs)) as [Hi|Hi].
      - rewrite Forall_forall in R2. apply R2, nth_In, Hi.
      - rewrite nth_overflow by assumption. lia. }
    pose proof (nq_nonneg (n_eq j (d s))). pose proof (nq_nonneg (n_gt j (d s))).
    pose proof (B j) as [B1 B2]. pose proof (B (S j)) as [B3 B4].
    apply zq_le in B1, B2, B3, B4. change (zq 0) with 0 in *. unfold zq in *. rewrite inject_Z_plus. split; lra. }
  apply wp_bind. apply wp_beta_many_ok; [exact P3|]. cbv beta iota.
  rewrite map_map. 
  match goal with |- context [map ?F (labels (d s))] => change (map F (labels (d s))) with (map (bbin_post n al (d s) bs) (labels (d s))) end.
  pose proof (beta_answers_range o _ Ho P3 ((g ++ bbin_latent al (d s)) ++ bbin_counts o n al (d s) g)) as R3.
  rewrite map_map in R3. 
  match type of R3 with context [map ?F (labels (d s))] => change (map F (labels (d s))) with (map (bbin_post n al (d s) bs) (labels (d s))) in R3 end.
  pose proof (answers_len o (map (fun j => (1 + nq (n_eq j (d s)) + zq (nth j bs 0 + nth (S j) bs 0)%Z, al + nq (n_gt j (d s)) + 2 * zq n - zq (nth j bs 0 + nth (S j) bs 0)%Z)) (labels (d s))) ((g ++ bbin_latent al (d s)) ++ bbin_counts o n al (d s) g)) as L3.
  rewrite map_map, map_length, labels_length in L3.
  match type of L3 with context [map ?F (labels (d s))] => change (map F (labels (d s))) with (map (bbin_post n al (d s) bs) (labels (d s))) in L3 end.
  set (pst := map (bbin_post n al (d s) bs) (labels (d s))) in *.
  set (vs := beta_answers o ((g ++ bbin_latent al (d s)) ++ bbin_counts o n al (d s) g) pst) in *.
  assert (Nv : vs <> []) by (intros K; rewrite K in L3; discriminate).
  wstep. wstep.
  eapply wp_call; [apply (bbin_complete_log o n al k); auto| | |]; try (intros; simpl in *; intuition discriminate).
  { change (0 <= last vs 0 <= 1). rewrite Forall_forall in R3. apply R3. destruct (exists_last Nv) as (l & x & Ev). rewrite Ev, last_last. apply in_or_app; right; left; reflexivity. }
  intros a s' g' (_ & H2 & H3 & H4 & H5). wsteps. unfold refresh_w, set_w, set_v, set_binoms in H2, H3, H4. cbn [v w d] in H2, H3, H4. rewrite L3 in H2, H3.
  unfold bbin_drawn. cbv zeta. fold bs. fold pst. fold vs. 
  repeat split; auto.
  - rewrite H2. rewrite <- !app_assoc. reflexivity.
  - rewrite H5; apply stick_length.
  - rewrite H5; apply stick_image_stick.
Qed.

Lemma c12_prior_gen n al k o s g : valid_oracle o -> (0 <= n)%Z -> 0 < al -> d s = [] -> (0 < k)%nat ->
  let r0 := rbeta 1 al in
  let c := bbin_chain o n al k (g ++ [r0]) (o_beta o g (Qred 1) (Qred al)) in
  wp o (wm_random (CBBin n al) (SInt (Z.of_nat k))) (fun r s' g' =>
    r = Ok (w s') /\ g' = g ++ r0 :: fst c /\ v s' = snd c /\ stick_image (v s') (w s') /\ d s' = d s) s g.
Proof.
  intros Ho Hn Ha Hd Hk r0 c. simpl wm_random. unfold bbin_random. wstep. rewrite Hd. cbn [is_snone is_nil andb]. wstep.
  unfold bbin_complete. apply wp_assoc. wstep; [|discriminate]. wpure. cbn [v set_v is_nil]. wpure.
  apply wp_bind. apply wp_beta1_ok; [lra|exact Ha|]. cbv beta iota.
  set (v0 := o_beta o g (Qred 1) (Qred al)) in *.
  assert (H0 : 0 <= v0 <= 1) by (apply (vo_beta _ Ho); rewrite Qred_correct; lra).
  wpure. apply wp_bind. apply wp_binom_rep1_ok; auto. wpure. cbn [last].
  set (b := o_binom o _ n (Qred v0)).
  assert (Hb : (0 <= b <= n)%Z) by (apply (vo_binom _ Ho); auto; rewrite Qred_correct; assumption).
  destruct (chain_params al n b Ha Hb) as [P1 P2].
  wpure. apply wp_bind. apply wp_beta_rep_ok; auto. wpure.
  match goal with |- context [beta_answers o ?G (repeat (rbeta ?A ?B) 1)] => change (beta_answers o G (repeat (rbeta A B) 1)) with [o_beta o G (Qred A) (Qred B)] end.
  wpure. eapply wp_int; [reflexivity|]. wpure. cbn [v set_v length repeat].
  set (y := o_beta o ((g ++ [rbeta 1 al]) ++ [rbinom n v0]) (Qred (1 + zq b)) (Qred (al + zq n - zq b))) in *.
  assert (Hy : 0 <= y <= 1) by (apply (vo_beta _ Ho); rewrite Qred_correct; assumption).
  replace (Z.to_nat (Z.of_nat k - Z.of_nat 1)) with (k - 1)%nat by lia.
  eapply wp_call; [apply (bbin_steps_log o n al); auto; discriminate| | |]; try (intros; simpl in *; intuition discriminate).
  intros a s' g' (_ & H2 & H3 & H4). wsteps. unfold refresh_w; cbn [w v d set_w].
  cbn [v set_v set_binoms last] in H2, H3.
  assert (Ec : c = bbin_chain o n al (S (k - 1)) (g ++ [r0]) v0) by (unfold c; f_equal; lia).
  rewrite Ec. cbn [bbin_chain fst snd]. repeat (rewrite <- app_assoc in H2; cbn [app] in H2). rewrite <- !app_assoc in H3. cbn [app] in H3.
  assert (Eg : (g ++ [r0]) ++ [rbinom n v0; rbeta (1 + zq b) (al + zq n - zq b)] = g ++ [rbeta 1 al; rbinom n v0; rbeta (1 + zq b) (al + zq n - zq b)]).
  { rewrite <- app_assoc. reflexivity. }
  change (o_binom o (g ++ [r0]) n (Qred v0)) with b. rewrite Eg.
  change (o_beta o ((g ++ [r0]) ++ [rbinom n v0]) (Qred (1 + zq b)) (Qred (al + zq n - zq b))) with y.
  split; [reflexivity|]. split; [exact H2|]. split; [exact H3|]. split; [apply stick_image_stick|].
  rewrite H4. exact Hd.
Qed.

Lemma c09_complete pd al k o s g : py_ok pd al ->
  ends_with (wm_complete (CPY pd al) (SInt (Z.of_nat k)) o s g) (fun r s' g' =>
    let rs := map (py_prior pd al) (seq (length (w s)) (k - length (w s))) in
    is_ok r = true /\ g' = g ++ rs /\ v s' = v s ++ beta_answers o g rs /\ d s' = d s /\
    if (length (w s) <? k)%nat then stick_image (v s') (w s') else w s' = w s).
Proof.
  intros H. simpl wm_complete.
  assert (K : wp o (bind (py_complete pd al (SInt (Z.of_nat k))) (fun x => ret (Some x))) (fun r s' g' =>
    let rs := map (py_prior pd al) (seq (length (w s)) (k - length (w s))) in
    is_ok r = true /\ g' = g ++ rs /\ v s' = v s ++ beta_answers o g rs /\ d s' = d s /\
    if (length (w s) <? k)%nat then stick_image (v s') (w s') else w s' = w s) s g); [|exact K].
  eapply wp_call; [apply py_complete_log, H| | |]; try (intros; simpl in *; intuition discriminate).
  intros a s' g' (_ & H2 & H3 & H4 & H5). wsteps. cbv zeta. repeat split; auto.
  destruct (_ <? _)%nat; [rewrite H5; apply stick_image_stick|exact H5].
Qed.
