(* random / complete for all classes: coherence and lengths. *)
From Coq Require Import Lqa.
From Verif Require Import Prelude Numpy Rng M_Weights S_Weights P_Lists P_Hoare P_Wp P_Complete.
Open Scope Q_scope.
Open Scope m_scope.

Definition growing (c : cls) : bool :=
  match c with CDirDist _ _ | CEqual | CFreq _ => false | _ => true end.

Definition min_len (c : cls) : nat := match c with CBBin _ _ => 1%nat | _ => 0%nat end.

Definition complete_post (c : cls) (s : ws) (n : Z) : post ws (option (list Q)) :=
  fun r s' g' => match r with
  | Ok a => coherent c s' /\ (exists t, v s' = v s ++ t) /\
            length (v s') = Nat.max (min_len c) (Nat.max (length (v s)) (Z.to_nat n)) /\
            d s' = d s /\
            a = match c with CBID _ _ => None | _ => Some (w s') end
  | Err _ => d s' = d s
  | Diverge => False
  end.

Lemma cpost_out {A} c s n (r : res A) s' (a : option (list Q)) :
  (forall x y, c <> CGeom x y) -> min_len c = 0%nat ->
  a = match c with CBID _ _ => None | _ => Some (w s') end ->
  grew s s' (Nat.max (length (v s)) (Z.to_nat n)) ->
  forall g', complete_post c s n (Ok a) s' g'.
Proof.
  intros H Hm Ha (H1 & H2 & H3 & H4) g'. simpl. rewrite Hm. repeat split; auto.
  destruct c; auto. destruct (H a0 b); reflexivity.
Qed.

Ltac via L Hz Hs :=
  eapply wp_call; [apply (L Hz Hs)| | |];
  [ intros a0 s' g' [Hc Hr]; wstep; apply (cpost_out _ _ _ (Ok tt)); try reflexivity; try congruence; try exact Hc;
    f_equal; apply Hr; reflexivity
  | intros e s' g' [Hc _]; exact Hc | intros s' g' [[] _] ].

Lemma wm_complete_wp c o z n s g : growing c = true -> coherent c s -> size_val z = Some n ->
  wp o (wm_complete c z) (complete_post c s n) s g.
Proof.
  intros Hg [Hs Hgeo] Hz. pose proof (or_introl (B := (Z.of_nat (length (v s)) < n)%Z) Hs) as Hs'.
  destruct c; try discriminate Hg; simpl wm_complete.
  - via (dp_complete_wp o alpha z n s g) Hz Hs'.
  - via (py_complete_wp o pyd alpha z n s g) Hz Hs.
  - eapply wp_call; [apply (geom_complete_wp o z n s g Hz Hs' Hgeo)| | |].
    + intros a0 s' g' (Hc & Hr & _ & Hp & Hv). wstep. destruct Hc as (H1 & H2 & H3 & H4). simpl.
      repeat split; auto.
      * apply Hv. f_equal. apply Hr; reflexivity.
      * f_equal; apply Hr; reflexivity.
    + intros e s' g' (Hc & _); exact Hc.
    + intros s' g' ([] & _).
  - via (bib_complete_wp o x alpha a b pm z n s g) Hz Hs'.
  - eapply wp_call; [apply (bid_complete_wp o alpha a z n s g Hz)| | |].
    + intros a0 s' g' Hc. wstep. apply (cpost_out _ _ _ (Ok tt)); try reflexivity; try congruence. exact Hc.
    + intros e s' g' Hc; exact Hc.
    + intros s' g' [].
  - via (bb_complete_wp o p alpha z n s g) Hz Hs'.
  - eapply wp_call; [apply (bbin_complete_wp o n0 alpha z n s g Hz)| | |].
    + intros a0 s' g' ((H1 & H2 & H3 & H4) & Hr). wstep.
      simpl complete_post. unfold coherent.
      split; [split; auto|]. split; [auto|]. split; [|split; [auto|f_equal; apply Hr; reflexivity]].
      rewrite H3. reflexivity.
    + intros e s' g' [Hc _]; exact Hc.
    + intros s' g' [[] _].
Qed.

(* sizes accepted as "positive or absent" *)
Definition pos_size (z : pysize) : Prop :=
  match z with SNone => True | SInt k | SNp64 k => (0 < k)%Z | SOther => False end.

(* Number of weights after random(size), per class; [dd] the fitted labels. *)
Definition random_len (c : cls) (nn : Z) (dd : list nat) (z : pysize) : nat :=
  let m := S (nmax dd) in
  let fitted := negb (is_nil dd) in
  match c, size_val z with
  | CDirDist _ al, _ => length al
  | CEqual, _ => Z.to_nat nn
  | CFreq n, _ => if fitted then m else Z.to_nat n
  | CBID _ _, Some k => if fitted then m else Z.to_nat k
  | CBB _ _, Some k | CBBin _ _, Some k => if fitted then Nat.max m (Z.to_nat k) else Z.to_nat k
  | _, Some k => Z.to_nat k
  | _, None => m
  end.

Definition random_post (c : cls) (s : ws) (z : pysize) : post ws (list Q) :=
  fun r s' g' => match r with
  | Ok a => coherent c s' /\ length (v s') = random_len c (wn s) (d s) z /\ d s' = d s /\ a = w s'
  | Err _ => d s' = d s
  | Diverge => False
  end.

Lemma py_take_len {A} k (l : list A) : (0 < k)%Z -> (k < Z.of_nat (length l))%Z -> length (py_take k l) = Z.to_nat k.
Proof. intros H1 H2. unfold py_take. destruct (Z.leb_spec 0 k); [|lia]. rewrite firstn_length; lia. Qed.
Lemma pairs_len (f g : nat -> Q) a b : length a = length b -> length (pairs (map f a) (map g b)) = length a.
Proof. intros H. unfold pairs. rewrite combine_length, !map_length, H. lia. Qed.
Lemma nonnil {A} (l : list A) : is_nil l = false -> l <> [].
Proof. destruct l; [discriminate|congruence]. Qed.
Lemma isnil {A} (l : list A) : is_nil l = true -> l = [].
Proof. destruct l; [reflexivity|discriminate]. Qed.

Lemma dp_random_wp al o z s g : pos_size z ->
  wp o (dp_random al z) (random_post (CDP al) s z) s g.
Proof.
  intros Hz. unfold dp_random. wstep. wstep; [wstep; reflexivity|].
  assert (K : forall k s1 g1, z = SInt k -> w s1 = stick (v s1) \/ (Z.of_nat (length (v s1)) < k)%Z ->
     d s1 = d s -> (Z.of_nat (length (v s1)) <= k)%Z ->
     wp o (dp_complete al z;; s0 <- get ;; ret (w s0)) (random_post (CDP al) s z) s1 g1).
  { intros k s1 g1 Ez Hs1 Hd Hl. assert (Hzv : size_val z = Some k) by (rewrite Ez; reflexivity).
    eapply wp_call; [apply (dp_complete_wp o al z k s1 g1 Hzv Hs1)| | |].
    - intros a s' g' [(H1 & H2 & H3 & H4) Hr]. wsteps. unfold random_post, random_len. rewrite Hzv.
      repeat split; auto; [|congruence]. rewrite H3. lia.
    - intros e s' g' [Hc _]. simpl in *; congruence.
    - intros s' g' [[] _]. }
  destruct z as [|k|k|]; try (wsteps; reflexivity).
  - wstep. wstep; [simpl in Heqb; destruct (d s); discriminate|].
    wsteps; simpl; auto. apply nonnil in Heqb0.
    repeat split; simpl; auto. rewrite beta_draws_length, pairs_len.
    + apply bincount_length; assumption.
    + symmetry; apply tail_counts_length, bincount_nonnil; assumption.
  - simpl in Hz. wstep. wstep.
    + apply (K k); simpl; auto; lia.
    + apply nonnil in Heqb0. pose proof (bincount_nonnil _ Heqb0) as Hb.
      pose proof (tail_counts_length _ Hb) as Hbl.
      wstep; [|simpl; auto]. wstep. wstep.
      apply (K k); simpl; auto. rewrite beta_draws_length.
      destruct (Z.ltb_spec k (Z.of_nat (length (bincount (d s))))).
      * rewrite pairs_len; rewrite !py_take_len; lia.
      * rewrite pairs_len; lia.
Qed.

Lemma py_random_wp pd al o z s g : pos_size z ->
  wp o (py_random pd al z) (random_post (CPY pd al) s z) s g.
Proof.
  intros Hz. unfold py_random. wstep. wstep; [wstep; reflexivity|]. wstep.
  - destruct (size_val z) as [k|] eqn:Hzv; [|destruct z; try discriminate Hzv; simpl in *; congruence || contradiction].
    apply (wp_int _ _ _ _ _ _ _ Hzv). wstep; [wstep; reflexivity|].
    wsteps; simpl; auto. unfold random_post, random_len; rewrite Hzv.
    repeat split; simpl; auto. rewrite beta_draws_length, map_length, seq_length. reflexivity.
  - apply nonnil in Heqb0. pose proof (bincount_nonnil _ Heqb0) as Hb.
    pose proof (tail_counts_length _ Hb) as Hbl.
    assert (PL : forall f h (a b : list nat), length a = length b ->
       length (pairs (map f a) (map h (combine (seq 0 (length a)) b))) = length a).
    { intros f h a b E. unfold pairs. rewrite combine_length, !map_length, combine_length, seq_length, E. lia. }
    destruct (size_val z) as [k|] eqn:Hzv.
    + assert (En : is_snone z = false) by (destruct z; try discriminate Hzv; reflexivity). rewrite En.
      assert (Hk : (0 < k)%Z) by (destruct z; simpl in *; congruence).
      apply wp_assoc. apply (wp_int _ _ _ _ _ _ _ Hzv). wstep.
      wstep; [|simpl; auto]. wstep. wstep. rewrite ?En.
      match goal with |- wp _ _ _ ?s1 ?g1 => set (s2 := s1); set (g2 := g1) end.
      assert (Hlen : length (v s2) = Nat.min (Z.to_nat k) (S (nmax (d s)))).
      { unfold s2; simpl. rewrite beta_draws_length. rewrite <- (bincount_length (d s)) by assumption.
        destruct (Z.ltb_spec k (Z.of_nat (length (bincount (d s))))).
        - rewrite PL; rewrite !py_take_len; lia.
        - rewrite PL; lia. }
      eapply wp_call; [apply (py_complete_wp o pd al z k s2 g2 Hzv); reflexivity| | |].
      * intros a s' g' [(H1 & H2 & H3 & H4) Hr]. wsteps. unfold random_post, random_len. rewrite Hzv.
        repeat split; auto. rewrite H3, Hlen. lia.
      * intros e s' g' [Hc _]. exact Hc.
      * intros s' g' [[] _].
    + assert (En : z = SNone) by (destruct z; try discriminate Hzv; [reflexivity|contradiction]). subst z.
      wsteps; simpl; auto. repeat split; simpl; auto. rewrite beta_draws_length, PL by lia.
      apply bincount_length; assumption.
Qed.

Lemma geom_random_wp a b o z s g : pos_size z ->
  wp o (geom_random a b z) (random_post (CGeom a b) s z) s g.
Proof.
  intros Hz. unfold geom_random. wstep. wstep; [wstep; reflexivity|].
  set (z' := if is_snone z then SNp64 (Z.of_nat (nmax (d s)) + 1) else z).
  assert (exists k, size_val z' = Some k /\ (0 < k)%Z /\ Z.to_nat k = random_len (CGeom a b) (wn s) (d s) z) as (k & Hk & Hk0 & Hl).
  { unfold z'. destruct z; simpl in *.
    - exists (Z.of_nat (nmax (d s)) + 1)%Z. repeat split; lia.
    - eauto.
    - eauto.
    - contradiction. }
  wstep. wstep; [|simpl; auto]. wstep.
  eapply wp_call; [apply (geom_complete_wp o z' k _ _ Hk); simpl; auto| | |].
  - intros a0 s' g' ((H1 & H2 & H3 & H4) & Hr & _ & Hp & Hv). wsteps.
    assert (a0 = w s') by (apply Hr; reflexivity). subst a0.
    repeat split; auto. rewrite H3, <- Hl. simpl. lia.
  - intros e s' g' (Hc & _); exact Hc.
  - intros s' g' ([] & _).
Qed.

Lemma bib_random_wp x al a b pm o z s g : pos_size z ->
  wp o (bib_random x al a b pm z) (random_post (CBIB x al a b pm) s z) s g.
Proof.
  intros Hz. unfold bib_random. wstep. wstep; [wstep; reflexivity|]. wstep.
  assert (K : forall zz k s1 g1, size_val zz = Some k -> w s1 = stick (v s1) \/ (Z.of_nat (length (v s1)) < k)%Z ->
     d s1 = d s -> (Z.of_nat (length (v s1)) <= k)%Z -> Z.to_nat k = random_len (CBIB x al a b pm) (wn s) (d s) z ->
     wp o (bib_complete x al a b pm zz;; s0 <- get ;; ret (w s0)) (random_post (CBIB x al a b pm) s z) s1 g1).
  { intros zz k s1 g1 Hzv Hs1 Hd Hl Hr0.
    eapply wp_call; [apply (bib_complete_wp o x al a b pm zz k s1 g1 Hzv Hs1)| | |].
    - intros a0 s' g' [(H1 & H2 & H3 & H4) Hr]. wsteps. unfold random_post. rewrite <- Hr0.
      repeat split; auto; [|congruence]. rewrite H3. lia.
    - intros e s' g' [Hc _]. simpl in *; congruence.
    - intros s' g' [[] _]. }
  wstep.
  - destruct z as [|k|k|]; try discriminate; try contradiction;
    (apply (K _ k); simpl; auto; simpl in Hz; lia).
  - assert (Hd0 : d s <> []) by (apply nonnil; assumption). pose proof (bincount_nonnil _ Hd0) as Hb.
    pose proof (tail_counts_length _ Hb) as Hbl.
    assert (G : forall s1 g1, d s1 = d s -> wp o
      (z0 <- need_int (if is_snone z then SInt (Z.of_nat (length (bincount (d s)))) else z);;
       s' <- get;;
       nv <- (if qltb x 1 then
          beta_many (pairs
            (map (fun n => 1 + x / (1 - x) * p s' + nq n)
               (if (z0 <? Z.of_nat (length (bincount (d s))))%Z then py_take z0 (bincount (d s)) else bincount (d s)))
            (map (fun n => al + x / (1 - x) * (1 - p s') + nq n)
               (if (z0 <? Z.of_nat (length (bincount (d s))))%Z then py_take z0 (tail_counts (bincount (d s)))
                else tail_counts (bincount (d s)))))
         else if (z0 <? 0)%Z then raise ValueError else ret (repeat (p s') (Z.to_nat z0)));;
       upd (set_v nv);; upd refresh_w;;
       bib_complete x al a b pm (if is_snone z then SInt (Z.of_nat (length (bincount (d s)))) else z);;
       s'0 <- get;; ret (w s'0)) (random_post (CBIB x al a b pm) s z) s1 g1).
    { intros s1 g1 Hd1.
      set (zz := if is_snone z then SInt (Z.of_nat (length (bincount (d s)))) else z).
      assert (exists k, size_val zz = Some k /\ (0 < k)%Z /\ Z.to_nat k = random_len (CBIB x al a b pm) (wn s) (d s) z) as (k & Hk & Hk0 & Hl).
      { unfold zz. destruct z; simpl in *; eauto.
        - exists (Z.of_nat (length (bincount (d s)))). rewrite bincount_length by assumption. repeat split; lia.
        - contradiction. }
      apply (wp_int _ _ _ _ _ _ _ Hk). wstep. wstep.
      - wstep; [|simpl; auto]. wstep. wstep. apply (K zz k); simpl; auto.
        rewrite beta_draws_length.
        destruct (Z.ltb_spec k (Z.of_nat (length (bincount (d s))))).
        + rewrite pairs_len; rewrite !py_take_len; lia.
        + rewrite pairs_len; lia.
      - wstep; [wstep; simpl; auto|]. wstep. wstep. wstep. apply (K zz k); simpl; auto.
        rewrite repeat_length; lia. }
    wstep.
    + eapply wp_mono; [apply bib_random_p_wp|]. intros [a1|e|] s' g' [Hn Hp].
      * apply G. rewrite Hp; reflexivity.
      * rewrite Hp; reflexivity.
      * congruence.
    + wstep. apply G; reflexivity.
Qed.

Lemma nset_length {A} j (y : A) l : (j < length l)%nat -> length (nset j y l) = length l.
Proof. intros H. unfold nset. rewrite app_length; cbn [length]. rewrite firstn_length, skipn_length; lia. Qed.

(* frame of the latent-label updates: d, v, w unchanged, |dbase| unchanged *)
Definition frame_v (s s' : ws) : Prop := d s' = d s /\ v s' = v s /\ w s' = w s /\ wn s' = wn s.
Lemma frame_refl s : frame_v s s. Proof. repeat split. Qed.
Lemma frame_trans a b c : frame_v a b -> frame_v b c -> frame_v a c.
Proof. intros (?&?&?&?) (?&?&?&?); repeat split; congruence. Qed.

Lemma bid_update_j_wp o al a j s g : (j < length (dbase s))%nat ->
  wp o (bid_update_j al a j) (fun r s' g' => frame_v s s' /\ r <> Diverge /\ length (dbase s') = length (dbase s)) s g.
Proof.
  intros Hj. unfold bid_update_j. wsteps; simpl; repeat split; simpl; auto using nset_length; try discriminate.
Qed.
Lemma bid_update_all_wp o al a js : forall s g, Forall (fun j => (j < length (dbase s))%nat) js ->
  wp o (bid_update_all al a js) (fun r s' g' => frame_v s s' /\ r <> Diverge /\ length (dbase s') = length (dbase s)) s g.
Proof.
  induction js as [|j t IH]; intros s g H; simpl.
  - wstep. repeat split; discriminate.
  - inversion H; subst. eapply wp_call; [apply bid_update_j_wp; assumption| | |].
    + intros a0 s' g' (H1 & H4 & H5). eapply wp_mono; [apply IH; rewrite H5; assumption|].
      intros r s2 g2 (H6 & H7 & H8). repeat split; auto; try congruence; eapply frame_trans; eauto.
    + intros e s' g' (H1 & H4 & H5). repeat split; try apply H1; auto; discriminate.
    + intros s' g' (_ & F & _); congruence.
Qed.
Lemma bid_draw_vbase_wp o al ac bc db jjs : forall s g,
  wp o (bid_draw_vbase al ac bc db jjs) (fun r s' g' => s' = s /\ r <> Diverge /\
     (forall x, r = Ok x -> length x = length jjs)) s g.
Proof.
  induction jjs as [|j t IH]; intros s g; simpl.
  - wstep. repeat split; try discriminate. intros x [= <-]; reflexivity.
  - wstep; [|repeat split; discriminate]. eapply wp_call; [apply IH| | |].
    + intros a s' g' (-> & _ & Hl). wsteps. repeat split; try discriminate. intros x [= <-]. simpl; f_equal; auto.
    + intros e s' g' (-> & _ & Hl). repeat split; discriminate.
    + intros s' g' (_ & F & _); congruence.
Qed.

Lemma pad_length {A} n (x : A) l : length (firstn n (l ++ repeat x (n - length l))) = n.
Proof. rewrite firstn_length, app_length, repeat_length. lia. Qed.

Lemma bid_random_wp al a o z s g : pos_size z ->
  wp o (bid_random al a z) (random_post (CBID al a) s z) s g.
Proof.
  intros Hz. unfold bid_random. wstep. wstep; [wstep; reflexivity|].
  assert (G : forall s0 g0, d s <> [] -> d s0 = d s -> wn s0 = wn s -> 
    wp o (upd (fun s => set_dbase (firstn (S (nmax (d s0))) (dbase s ++ repeat 0%nat (S (nmax (d s0)) - length (dbase s)))) s) ;;
      s1 <- get ;;
      vb <- bid_draw_vbase al (bincount (d s0)) (tail_counts (bincount (d s0))) (dbase s1) (seq 0 (S (nmax (dbase s1)))) ;;
      upd (set_vbase vb) ;;
      bid_update_all al a (seq 0 (S (nmax (d s0)))) ;;
      upd (fun s => set_cbase (map (fun j => ncount j (dbase s)) (seq 0 (length (vbase s)))) s) ;;
      s2 <- get ;;
      match gather (vbase s2) (dbase s2) with
      | None => raise IndexError
      | Some nv => upd (set_v nv) ;; upd refresh_w ;; s3 <- get ;; ret (w s3)
      end) (random_post (CBID al a) s z) s0 g0).
  { intros s0 g0 Hd Hd0 Hw. rewrite Hd0. wstep. wstep.
    eapply wp_call; [apply bid_draw_vbase_wp| | |].
    - intros x s' g' (-> & _ & Hx). wstep.
      eapply wp_call; [apply bid_update_all_wp|..].
      + apply Forall_forall; intros j Hj. apply in_seq in Hj. cbn [dbase set_vbase set_dbase]. rewrite pad_length. lia.
      + intros a1 s' g1 ((H1 & H2 & H3 & H4) & _ & H5). cbn [dbase set_vbase set_dbase] in H5. rewrite pad_length in H5.
        wstep. wstep. wstep.
        * match goal with H : gather _ _ = Some _ |- _ => apply gather_length in H end. wsteps.
          unfold random_post, random_len. cbn [d v w refresh_w set_v set_w set_cbase]. simpl in H1.
          repeat split; auto; try congruence. cbn [dbase set_cbase] in *.
          destruct (d s) as [|d0 dt] eqn:E; [congruence|]. cbn [is_nil negb].
          destruct (size_val z); congruence.
        * wstep. simpl in *. congruence.
      + intros e s' g1 ((H1 & _) & _). simpl in *. congruence.
      + intros s' g1 (_ & F & _); congruence.
    - intros e s' g' (-> & _). simpl; assumption.
    - intros s' g1 (_ & F & _); congruence. }
  assert (U : forall zz k, size_val zz = Some k -> zz = z -> is_nil (d s) = true ->
     wp o (bid_complete al a zz ;; s0 <- get ;; ret (w s0)) (random_post (CBID al a) s z)
       (set_vbase [] (set_v [] s)) g).
  { intros zz k Hk Ez Hn. eapply wp_call; [apply (bid_complete_wp o al a zz k _ _ Hk)| | |].
    - intros _ s' g' (H1 & H2 & H3 & H4). wsteps. unfold random_post, random_len. rewrite <- Ez, Hk.
      apply isnil in Hn. rewrite Hn. repeat split; auto; first [rewrite H3; reflexivity|exact (eq_trans H4 Hn)].
    - intros e s' g' Hc; exact Hc.
    - intros s' g' []. }
  destruct z as [|k|k|]; try (wsteps; reflexivity).
  - wstep. wstep. destruct (is_nil (d s)) eqn:E; [discriminate|].
    apply (G (set_vbase [] (set_v [] s)) g); auto. apply nonnil; assumption.
  - wstep. wstep. destruct (is_nil (d s)) eqn:E; [apply (U _ k); auto|].
    apply (G (set_vbase [] (set_v [] s)) g); auto. apply nonnil; assumption.
Qed.

Lemma bernoulli_x_wp o x s g :
  wp o (bernoulli_x x) (fun r (s' : ws) g' => s' = s /\ r <> Diverge) s g.
Proof. unfold bernoulli_x. wsteps; split; auto; discriminate. Qed.

Lemma bb_loop_wp o q al ac bc js : forall bs s g, Forall (fun j => (j < length bs)%nat) js ->
  wp o (bb_loop q al ac bc js bs) (fun r s' g' => s' = s /\ r <> Diverge /\
     (forall x, r = Ok x -> length x = length bs)) s g.
Proof.
  induction js as [|j t IH]; intros bs s g H; simpl.
  - wstep. repeat split; try discriminate. intros x [= <-]; reflexivity.
  - inversion H; subst. eapply wp_call; [apply bernoulli_x_wp| | |].
    + intros a s' g' [-> _]. eapply wp_mono; [apply IH|].
      * eapply Forall_impl; [|exact H3]. intros k Hk. rewrite nset_length; assumption.
      * intros r s' g2 (-> & H4 & H5). repeat split; auto. intros x Hx. rewrite (H5 x Hx). apply nset_length; assumption.
    + intros e s' g' [-> _]. repeat split; discriminate.
    + intros s' g' [_ F]; congruence.
Qed.

Lemma bb_random_bern_wp o q al n s g : (nmax (d s) < n)%nat ->
  wp o (bb_random_bernoullis q al n) (fun r s' g' => frame_v s s' /\ r <> Diverge /\
     (r = Ok tt -> length (bern s') = n)) s g.
Proof.
  intros Hn. unfold bb_random_bernoullis.
  wstep; [|repeat split; discriminate]. wstep. wstep; [wstep; repeat split; discriminate|].
  wstep. wstep.
  - wstep. wstep. repeat split; try discriminate. intros _; simpl.
    rewrite map_length, binom_draws_length, repeat_length; reflexivity.
  - assert (El : length (nset 0 0%nat (map Z.to_nat (fst (binom_draws o 1 (repeat q n) g)))) = n).
    { rewrite nset_length; rewrite map_length, binom_draws_length, repeat_length; lia. }
    eapply wp_mono; [apply bb_loop_wp|].
    + apply Forall_forall; intros j Hj; apply in_seq in Hj. rewrite El. lia.
    + intros [x|e|] s' g' (-> & H2 & H3); try congruence.
      * wstep. repeat split; try discriminate. intros _; simpl. rewrite (H3 x); auto.
      * repeat split; discriminate.
Qed.

Lemma ncumsum_length l : length (ncumsum l) = length l.
Proof. apply ncumsum_from_length. Qed.

Lemma bb_random_wp q al o z s g : pos_size z ->
  wp o (bb_random q al z) (random_post (CBB q al) s z) s g.
Proof.
  intros Hz. unfold bb_random. wstep. wstep; [wstep; reflexivity|].
  set (zz := if is_snone z then SInt 1 else z).
  assert (exists k, size_val zz = Some k /\ (0 < k)%Z) as (k & Hk & Hk0).
  { unfold zz. destruct z; simpl in *; eauto; [exists 1%Z; split; [auto|lia]|contradiction]. }
  wstep. destruct (is_nil (d s)) eqn:Hd.
  - assert (Ez : zz = z) by (unfold zz; destruct z; try reflexivity; discriminate).
    apply (wp_int _ _ _ _ _ _ _ Hk).
    wstep; [zb; lia|].
    eapply wp_call; [apply bb_random_bern_wp| | |].
    + simpl. apply isnil in Hd. rewrite Hd. simpl. lia.
    + intros [] s' g' ((H1 & H2 & H3 & H4) & _ & Hl). specialize (Hl eq_refl).
      wstep. wstep; [wstep; simpl in *; congruence|].
      wstep; [|simpl in *; congruence]. wstep. wstep; [|wstep; simpl in *; congruence].
      wsteps. match goal with H : gather _ _ = Some _ |- _ => apply gather_length in H; rewrite ncumsum_length, Hl in H end.
      unfold random_post, random_len. rewrite <- Ez, Hk, Hd. simpl in H1. repeat split; simpl; auto.
    + intros e s' g' ((H1 & _) & _). simpl in *; congruence.
    + intros s' g' (_ & F & _); congruence.
  - eapply wp_call; [apply bb_random_bern_wp| | |].
    + simpl; lia.
    + intros [] s' g' ((H1 & H2 & H3 & H4) & _ & Hl). specialize (Hl eq_refl).
      wstep. wstep; [|simpl in *; congruence]. wstep. wstep; [|wstep; simpl in *; congruence].
      wstep. wstep.
      match goal with H : gather _ _ = Some _ |- _ => apply gather_length in H; rewrite ncumsum_length, Hl in H; rename H into Hg end.
      match goal with |- wp _ _ _ ?s1 ?g1 => set (s2 := s1); set (g2 := g1) end.
      assert (Hv2 : length (v s2) = S (nmax (d s))) by exact Hg.
      assert (Hw2 : w s2 = stick (v s2)) by reflexivity.
      assert (Hd2 : d s2 = d s) by exact H1.
      eapply wp_call; [apply (bb_complete_wp o q al zz k s2 g2 Hk (or_introl Hw2))| | |].
      * intros a0 s3 g3 [(G1 & G2 & G3 & G4) Hr]. wsteps. unfold random_post, random_len.
        rewrite Hd2 in G4. rewrite Hd. simpl negb.
        repeat split; auto. rewrite G3, Hv2. unfold zz in Hk.
        destruct z; simpl in Hk; injection Hk as <- || discriminate; cbn [size_val]; lia.
      * intros e s3 g3 [Hc _]. exact (eq_trans Hc Hd2).
      * intros s3 g3 [[] _].
    + intros e s' g' ((H1 & _) & _). simpl in *; congruence.
    + intros s' g' (_ & F & _); congruence.
Qed.

Lemma zadd2_length a b : length a = length b -> length (zadd2 a b) = length a.
Proof. revert b; induction a; intros [|y b] H; simpl in *; auto; try discriminate. Qed.
Lemma map3_length {A B C D} (f : A -> B -> C -> D) : forall a b c, length a = length b -> length a = length c ->
  length (map3 f a b c) = length a.
Proof. induction a; intros [|y b] [|z c] H1 H2; simpl in *; auto; try discriminate. Qed.

Lemma bbin_random_binomials_wp o nn al s g : d s <> [] ->
  wp o (bbin_random_binomials nn al) (fun r s' g' => frame_v s s' /\ r <> Diverge /\
     (forall x, r = Ok x -> length x = S (S (nmax (d s))))) s g.
Proof.
  intros Hd. unfold bbin_random_binomials. wsteps; repeat split; try discriminate.
  intros x Hx. apply (f_equal (fun r => match r with Ok y => length y | _ => 0%nat end)) in Hx. rewrite <- Hx.
  cbv iota beta. rewrite binom_draws_length, beta_draws_length. unfold pairs. rewrite combine_length, !map_length.
  cbn [length]. rewrite tail_counts_length, bincount_length by auto using bincount_nonnil. lia.
Qed.

Lemma bbin_random_wp nn al o z s g : pos_size z ->
  wp o (bbin_random nn al z) (random_post (CBBin nn al) s z) s g.
Proof.
  intros Hz. unfold bbin_random. wstep. wstep; [wstep; reflexivity|].
  set (zz := if is_snone z then SInt 1 else z).
  assert (exists k, size_val zz = Some k /\ (0 < k)%Z) as (k & Hk & Hk0).
  { unfold zz. destruct z; simpl in *; eauto; [exists 1%Z; split; [auto|lia]|contradiction]. }
  wstep. destruct (is_nil (d s)) eqn:Hd.
  - assert (Ez : zz = z) by (unfold zz; destruct z; try reflexivity; discriminate).
    eapply wp_call; [apply (bbin_complete_wp o nn al zz k _ _ Hk)| | |].
    + intros a s' g' [(G1 & G2 & G3 & G4) Hr]. wsteps. unfold random_post, random_len.
      rewrite <- Ez, Hk, Hd. repeat split; auto. rewrite G3. cbn [length v set_v negb]. lia.
    + intros e s' g' [Hc _]. exact Hc.
    + intros s' g' [[] _].
  - pose proof (nonnil _ Hd) as Hd0.
    eapply wp_call; [apply bbin_random_binomials_wp; exact Hd0| | |].
    + intros bs s' g' ((H1 & H2 & H3 & H4) & _ & Hl). specialize (Hl bs eq_refl). simpl in Hl.
      wstep; [|simpl in *; congruence]. wstep. wstep.
      match goal with |- wp _ _ _ ?s1 ?g1 => set (s2 := s1); set (g2 := g1) end.
      assert (Hv2 : length (v s2) = S (nmax (d s))).
      { unfold s2; cbn [v refresh_w set_v set_w]. rewrite beta_draws_length, map3_length.
        - apply bincount_length; assumption.
        - symmetry; apply tail_counts_length, bincount_nonnil; assumption.
        - rewrite zadd2_length; rewrite removelast_length; rewrite Hl; simpl.
          + apply bincount_length; assumption.
          + destruct bs; simpl in *; congruence. }
      assert (Hd2 : d s2 = d s) by exact H1.
      eapply wp_call; [apply (bbin_complete_wp o nn al zz k s2 g2 Hk)| | |].
      * intros a0 s3 g3 [(G1 & G2 & G3 & G4) Hr]. wsteps. unfold random_post, random_len.
        rewrite Hd2 in G4. rewrite Hd. cbn [negb].
        repeat split; auto. rewrite G3, Hv2. unfold zz in Hk.
        destruct z; simpl in Hk; injection Hk as <- || discriminate; cbn [size_val]; lia.
      * intros e s3 g3 [Hc _]. exact (eq_trans Hc Hd2).
      * intros s3 g3 [[] _].
    + intros e s' g' ((H1 & _) & _). simpl in *; congruence.
    + intros s' g' (_ & F & _); congruence.
Qed.

Definition stick_cls (c : cls) : bool := growing c.

Lemma wm_random_wp c o z s g : stick_cls c = true -> pos_size z ->
  wp o (wm_random c z) (random_post c s z) s g.
Proof.
  intros Hc Hz. destruct c; try discriminate Hc; simpl wm_random;
  [apply dp_random_wp|apply py_random_wp|apply geom_random_wp|apply bib_random_wp|
   apply bid_random_wp|apply bb_random_wp|apply bbin_random_wp]; assumption.
Qed.

