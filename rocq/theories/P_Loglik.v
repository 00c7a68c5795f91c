(* C23, C24: log-likelihoods. *)
From Coq Require Import Reals Lra Qreals Lqa.
From Verif Require Import Prelude Numpy Rng M_Weights M_Loglik S_Weights S_Hist S_Assign S_Loglik S_Draws S_Oracle P_Lists P_Hoare P_Wp P_Inv P_Complete P_Random P_Tail P_Sticks P_Geom P_Grow P_Fixed P_Bid.
Open Scope Q_scope.
Open Scope m_scope.

Lemma log_pos x : 0 < x -> np_log x = Fin (ln (Q2R x)).
Proof. intros H. unfold np_log. apply qltb_lt in H. rewrite H. reflexivity. Qed.
Lemma log_zero x : x == 0 -> np_log x = NegInf.
Proof. intros H. unfold np_log. assert (E : qltb 0 x = false) by (apply qltb_ge; lra). rewrite E. apply Qeq_bool_iff in H. rewrite H. reflexivity. Qed.
Lemma esum_pos xs : Forall (fun x => 0 < x) xs -> esum (map np_log xs) = Fin (rsum (map (fun x => ln (Q2R x)) xs)).
Proof. induction 1 as [|x t Hx Ht IH]; [reflexivity|]. cbn [map]. unfold esum in *. cbn [fold_right]. rewrite IH, log_pos by assumption. reflexivity. Qed.
Lemma esum_neg xs : Forall (fun x => 0 <= x) xs -> Exists (fun x => x == 0) xs -> esum (map np_log xs) = NegInf.
Proof.
  intros H. induction H as [|x t Hx Ht IH]; intros E; [inversion E|]. unfold esum in *. cbn [map fold_right].
  assert (C : Forall (fun x => 0 < x) t \/ Exists (fun x => x == 0) t).
  { clear - Ht. induction Ht as [|y t Hy Ht [IH|IH]]; [left; constructor| |right; right; assumption].
    destruct (Qlt_le_dec 0 y); [left; constructor; assumption|right; left; lra]. }
  destruct C as [C|C].
  - pose proof (esum_pos t C) as X. unfold esum in X. rewrite X. inversion E; subst.
    + rewrite log_zero by assumption. reflexivity.
    + exfalso. apply Exists_exists in H0 as (y & Hy & Zy). rewrite Forall_forall in C. specialize (C y Hy). lra.
  - rewrite (IH C). destruct (Qlt_le_dec 0 x); [rewrite log_pos by assumption|rewrite log_zero by lra]; reflexivity.
Qed.
Lemma ln_le_0 x : 0 < x -> x <= 1 -> (ln (Q2R x) <= 0)%R.
Proof.
  intros H0 H1. apply Qreals.Qle_Rle in H1. apply Qreals.Qlt_Rlt in H0. rewrite RMicromega.Q2R_0 in H0. rewrite RMicromega.Q2R_1 in H1.
  destruct (Rle_lt_or_eq_dec _ _ H1) as [L|E]; [|rewrite E, ln_1; Lra.lra].
  left. rewrite <- ln_1. apply ln_increasing; assumption.
Qed.
Lemma rsum_le_0 l : Forall (fun x => (x <= 0)%R) l -> (rsum l <= 0)%R.
Proof. induction 1; simpl; [Lra.lra|]. unfold rsum in *. Lra.lra. Qed.

Lemma subprob_nth x i : subprob x -> 0 <= nth i x 0 /\ nth i x 0 <= 1.
Proof.
  intros [H1 H2]. revert i H2. induction H1 as [|a t Ha Ht IH]; intros i H2.
  - destruct i; simpl; lra.
  - unfold qtotal in *. simpl in H2. assert (0 <= fold_right Qplus 0 t) by (apply (qtotal_nonneg t Ht)).
    destruct i as [|i]; simpl; [lra|]. apply IH. lra.
Qed.

Lemma ll_value_holds wl dl xs : subprob wl -> gather wl dl = Some xs -> ll_value (esum (map np_log xs)) wl dl.
Proof.
  intros Hs Hg. apply gather_nth in Hg. subst xs.
  assert (N : Forall (fun x => 0 <= x) (map (fun i => nth i wl 0) dl)).
  { apply Forall_forall. intros x Hx. apply in_map_iff in Hx as (i & <- & _). apply subprob_nth; assumption. }
  destruct (Exists_dec (fun x => x == 0) (map (fun i => nth i wl 0) dl)) as [E|E].
  { intros x. destruct (Qeq_bool x 0) eqn:B; [left; apply Qeq_bool_iff; assumption|right; intros K; apply Qeq_bool_iff in K; congruence]. }
  - rewrite esum_neg by assumption. simpl. apply Exists_exists in E as (x & Hx & Zx). apply in_map_iff in Hx as (i & <- & Hi). eauto.
  - assert (P : forall i, In i dl -> 0 < nth i wl 0).
    { intros i Hi. destruct (Qlt_le_dec 0 (nth i wl 0)) as [L|L]; [assumption|]. exfalso. apply E. apply Exists_exists.
      exists (nth i wl 0). split; [apply (in_map (fun i => nth i wl 0)); assumption|]. pose proof (subprob_nth wl i Hs). lra. }
    rewrite esum_pos.
    + simpl. rewrite map_map. split; [exact P|]. split; [reflexivity|]. apply rsum_le_0. apply Forall_forall. intros y Hy.
      apply in_map_iff in Hy as (i & <- & Hi). apply ln_le_0; [apply P; assumption|apply subprob_nth; assumption].
    + apply Forall_forall. intros x Hx. apply in_map_iff in Hx as (i & <- & Hi). auto.
Qed.

Lemma okw_subprob s : okw s -> subprob (w s).
Proof. intros H. apply H. Qed.

Lemma assign_ll_wp c o dd s g : valid_oracle o -> okw s ->
  wp o (wm_assign_ll c dd) (fun r s' g' => forall x, r = Ok x ->
     which dd s <> [] /\ Forall (fun i => (i < length (w s'))%nat) (which dd s) /\ ll_value x (w s') (which dd s)) s g.
Proof.
  intros V Hs. unfold wm_assign_ll, wm_assign_weights. apply wp_assoc. wstep. fold (which dd s).
  apply wp_bind. destruct (which dd s) as [|i0 t0] eqn:Ed; cbn [is_nil]; [wstep; discriminate|]. rewrite <- Ed.
  pose proof (wm_complete_ok c (SNp64 (Z.of_nat (nmax (which dd s)) + 1)) o V s g Hs) as K.
  apply wp_bind. unfold wp at 1. destruct (wm_complete c _ o s g) as [[[a|e|] s1] g1]; try discriminate.
  destruct K as [K _]. wstep. destruct (gather (w s1) (which dd s)) as [xs|] eqn:G; [|wstep; discriminate].
  wstep. wstep. intros x [= <-]. split; [congruence|]. split.
  - destruct (Forall_Exists_dec (fun i => (i < length (w s1))%nat)) with (l := which dd s) as [F|F]; [intros; apply lt_dec|exact F|].
    exfalso. assert (N : gather (w s1) (which dd s) = None); [|congruence]. apply gather_none. eapply Exists_impl; [|exact F]. simpl; intros; lia.
  - apply ll_value_holds; [apply okw_subprob; assumption|assumption].
Qed.

Lemma c23_value_proof c parg narg o s0 g0 ops dd s g : valid_oracle o ->
  (forall x al a b pm, c = CBIB x al a b pm -> in01 parg) ->
  new_ws c parg narg o = Ok (s0, g0) -> run_ops c ops o s0 g0 = (s, g) ->
  ends_with (wm_assign_ll c dd o s g) (fun r s' g' => forall x, r = Ok x ->
     which dd s <> [] /\ Forall (fun i => (i < length (w s'))%nat) (which dd s) /\ ll_value x (w s') (which dd s)).
Proof.
  intros V Hp Hn Hr. apply assign_ll_wp; [assumption|].
  pose proof (run_ops_ok c o V ops s0 g0 (new_ws_ok _ _ _ _ _ _ V Hp Hn)) as H. rewrite Hr in H. exact H.
Qed.

(* ---- IndexError ---- *)
Lemma ncumsum_le_last l : forall a dflt, l <> [] -> Forall (fun i => (i <= last (ncumsum_from a l) dflt)%nat /\ (a <= i)%nat) (ncumsum_from a l).
Proof.
  induction l as [|x t IH]; intros a dflt H; [congruence|]. cbn [ncumsum_from]. destruct t as [|y t].
  - simpl. constructor; [lia|constructor].
  - specialize (IH (a + x)%nat dflt ltac:(discriminate)). cbn [last]. cbn [ncumsum_from] in *. constructor.
    + inversion IH; subst. lia.
    + eapply Forall_impl; [|exact IH]. simpl. intros; lia.
Qed.

Lemma bb_complete_noindex o q al z n s g : size_val z = Some n -> ~ (v s = [] /\ n = 1%Z) ->
  wp o (bb_complete q al z) (fun r _ _ => r <> Err IndexError) s g.
Proof.
  intros Hz Hn. unfold bb_complete. wstep; [|discriminate]. apply (wp_int _ _ _ _ _ _ _ Hz). wstep.
  wstep; [|wstep; discriminate]. apply Z.ltb_lt in Heqb.
  assert (F : forall s1 g1, (Z.of_nat (length (v s1)) < n)%Z ->
     wp o (s0 <- get;; m <- binom_rep 1 q (Z.to_nat (n - Z.of_nat (length (v s0))));;
           upd (set_bern (bern s0 ++ map Z.to_nat m));;
           (if is_nil (ncumsum (map Z.to_nat m)) then raise IndexError
            else nb <- beta_rep 1 al (last (ncumsum (map Z.to_nat m)) 0%nat);;
              match gather (last (v s0) 0 :: nb) (ncumsum (map Z.to_nat m)) with
              | Some e => upd (set_v (v s0 ++ e));; upd refresh_w;; s' <- get;; ret (w s')
              | None => raise IndexError
              end)) (fun r _ _ => r <> Err IndexError) s1 g1).
  { intros s1 g1 Hl. wstep. apply wp_bind. apply wp_binom_rep; [|discriminate]. intros _.
    set (m := fst (binom_draws o 1 (repeat q (Z.to_nat (n - Z.of_nat (length (v s1))))) g1)).
    assert (Lm : map Z.to_nat m <> []).
    { intros E. apply (f_equal (@length nat)) in E. unfold m in E. rewrite map_length, binom_draws_length, repeat_length in E. simpl in E. lia. }
    wstep. assert (N : is_nil (ncumsum (map Z.to_nat m)) = false).
    { destruct (map Z.to_nat m); [congruence|reflexivity]. }
    rewrite N. apply wp_bind. apply wp_beta_rep; [|discriminate]. intros _.
    match goal with |- context [gather ?x ?i] => destruct (gather_some x i) as [e He] end.
    { eapply Forall_impl; [|apply (ncumsum_le_last (map Z.to_nat m) 0%nat 0%nat Lm)]. simpl. intros i [Hi _].
      rewrite beta_draws_length, repeat_length. fold (ncumsum (map Z.to_nat m)) in Hi. lia. }
    rewrite He. wsteps. discriminate. }
  wstep.
  - destruct (v s) eqn:Ev; [|discriminate]. wstep; [|discriminate]. wstep. apply F. simpl in *.
    assert (n <> 1%Z) by tauto. rewrite ?beta_draws_length, ?repeat_length. simpl. lia.
  - wstep. apply F. assumption.
Qed.

Lemma bbin_complete_noindex o nn al z s g : wp o (bbin_complete nn al z) (fun r s' g' => r <> Err IndexError) s g.
Proof.
  unfold bbin_complete.
  assert (F : forall s1 g1, wp o (z0 <- need_int z;; s0 <- get;;
           repeatM (Z.to_nat (z0 - Z.of_nat (length (v s0)))) (bbin_step nn al);; upd refresh_w;; s' <- get ;; ret (w s')) (fun r _ _ => r <> Err IndexError) s1 g1).
  { intros s1 g1. wstep; [|discriminate]. wstep. eapply wp_call; [apply repeatM_noindex; intros; unfold bbin_step; wsteps; repeat split; discriminate|..]; cbv beta.
    - intros. wsteps. discriminate.
    - intros e s' g' (X & _). congruence.
    - discriminate. }
  wstep; [|discriminate]. wstep. wstep; [|wstep; apply F].
  repeat first [solve [apply F] | discriminate | wstep].
Qed.

Lemma growing_complete_noindex c o z n s g : growing c = true -> size_val z = Some n ->
  (forall q al, c = CBB q al -> ~ (v s = [] /\ n = 1%Z)) ->
  wp o (wm_complete c z) (fun r s' g' => r <> Err IndexError) s g.
Proof.
  intros Hc Hz Hb.
  assert (K : forall (m : M ws (list Q)), wp o m (fun r _ _ => r <> Err IndexError) s g -> wp o (x <- m ;; ret (Some x)) (fun r _ _ => r <> Err IndexError) s g).
  { intros m Hm. eapply wp_call; [exact Hm|..]; cbv beta; [intros; wstep; discriminate|congruence|discriminate]. }
  destruct c; try discriminate Hc; simpl wm_complete.
  - apply K. unfold dp_complete. wsteps; discriminate.
  - apply K. unfold py_complete. wsteps; discriminate.
  - apply K. unfold geom_complete. wsteps; discriminate.
  - apply K. unfold bib_complete, bib_random_p. wsteps; discriminate.
  - eapply wp_call; [apply bid_complete_noindex|..]; cbv beta; [intros; wstep; discriminate|intros e s' g' (H & _); congruence|discriminate].
  - apply K. eapply bb_complete_noindex; [exact Hz|eapply Hb; reflexivity].
  - apply K. apply bbin_complete_noindex.
Qed.

Lemma wp_and {S A} o (m : M S A) (P P' : post S A) s g : wp o m P s g -> wp o m P' s g -> wp o m (fun r s' g' => P r s' g' /\ P' r s' g') s g.
Proof. unfold wp. destruct (m o s g) as [[r s'] g']. auto. Qed.

Lemma c23_noindex_proof c o s g dd : stick_breaking c -> reached c o s g ->
  (forall q al, c = CBB q al -> w s = [] -> (0 < list_max (which dd s))%nat) ->
  ends_with (wm_assign_ll c dd o s g) (fun r s' g' => r <> Err IndexError /\ r <> Diverge /\
    (forall x, r = Ok x -> extends (w s) (w s') /\ length (w s') = Nat.max (length (w s)) (S (list_max (which dd s))) /\ d s' = d s)).
Proof.
  intros Hc Hr Hb. pose proof (reached_coherent c o s g Hc Hr) as Co. apply growing_stick in Hc.
  change (wp o (wm_assign_ll c dd) (fun r s' g' => r <> Err IndexError /\ r <> Diverge /\
    (forall x, r = Ok x -> extends (w s) (w s') /\ length (w s') = Nat.max (length (w s)) (S (list_max (which dd s))) /\ d s' = d s)) s g).
  unfold wm_assign_ll, wm_assign_weights. apply wp_assoc. wstep. fold (which dd s). apply wp_bind.
  destruct (which dd s) as [|i0 t0] eqn:Ed; cbn [is_nil]; [wstep; repeat split; discriminate|]. rewrite <- Ed in *. clear Ed i0 t0.
  assert (Hl : length (w s) = length (v s)) by (rewrite (proj1 Co); apply stick_length).
  eapply wp_call; [apply wp_and; [eapply (growing_complete_noindex c o); [exact Hc|reflexivity|]|eapply (wm_complete_wp c o); [exact Hc|exact Co|reflexivity]]|..]; cbv beta.
  - intros q al E [Ev En]. rewrite Ev in Hl. assert (w s = []) by (destruct (w s); [reflexivity|discriminate]).
    specialize (Hb q al E H). change (list_max (which dd s)) with (nmax (which dd s)) in Hb. lia.
  - intros a s1 g1 [_ (C1 & Ex & Ln & Dd & _)]. wstep. change (list_max (which dd s)) with (nmax (which dd s)).
    assert (Hl1 : length (w s1) = length (v s1)) by (rewrite (proj1 C1); apply stick_length).
    assert (Lw : length (w s1) = Nat.max (length (w s)) (S (nmax (which dd s)))).
    { rewrite Hl1, Ln, Hl. destruct c; try discriminate Hc; cbn [min_len]; lia. }
    destruct (gather_some (w s1) (which dd s)) as [r Hg].
    { eapply Forall_impl; [|apply nmax_ge]. simpl. intros; lia. }
    rewrite Hg. wsteps. split; [discriminate|]. split; [discriminate|]. intros x [= <-]. split; [|split; assumption].
    eapply extends_stick; eassumption.
  - intros e s1 g1 [H _]. repeat split; congruence.
  - intros s1 g1 [_ []].
Qed.

(* ---- fixed-size classes ---- *)
Definition dd_len (al : list Q) (s : ws) : Prop := w s = [] \/ length (w s) = length al.
Lemma dd_random_len o al z s g : valid_oracle o -> dd_len al s ->
  wp o (dd_random al z) (fun r s' g' => dd_len al s' /\ (is_ok r = true -> length (w s') = length al)) s g.
Proof.
  intros V H. unfold dd_random. wsteps; split; try exact H; try discriminate; unfold dd_len; simpl; rewrite ?(vo_dir_len o V), ?map_length; auto;
  rewrite ?combine_length, ?firstn_length, ?app_length, ?repeat_length; try (intros _); try right; lia.
Qed.
Lemma dd_complete_len o al z s g : valid_oracle o -> dd_len al s ->
  wp o (dd_complete al z) (fun r s' g' => dd_len al s' /\ (is_ok r = true -> length (w s') = length al)) s g.
Proof.
  intros V H. unfold dd_complete. wstep; [|split; [exact H|discriminate]]. wstep. wstep.
  - eapply wp_mono; [apply dd_random_len; assumption|]. intros [a|e|] s1 g1 [H1 H2]; try (split; [exact H1|discriminate]).
    wsteps. split; [exact H1|]. intros _. apply H2; reflexivity.
  - wsteps. split; [exact H|]. intros _. destruct H as [H|H]; [rewrite H in *; discriminate|exact H].
Qed.
Lemma dd_exec_len o k al op s g : valid_oracle o -> dd_len al s ->
  wp o (exec_op (CDirDist k al) op) (fun r s' g' => dd_len al s') s g.
Proof.
  intros V H. destruct op; cbn [exec_op].
  - eapply wp_call; [apply (dd_random_len o al size s g V H)|..]; cbv beta; intros; [wstep|..]; tauto.
  - cbn [wm_complete]. apply wp_assoc. eapply wp_call; [apply (dd_complete_len o al size s g V H)|..]; cbv beta; intros; [wsteps|..]; tauto.
  - cbn [wm_tail]. unfold base_tail.
    assert (L : forall fuel s g, dd_len al s -> wp o (tail_loop (CDirDist k al) fuel x) (fun r s' g' => dd_len al s') s g).
    { induction fuel0 as [|f IH]; intros s1 g1 H1; cbn [tail_loop]; wstep; wstep; try (wstep; exact H1).
      - exact H1.
      - cbn [wm_complete]. apply wp_assoc. eapply wp_call; [apply (dd_complete_len o al _ s1 g1 V H1)|..]; cbv beta; try tauto.
        intros a s2 g2 [H2 _]. wstep. apply IH; exact H2. }
    assert (F : forall s1 g1, dd_len al s1 -> wp o (tail_loop (CDirDist k al) fuel x;; s' <- get;; ret (w s')) (fun r s' g' => dd_len al s') s1 g1).
    { intros s1 g1 H1. eapply wp_call; [apply L; exact H1|..]; cbv beta; intros; try assumption; wsteps; assumption. }
    apply wp_bind. wstep; [wstep; exact H|]. wstep. wstep.
    + eapply wp_mono; [apply (dd_random_len o al (SInt 1) s g V H)|]. intros [a|e|] s1 g1 [H1 _]; try exact H1.
      eapply wp_mono; [apply F; exact H1|]. intros [?|?|] ? ? X; first [exact X | wstep; exact X].
    + wstep. eapply wp_mono; [apply F; exact H|]. intros [?|?|] ? ? X; [wstep|..]; exact X.
  - unfold wm_fit. wstep. exact H.
  - unfold wm_reset. wstep. exact H.
  - unfold wm_assign_weights. apply wp_assoc. wstep. apply wp_bind. wstep; [wstep; exact H|]. 
    cbn [wm_complete]. apply wp_assoc. eapply wp_call; [apply (dd_complete_len o al _ s g V H)|..]; cbv beta; try tauto.
    intros a s2 g2 [H2 _]. wstep. wstep. wsteps; exact H2.
  - unfold wm_random_assignment. wsteps; exact H.
Qed.
Lemma dd_reached_len o k al s g : valid_oracle o -> reached (CDirDist k al) o s g -> dd_len al s.
Proof.
  intros V (parg & narg & ops & s0 & g0 & _ & Hn & _ & E).
  assert (H0 : dd_len al s0) by (injection Hn as <- <-; left; reflexivity).
  assert (G : forall ops s1 g1, dd_len al s1 -> wp o (exec_ops (CDirDist k al) ops) (fun r s' g' => dd_len al s') s1 g1).
  { induction ops0 as [|op t IH]; intros s1 g1 H1; cbn [exec_ops]; [wstep; exact H1|].
    eapply wp_call; [apply dd_exec_len; eassumption|..]; cbv beta; auto. }
  specialize (G ops s0 g0 H0). unfold wp in G. rewrite E in G. exact G.
Qed.

Lemma fixed_complete_len c o z s g : valid_oracle o -> fixed_ok c -> reached c o s g ->
  wp o (wm_complete c z) (fun r s' g' => r <> Err IndexError /\ (is_ok r = true -> length (w s') = random_length c (wn s) (d s) SNone)) s g.
Proof.
  intros V Hc Hr. destruct c; try contradiction; cbn [wm_complete].
  - apply dd_reached_len in Hr; [|assumption].
    assert (N : wp o (dd_complete alpha z) (fun r _ _ => r <> Err IndexError) s g) by (unfold dd_complete, dd_random; wsteps; discriminate).
    eapply wp_call; [apply wp_and; [exact N|apply (dd_complete_len o alpha z s g V Hr)]|..]; cbv beta.
    + intros a s1 g1 [_ [_ X]]. wstep. split; [discriminate|]. intros _. apply X; reflexivity.
    + intros e s1 g1 [X _]. split; [congruence|discriminate].
    + intros; split; discriminate.
  - unfold eq_random, repeat_inv. wsteps; split; try discriminate. intros _. cbn [w set_w]. apply repeat_length.
  - unfold freq_random, repeat_inv. wsteps; split; try discriminate; intros _; cbn [w set_w random_length].
    + destruct (d s); [|discriminate]. apply repeat_length.
    + rewrite !map_length. destruct (d s) eqn:Ed; [discriminate|]. rewrite <- Ed, bincount_length by congruence. reflexivity.
Qed.
Lemma c23_fixed_proof c o s g dd : valid_oracle o -> fixed_ok c -> reached c o s g ->
  ends_with (wm_assign_ll c dd o s g) (fun r s' g' =>
    (r = Err IndexError -> (random_length c (wn s) (d s) SNone <= list_max (which dd s))%nat) /\
    (is_ok r = true -> (list_max (which dd s) < random_length c (wn s) (d s) SNone)%nat)).
Proof.
  intros V Hc Hr.
  change (wp o (wm_assign_ll c dd) (fun r s' g' =>
    (r = Err IndexError -> (random_length c (wn s) (d s) SNone <= list_max (which dd s))%nat) /\
    (is_ok r = true -> (list_max (which dd s) < random_length c (wn s) (d s) SNone)%nat)) s g).
  change (list_max (which dd s)) with (nmax (which dd s)).
  unfold wm_assign_ll, wm_assign_weights. apply wp_assoc. wstep. fold (which dd s). apply wp_bind.
  destruct (which dd s) as [|i0 t0] eqn:Ed; cbn [is_nil]; [wstep; split; discriminate|]. rewrite <- Ed in *.
  assert (Hne : which dd s <> []) by (rewrite Ed; discriminate). clear Ed i0 t0.
  eapply wp_call; [apply (fixed_complete_len c o _ s g V Hc Hr)|..]; cbv beta.
  - intros a s1 g1 [_ X]. specialize (X eq_refl). wstep. destruct (gather (w s1) (which dd s)) as [xs|] eqn:G.
    + wsteps. split; [discriminate|]. intros _. rewrite <- X. apply Nat.nle_gt. intros Hle.
      assert (N : gather (w s1) (which dd s) = None); [|congruence]. apply gather_none. apply Exists_exists.
      exists (nmax (which dd s)). split; [apply nmax_in; exact Hne|exact Hle].
    + wstep. split; [|discriminate]. intros _. rewrite <- X. apply gather_none in G. apply Exists_exists in G as (i & Hi & Hl).
      pose proof (nmax_ge (which dd s)) as M. rewrite Forall_forall in M. specialize (M i Hi). simpl in M. lia.
  - intros e s1 g1 [X _]. split; [congruence|discriminate].
  - intros; split; discriminate.
Qed.

(* ---- recovering the sticks ---- *)
Lemma recover_spec : forall v wl q, ~ q == 0 -> length wl = length v ->
  (forall j, (j < length v)%nat -> nth j wl 0 == q * (nth j v 0 * qproduct (map (fun x => 1 - x) (firstn j v)))) ->
  open_sticks v ->
  exists v', recover (Some q) wl = map Some v' /\ Forall2 Qeq v' v.
Proof.
  induction v as [|x t IH]; intros wl q Hq Hl Hw Ho.
  - destruct wl; [|discriminate]. exists []. split; [reflexivity|constructor].
  - destruct wl as [|y u]; [discriminate|]. cbn [recover].
    destruct (Qeq_bool q 0) eqn:E; [apply Qeq_bool_iff in E; contradiction|].
    assert (Hy : y / q == x).
    { pose proof (Hw 0%nat ltac:(simpl; lia)) as H0. unfold qproduct in H0. cbn [nth firstn map fold_right] in H0. rewrite H0. field. exact Hq. }
    destruct t as [|x2 t].
    + destruct u; [|discriminate]. exists [y / q]. split; [reflexivity|]. constructor; [exact Hy|constructor].
    + assert (Hx : ~ x == 1) by (unfold open_sticks in Ho; cbn [removelast] in Ho; inversion Ho; assumption).
      destruct (IH u (q * (1 - y / q))) as (v' & E1 & E2).
      * rewrite Hy. intros Z. apply Qmult_integral in Z as [Z|Z]; [contradiction|]. apply Hx. lra.
      * simpl in *. lia.
      * intros j Hj. specialize (Hw (S j) ltac:(simpl in *; lia)). unfold qproduct in *. cbn [nth firstn map fold_right] in *.
        rewrite Hw, Hy. ring.
      * unfold open_sticks in *. cbn [removelast] in Ho. inversion Ho; assumption.
      * exists (y / q :: v'). rewrite E1. split; [reflexivity|]. constructor; assumption.
Qed.
Lemma recover_sticks_spec v wl : stick_image v wl -> open_sticks v ->
  exists v', recover_sticks wl = map Some v' /\ Forall2 Qeq v' v.
Proof.
  intros [Hl Hw] Ho. destruct v as [|x t].
  - destruct wl; [|discriminate]. exists []. split; [reflexivity|constructor].
  - destruct wl as [|y u]; [discriminate|]. cbn [recover_sticks].
    assert (Hy : y == x).
    { pose proof (Hw 0%nat ltac:(simpl; lia)) as H0. unfold qproduct in H0. cbn [nth firstn map fold_right] in H0. rewrite H0. ring. }
    destruct t as [|x2 t].
    + destruct u; [|discriminate]. exists [y]. split; [reflexivity|]. constructor; [exact Hy|constructor].
    + assert (Hx : ~ x == 1) by (unfold open_sticks in Ho; cbn [removelast] in Ho; inversion Ho; assumption).
      destruct (recover_spec (x2 :: t) u (1 - y)) as (v' & E1 & E2).
      * rewrite Hy. intros Z. apply Hx. lra.
      * simpl in *. lia.
      * intros j Hj. specialize (Hw (S j) ltac:(simpl in *; lia)). unfold qproduct in *. cbn [nth firstn map fold_right] in *.
        rewrite Hw, Hy. ring.
      * unfold open_sticks in *. cbn [removelast] in Ho. inversion Ho; assumption.
      * exists (y :: v'). rewrite E1. split; [reflexivity|]. constructor; assumption.
Qed.
Lemma index_terms_map {A B} (h : A -> B) f : forall l j, index_terms f j (map h l) = index_terms (fun i x => f i (h x)) j l.
Proof. induction l; intros j; simpl; [reflexivity|]. rewrite IHl. reflexivity. Qed.

Lemma index_terms_seq f : forall (l : list Q) j, index_terms f j l = map (fun i => f i (nth (i - j) l 0)) (seq j (length l)).
Proof.
  induction l as [|x t IH]; intros j; [reflexivity|]. cbn [index_terms length seq map]. rewrite Nat.sub_diag. cbn [nth]. f_equal.
  rewrite IH. apply map_ext_in. intros i Hi. apply in_seq in Hi. replace (i - j)%nat with (S (i - S j)) by lia. reflexivity.
Qed.

Lemma Forall2_len {A B} (R : A -> B -> Prop) l1 l2 : Forall2 R l1 l2 -> length l1 = length l2.
Proof. induction 1; simpl; congruence. Qed.

Lemma c24_dp_proof al o s g : reached (CDP al) o s g -> w s <> [] -> open_sticks (v s) ->
  exists v', Forall2 Qeq v' (v s) /\ wm_weight_ll (CDP al) s = Ok (map (fun x => TBeta (Some x) 1 al) v').
Proof.
  intros Hr Hw Ho. destruct (c02_reached_proof (CDP al) o s g I Hr) as [Im _].
  destruct (recover_sticks_spec _ _ Im Ho) as (v' & E & F). exists v'. split; [exact F|].
  cbn [wm_weight_ll]. destruct (w s); [congruence|]. cbn [is_nil]. rewrite E, map_map. reflexivity.
Qed.
Lemma c24_py_proof pyd al o s g : reached (CPY pyd al) o s g -> w s <> [] -> open_sticks (v s) ->
  exists v', Forall2 Qeq v' (v s) /\ wm_weight_ll (CPY pyd al) s =
    Ok (map (fun j => TBeta (Some (nth j v' 0)) (1 - pyd) (al + nq j * pyd)) (seq 0 (length (v s)))).
Proof.
  intros Hr Hw Ho. destruct (c02_reached_proof (CPY pyd al) o s g I Hr) as [Im _].
  destruct (recover_sticks_spec _ _ Im Ho) as (v' & E & F). exists v'. split; [exact F|].
  cbn [wm_weight_ll]. destruct (w s); [congruence|]. cbn [is_nil]. rewrite E, index_terms_map, index_terms_seq.
  rewrite (Forall2_len _ _ _ F). f_equal. apply map_ext_in. intros i _. rewrite Nat.sub_0_r. reflexivity.
Qed.
Lemma c24_bib_proof x al a b pm o s g : ~ x == 1 -> reached (CBIB x al a b pm) o s g -> w s <> [] -> open_sticks (v s) ->
  exists v', Forall2 Qeq v' (v s) /\ wm_weight_ll (CBIB x al a b pm) s =
    Ok (map (fun y => TBeta (Some y) (1 + x / (1 - x) * p s) (al + x / (1 - x) * (1 - p s))) v' ++ [TBeta (Some (p s)) a b]).
Proof.
  intros Hx Hr Hw Ho. destruct (c02_reached_proof (CBIB x al a b pm) o s g I Hr) as [Im _].
  destruct (recover_sticks_spec _ _ Im Ho) as (v' & E & F). exists v'. split; [exact F|].
  cbn [wm_weight_ll]. destruct (w s); [congruence|]. cbn [is_nil].
  destruct (Qeq_bool x 1) eqn:B; [apply Qeq_bool_iff in B; contradiction|]. rewrite E, map_map. reflexivity.
Qed.

Lemma recover_nan : forall v wl q, ~ q == 0 -> length wl = length v ->
  (forall j, (j < length v)%nat -> nth j wl 0 == q * (nth j v 0 * qproduct (map (fun x => 1 - x) (firstn j v)))) ->
  ~ open_sticks v -> In None (recover (Some q) wl).
Proof.
  induction v as [|x t IH]; intros wl q Hq Hl Hw Ho; [exfalso; apply Ho; constructor|].
  destruct wl as [|y u]; [discriminate|]. cbn [recover].
  destruct (Qeq_bool q 0) eqn:E; [apply Qeq_bool_iff in E; contradiction|].
  assert (Hy : y / q == x).
  { pose proof (Hw 0%nat ltac:(simpl; lia)) as H0. unfold qproduct in H0. cbn [nth firstn map fold_right] in H0. rewrite H0. field. exact Hq. }
  destruct t as [|x2 t]; [exfalso; apply Ho; constructor|].
  right. destruct (Qeq_dec x 1) as [Hx|Hx].
  - destruct u as [|z u]; [discriminate|]. cbn [recover]. left.
    assert (E2 : Qeq_bool (q * (1 - y / q)) 0 = true) by (apply Qeq_bool_iff; rewrite Hy, Hx; ring). rewrite E2. reflexivity.
  - apply IH.
    + rewrite Hy. intros Z. apply Qmult_integral in Z as [Z|Z]; [contradiction|]. apply Hx. lra.
    + simpl in *. lia.
    + intros j Hj. specialize (Hw (S j) ltac:(simpl in *; lia)). unfold qproduct in *. cbn [nth firstn map fold_right] in *.
      rewrite Hw, Hy. ring.
    + intros K. apply Ho. unfold open_sticks in *. cbn [removelast]. constructor; assumption.
Qed.
Lemma recover_sticks_nan v wl : stick_image v wl -> ~ open_sticks v -> In None (recover_sticks wl).
Proof.
  intros [Hl Hw] Ho. destruct v as [|x t]; [exfalso; apply Ho; constructor|].
  destruct wl as [|y u]; [discriminate|]. cbn [recover_sticks]. right.
  assert (Hy : y == x).
  { pose proof (Hw 0%nat ltac:(simpl; lia)) as H0. unfold qproduct in H0. cbn [nth firstn map fold_right] in H0. rewrite H0. ring. }
  destruct t as [|x2 t]; [exfalso; apply Ho; constructor|].
  destruct (Qeq_dec x 1) as [Hx|Hx].
  - destruct u as [|z u]; [discriminate|]. cbn [recover]. left.
    assert (E2 : Qeq_bool (1 - y) 0 = true) by (apply Qeq_bool_iff; rewrite Hy, Hx; ring). rewrite E2. reflexivity.
  - apply (recover_nan (x2 :: t)).
    + rewrite Hy. intros Z. apply Hx. lra.
    + simpl in *. lia.
    + intros j Hj. specialize (Hw (S j) ltac:(simpl in *; lia)). unfold qproduct in *. cbn [nth firstn map fold_right] in *.
      rewrite Hw, Hy. ring.
    + intros K. apply Ho. unfold open_sticks in *. cbn [removelast]. constructor; assumption.
Qed.
Lemma c24_nan_proof al o s g : reached (CDP al) o s g -> ~ open_sticks (v s) ->
  exists l, wm_weight_ll (CDP al) s = Ok l /\ In (TBeta None 1 al) l.
Proof.
  intros Hr Ho. destruct (c02_reached_proof (CDP al) o s g I Hr) as [Im _].
  pose proof (recover_sticks_nan _ _ Im Ho) as N. cbn [wm_weight_ll].
  destruct (w s) eqn:Ew; [destruct N|]. cbn [is_nil]. eexists. split; [reflexivity|].
  apply (in_map (fun x => TBeta x 1 al)) in N. exact N.
Qed.
Lemma c24_empty_proof c s : (exists al, c = CDP al) \/ (exists pyd al, c = CPY pyd al) \/ (exists x al a b pm, c = CBIB x al a b pm) ->
  w s = [] -> wm_weight_ll c s = Err IndexError.
Proof.
  intros [(al & ->)|[(pyd & al & ->)|(x & al & a & b & pm & ->)]] H; cbn [wm_weight_ll]; rewrite H; reflexivity.
Qed.

(* ---- lifting invariants of random and complete to histories ---- *)
Definition okinv {A} (I : ws -> Prop) : post ws A := fun r s' _ => is_ok r = true -> I s'.
Section Lift.
Variables (c : cls) (o : oracle) (I : ws -> Prop).
Hypothesis Hg : forall a b, c <> CGeom a b.
Hypothesis Hrand : forall z s g, positive_size z -> I s -> wp o (wm_random c z) (okinv I) s g.
Hypothesis Hcomp : forall z s g, I s -> wp o (wm_complete c z) (okinv I) s g.
Hypothesis Hd : forall x s, I s -> I (set_d x s).
Lemma lift_loop x : forall fuel s g, I s -> wp o (tail_loop c fuel x) (okinv I) s g.
Proof.
  induction fuel as [|f IH]; intros s g H; cbn [tail_loop]; wstep; wstep; try (wstep; intros _; exact H).
  - intros K; discriminate K.
  - eapply wp_call; [apply Hcomp; exact H|..]; unfold okinv; cbv beta; try discriminate. intros a s1 g1 H1. apply IH. apply H1; reflexivity.
Qed.
Lemma lift_op op s g : regular_op op -> I s -> wp o (exec_op c op) (okinv I) s g.
Proof.
  intros Hr H. destruct op; cbn [exec_op].
  - eapply wp_call; [apply Hrand; [exact Hr|exact H]|..]; unfold okinv; cbv beta; try discriminate. intros a s1 g1 H1. wstep. exact H1.
  - eapply wp_call; [apply Hcomp; exact H|..]; unfold okinv; cbv beta; try discriminate. intros a s1 g1 H1. wstep. exact H1.
  - rewrite tail_is_base by assumption. unfold base_tail. apply wp_bind. wstep; [wstep; intros K; discriminate K|].
    assert (F : forall s1 g1, I s1 -> wp o (tail_loop c fuel x;; s' <- get;; ret (w s'))
       (fun r s' g' => match r with Ok a => wp o (ret tt) (okinv I) s' g' | Err e => okinv I (@Err unit e) s' g' | Diverge => okinv I (@Diverge unit) s' g' end) s1 g1).
    { intros s1 g1 H1. eapply wp_call; [apply lift_loop; exact H1|..]; cbv beta.
      - intros a s2 g2 H2. wsteps. exact H2.
      - intros; intros K; discriminate K.
      - intros; intros K; discriminate K. }
    wstep. wstep.
    + eapply wp_mono; [apply Hrand; [simpl; lia|exact H]|]. intros [a|e|] s1 g1 H1; try (intros K; discriminate K). apply F. apply H1; reflexivity.
    + wstep. apply F. exact H.
  - unfold wm_fit. wstep. intros _. apply Hd, H.
  - unfold wm_reset. wstep. intros _. apply Hd, H.
  - unfold wm_assign_weights. apply wp_assoc. wstep. apply wp_bind. wstep; [wstep; intros K; discriminate K|].
    eapply wp_call; [apply Hcomp; exact H|..]; cbv beta; try (intros; intros K; discriminate K).
    intros a s1 g1 H1. wstep. wsteps; intros K; try discriminate K. apply H1; reflexivity.
  - unfold wm_random_assignment. wsteps; intros K; try discriminate K; exact H.
Qed.
Lemma lift_ops : forall ops s g, Forall regular_op ops -> I s -> wp o (exec_ops c ops) (okinv I) s g.
Proof.
  induction ops as [|op t IH]; intros s g Hr H; cbn [exec_ops]; [wstep; intros _; exact H|].
  inversion Hr; subst. eapply wp_call; [apply lift_op; eassumption|..]; unfold okinv; cbv beta; try discriminate.
  intros a s1 g1 H1. apply IH; [assumption|]. apply H1; reflexivity.
Qed.
Lemma lift_reached s g : (forall parg narg s0 g0, new_ws c parg narg o = Ok (s0, g0) -> I s0) -> reached c o s g -> I s.
Proof.
  intros H0 (parg & narg & ops & s0 & g0 & _ & Hn & Hops & E).
  pose proof (lift_ops ops s0 g0 Hops (H0 _ _ _ _ Hn)) as W. unfold wp in W. rewrite E in W. apply W. reflexivity.
Qed.
End Lift.

(* ---- BetaBernoulli: one indicator per stick ---- *)
Definition bb_inv (s : ws) : Prop := (v s = [] /\ bern s = [1%nat]) \/ (v s <> [] /\ length (v s) = length (bern s)).
Lemma bb_complete_inv o q al z s g : bb_inv s -> wp o (bb_complete q al z) (fun r s' _ => is_ok r = true -> bb_inv s') s g.
Proof.
  intros H. unfold bb_complete. wstep; [|discriminate]. wstep; [|discriminate]. wstep. wstep; [|wstep; intros _; exact H].
  assert (F : forall sA gA, v sA <> [] -> length (v sA) = length (bern sA) ->
     wp o (s0 <- get;; m <- binom_rep 1 q (Z.to_nat (k - Z.of_nat (length (v s0))));;
           upd (set_bern (bern s0 ++ map Z.to_nat m));;
           (if is_nil (ncumsum (map Z.to_nat m)) then raise IndexError
            else nb <- beta_rep 1 al (last (ncumsum (map Z.to_nat m)) 0%nat);;
              match gather (last (v s0) 0 :: nb) (ncumsum (map Z.to_nat m)) with
              | Some e => upd (set_v (v s0 ++ e));; upd refresh_w;; s' <- get;; ret (w s')
              | None => raise IndexError
              end)) (fun r s' _ => is_ok r = true -> bb_inv s') sA gA).
  { intros sA gA Hn Hl. wsteps; try discriminate. intros _. right. cbn [v bern refresh_w set_v set_w set_bern].
    match goal with E : gather _ _ = Some _ |- _ => apply gather_length in E; unfold ncumsum in E; rewrite ncumsum_from_length in E; rewrite !app_length, E end.
    split; [|congruence]. destruct (v sA); [congruence|discriminate]. }
  wstep.
  - wstep; [|discriminate]. wstep. apply F; cbn [v bern set_v].
    + intros X. apply (f_equal (@length Q)) in X. rewrite beta_draws_length, repeat_length in X. discriminate X.
    + rewrite beta_draws_length, repeat_length. apply isnil in Heqb0. destruct H as [[_ ->]|[H _]]; [reflexivity|congruence].
  - wstep. destruct H as [[H _]|[Hn Hl]]; [rewrite H in *; discriminate|]. apply F; assumption.
Qed.
Lemma bb_loop_len o q al ac bc : forall js bs s g, Forall (fun j => (j < length bs)%nat) js ->
  wp o (bb_loop q al ac bc js bs) (fun r s' _ => s' = s /\ forall x, r = Ok x -> length x = length bs) s g.
Proof.
  induction js as [|j t IH]; intros bs s g Hj; cbn [bb_loop]; [wstep; split; [reflexivity|]; intros x [= <-]; reflexivity|].
  inversion Hj; subst. eapply wp_call with (P := fun r s' _ => s' = s).
  - unfold bernoulli_x. wsteps; reflexivity.
  - intros a sA gA ->. eapply wp_mono; [apply IH|].
    + eapply Forall_impl; [|eassumption]. simpl. intros. rewrite nset_length; assumption.
    + intros r sB gB [-> X]. split; [reflexivity|]. intros x E. rewrite (X x E). apply nset_length; assumption.
  - intros e sA gA ->. split; [reflexivity|discriminate].
  - intros sA gA ->. split; [reflexivity|discriminate].
Qed.
Lemma bb_bern_len o q al n s g : (d s = [] \/ n = S (nmax (d s))) ->
  wp o (bb_random_bernoullis q al n) (fun r s' _ => is_ok r = true -> v s' = v s /\ d s' = d s /\ length (bern s') = n) s g.
Proof.
  intros Hn. unfold bb_random_bernoullis. wstep; [|discriminate]. wstep. wstep; [wstep; discriminate|]. wstep.
  set (m := fst (binom_draws o 1 (repeat q n) g)). assert (Lm : length (map Z.to_nat m) = n) by (unfold m; rewrite map_length, binom_draws_length, repeat_length; reflexivity).
  wstep.
  - wsteps. intros _. cbn. repeat split; exact Lm.
  - destruct Hn as [Hn|Hn]; [rewrite Hn in *; discriminate|].
    assert (L0 : length (nset 0 0%nat (map Z.to_nat m)) = n) by (rewrite nset_length; lia).
    eapply wp_mono; [apply bb_loop_len|].
    + rewrite L0. apply Forall_forall. intros j Hj. apply in_seq in Hj. lia.
    + intros [a|e|] sA gA [-> X]; try discriminate. wsteps. intros _. cbn. repeat split. rewrite (X a eq_refl). exact L0.
Qed.
Lemma bb_random_inv o q al z s g : positive_size z -> wp o (bb_random q al z) (fun r s' _ => is_ok r = true -> bb_inv s') s g.
Proof.
  intros Hz. unfold bb_random. wstep. wstep; [wstep; discriminate|]. wstep. wstep.
  - apply isnil in Heqb0. wstep; [|discriminate]. wstep; [wstep; discriminate|].
    assert (Hk : (0 < Z.to_nat k)%nat) by (destruct z; cbn in Hz, H; try contradiction; injection H as <-; lia).
    eapply wp_call; [apply bb_bern_len; left; exact Heqb0|..]; cbv beta; try discriminate.
    intros [] sA gA X. destruct (X eq_refl) as (_ & _ & Lb). wsteps; try discriminate. intros _. right. cbn [v bern refresh_w set_v set_w].
    match goal with E : gather _ _ = Some _ |- _ => apply gather_length in E; unfold ncumsum in E; rewrite ncumsum_from_length in E; rewrite E, Lb; split; [|reflexivity];
      intros Y; rewrite Y in E; simpl in E; lia end.
  - eapply wp_call; [apply bb_bern_len; right; reflexivity|..]; cbv beta; try discriminate.
    intros [] sA gA X. destruct (X eq_refl) as (_ & _ & Lb). wstep. wstep; [|discriminate]. wstep. wstep; [|wstep; discriminate].
    wsteps. eapply wp_call; [apply bb_complete_inv|..]; cbv beta; try discriminate.
    + right. cbn [v bern refresh_w set_v set_w]. match goal with E : gather _ _ = Some _ |- _ => apply gather_length in E; unfold ncumsum in E; rewrite ncumsum_from_length in E; rewrite E, Lb; split; [|reflexivity];
      intros Y; rewrite Y in E; simpl in E; lia end.
    + intros a sB gB X2. wsteps. intros _. apply X2; reflexivity.
Qed.
Lemma bb_reached_inv q al o s g : reached (CBB q al) o s g -> bb_inv s.
Proof.
  apply lift_reached; try discriminate.
  - intros z sA gA Hz _. apply bb_random_inv; exact Hz.
  - intros z sA gA H. cbn [wm_complete]. eapply wp_call; [apply bb_complete_inv; exact H|..]; unfold okinv; cbv beta; try discriminate.
    intros a sB gB X. wstep. exact X.
  - intros x sA H. exact H.
  - intros parg narg s0 g0 H. injection H as <- <-. left. split; reflexivity.
Qed.
Lemma bb_terms_spec al : forall t bs, (length t <= length bs)%nat ->
  bb_terms al t bs = Ok (map (fun x => TBeta (Some x) 1 al) (map fst (filter (fun y => Nat.eqb (snd y) 0) (combine t bs)))).
Proof.
  induction t as [|x t IH]; intros bs H; [reflexivity|]. destruct bs as [|b bs]; [simpl in H; lia|]. cbn [bb_terms combine filter].
  rewrite IH by (simpl in H; lia). cbn [snd]. destruct (Nat.eqb b 0); reflexivity.
Qed.
Lemma c60_value_proof q al o s g : ~ q == 0 -> reached (CBB q al) o s g -> w s <> [] ->
  exists x t, v s = x :: t /\ length (bern s) = length (v s) /\
  wm_weight_ll (CBB q al) s = Ok (map (fun b => TLog b q) (bern s) ++
     TBeta (Some x) 1 al :: map (fun y => TBeta (Some y) 1 al) (copied_sticks (v s) (bern s))).
Proof.
  intros Hq Hr Hw. pose proof (reached_coherent (CBB q al) o s g I Hr) as [Cw _].
  destruct (bb_reached_inv q al o s g Hr) as [[E _]|[Hn Hl]]; [rewrite Cw, E in Hw; exfalso; apply Hw; reflexivity|].
  destruct (v s) as [|x t] eqn:Ev; [congruence|]. exists x, t. split; [reflexivity|]. split; [congruence|].
  cbn [wm_weight_ll]. rewrite Ev. rewrite bb_terms_spec by (destruct (bern s); simpl in *; lia).
  destruct (Qeq_bool q 0) eqn:B; [apply Qeq_bool_iff in B; contradiction|]. reflexivity.
Qed.

(* ---- BetaBinomial ---- *)
Definition bl (s : ws) : Prop := (length (v s) <= length (binoms s))%nat.
Lemma bbin_step_bl o n al s g : bl s -> wp o (bbin_step n al) (fun r s' _ => bl s') s g.
Proof. unfold bl. intros H. unfold bbin_step. wsteps; try exact H; cbn [v binoms set_v set_binoms]; rewrite ?app_length; simpl; lia. Qed.
Lemma repeatM_bl o m n : (forall s g, bl s -> wp o m (fun r s' _ => bl s') s g) -> forall s g, bl s -> wp o (repeatM n m) (fun r s' _ => bl s') s g.
Proof.
  intros Hm. induction n as [|n IH]; intros s g H; cbn [repeatM]; [wstep; exact H|].
  eapply wp_call; [apply Hm; exact H|..]; cbv beta; auto.
Qed.
Lemma bbin_complete_bl o nn al z s g : bl s -> wp o (bbin_complete nn al z) (fun r s' _ => bl s') s g.
Proof.
  intros H. unfold bbin_complete. wstep; [|exact H].
  assert (F : forall s1 g1, bl s1 -> wp o (z0 <- need_int z;; s0 <- get;;
           repeatM (Z.to_nat (z0 - Z.of_nat (length (v s0)))) (bbin_step nn al);; upd refresh_w;; s' <- get ;; ret (w s')) (fun r s' _ => bl s') s1 g1).
  { intros s1 g1 H1. wstep; [|exact H1]. wstep. eapply wp_call; [apply repeatM_bl; [intros; apply bbin_step_bl; assumption|exact H1]|..]; cbv beta; intros; try assumption; wsteps; assumption. }
  wstep. wstep; [|wstep; apply F; exact H]. apply isnil in Heqb.
  repeat first [solve [apply F; unfold bl; cbn [v binoms set_v set_binoms]; rewrite ?beta_draws_length, ?binom_draws_length, ?repeat_length; simpl; lia] | wstep];
  unfold bl in *; cbn [v binoms set_v set_binoms]; rewrite ?Heqb in *; simpl in *; lia.
Qed.
Lemma map3_length {A B C D} (f : A -> B -> C -> D) : forall a b c, (length (map3 f a b c) <= length c)%nat.
Proof. induction a; intros [|y b] [|z c]; simpl; try lia. specialize (IHa b c). lia. Qed.
Lemma zadd2_length : forall a b, (length (zadd2 a b) <= length a)%nat.
Proof. induction a; intros [|y b]; simpl; try lia. specialize (IHa b). lia. Qed.
Lemma removelast_length {A} (l : list A) : (length (removelast l) <= length l)%nat.
Proof. induction l as [|x t IH]; simpl; [lia|]. destruct t; simpl in *; lia. Qed.
Lemma bbin_random_bl o nn al z s g : wp o (bbin_random nn al z) (fun r s' _ => is_ok r = true -> bl s') s g.
Proof.
  unfold bbin_random. wstep. wstep; [wstep; discriminate|]. wstep. wstep.
  - eapply wp_call; [apply bbin_complete_bl; unfold bl; simpl; lia|..]; cbv beta; try discriminate. intros. wsteps. intros _; assumption.
  - unfold bbin_random_binomials. wsteps; try discriminate. eapply wp_call; [apply bbin_complete_bl|..]; cbv beta; try discriminate.
    + unfold bl. cbn [v binoms refresh_w set_v set_w set_binoms]. rewrite beta_draws_length.
      eapply Nat.le_trans; [apply map3_length|]. eapply Nat.le_trans; [apply zadd2_length|]. apply removelast_length.
    + intros. wsteps. intros _; assumption.
Qed.
Lemma bbin_reached_bl n al o s g : reached (CBBin n al) o s g -> bl s.
Proof.
  apply lift_reached; try discriminate.
  - intros z sA gA Hz _. apply bbin_random_bl.
  - intros z sA gA H. cbn [wm_complete]. eapply wp_call; [apply bbin_complete_bl; exact H|..]; unfold okinv; cbv beta; try discriminate.
    intros a sB gB X. wstep. intros _; exact X.
  - intros x sA H. exact H.
  - intros parg narg s0 g0 H. injection H as <- <-. unfold bl. simpl. lia.
Qed.
Lemma bbin_terms_spec n al : forall vs bs b, vs <> [] -> (length vs <= S (length bs))%nat ->
  bbin_terms n al vs bs b = Ok (chain_terms n al vs (b :: bs)).
Proof.
  induction vs as [|x t IH]; intros bs b Hn Hl; [congruence|]. destruct t as [|y t]; [reflexivity|].
  destruct bs as [|b' bt]; [simpl in Hl; lia|]. cbn [bbin_terms]. 
  change (match bbin_terms n al (y :: t) bt b' with Ok r => Ok (TBeta (Some x) (1 + zq b) (al + zq n - zq b) :: TBinom b' n x :: r) | Err e => Err e | Diverge => Diverge end
    = Ok (chain_terms n al (x :: y :: t) (b :: b' :: bt))).
  rewrite IH by (try discriminate; simpl in *; lia). reflexivity.
Qed.
Lemma c59_value_proof n al o s g : reached (CBBin n al) o s g -> w s <> [] ->
  exists b bs, binoms s = b :: bs /\ wm_weight_ll (CBBin n al) s =
    Ok (TBetaBinom b n 1 al :: chain_terms n al (if (length (v s) <=? 1)%nat then v s else tl (v s)) (binoms s)).
Proof.
  intros Hr Hw. pose proof (reached_coherent (CBBin n al) o s g I Hr) as [Cw _].
  pose proof (bbin_reached_bl n al o s g Hr) as B. unfold bl in B.
  destruct (v s) as [|x t] eqn:Ev; [rewrite Cw in Hw; exfalso; apply Hw; reflexivity|].
  destruct (binoms s) as [|b bs] eqn:Eb; [simpl in B; lia|]. exists b, bs. split; [reflexivity|].
  cbn [wm_weight_ll]. rewrite Eb, Ev. destruct t as [|y t]; [reflexivity|].
  change (length (x :: y :: t) <=? 1)%nat with false. cbn [tl]. rewrite bbin_terms_spec; [reflexivity|discriminate|simpl in *; lia].
Qed.
Lemma c59_ignored_proof n al s x y t : t <> [] ->
  wm_weight_ll (CBBin n al) (set_v (x :: t) s) = wm_weight_ll (CBBin n al) (set_v (y :: t) s).
Proof. intros H. cbn [wm_weight_ll v binoms set_v]. destruct t; [congruence|]. reflexivity. Qed.
