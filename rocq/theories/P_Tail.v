(* tail, histories: proofs behind C02-C04, C07. *)
From Coq Require Import Lqa.
From Verif Require Import Prelude Numpy Rng M_Weights S_Weights S_Hist P_Lists P_Hoare P_Wp P_Inv P_Complete P_Random.
Open Scope Q_scope.
Open Scope m_scope.

Lemma growing_stick c : stick_breaking c <-> growing c = true.
Proof. destruct c; simpl; split; auto; try discriminate; tauto. Qed.
Lemma pos_size_pos z : positive_size z -> pos_size z.
Proof. destruct z; auto. Qed.

(* a computation that keeps the object coherent and only appends sticks *)
Definition appends (c : cls) (s : ws) {A} : post ws A :=
  fun r s' g' => match r with
  | Ok _ => coherent c s' /\ (exists t, v s' = v s ++ t) /\ d s' = d s
  | _ => True
  end.

Lemma appends_trans {B} c s s1 (r' : res B) s2 g1 g2 :
  appends c s (Ok tt) s1 g1 -> appends c s1 r' s2 g2 -> appends c s r' s2 g2.
Proof.
  destruct r'; simpl; auto. intros (H1 & (t1 & H2) & H3) (H4 & (t2 & H5) & H6).
  repeat split; try apply H4. - exists (t1 ++ t2). rewrite app_assoc. congruence. - congruence.
Qed.
Lemma appends_refl {A} c s (r : res A) g : coherent c s -> appends c s r s g.
Proof. destruct r; simpl; auto. intros H; repeat split; try apply H. exists []; rewrite app_nil_r; reflexivity. Qed.

Lemma complete_post_appends c s n r s' g' : complete_post c s n r s' g' -> appends c s r s' g'.
Proof. destruct r; simpl; auto. intros (H1 & H2 & _ & H3 & _); auto. Qed.

Lemma coherent_len c s : coherent c s -> length (w s) = length (v s).
Proof. intros [-> _]; apply stick_length. Qed.

Lemma tail_loop_wp c o x : growing c = true -> forall fuel s g, coherent c s ->
  wp o (tail_loop c fuel x) (fun r s' g' => appends c s r s' g' /\ (r = Ok tt -> x <= qsum (w s'))) s g.
Proof.
  intros Hc; induction fuel as [|f IH]; intros s g Hs; simpl; wstep; wstep.
  - split; [exact I|discriminate].
  - wstep. split; [apply appends_refl; assumption|]. intros _. apply qltb_ge; assumption.
  - eapply wp_call; [eapply (wm_complete_wp c o); [exact Hc|exact Hs|reflexivity]| | |].
    + intros a s' g' H. eapply wp_mono; [apply IH; apply H|].
      intros r s2 g2 [H1 H2]. split; [|assumption].
      eapply (appends_trans c s s' r s2 g' g2); [|exact H1]. apply complete_post_appends in H. exact H.
    + intros; split; [exact I|discriminate].
    + intros; split; [exact I|discriminate].
  - wstep. split; [apply appends_refl; assumption|]. intros _. apply qltb_ge; assumption.
Qed.

Lemma base_tail_wp c o fuel x s g : growing c = true -> coherent c s ->
  wp o (base_tail c fuel x) (fun r s' g' => appends c s r s' g' /\
     (forall a, r = Ok a -> 0 <= x /\ x < 1 /\ x <= qsum (w s') /\ a = w s')) s g.
Proof.
  intros Hc Hs. unfold base_tail. wstep; [wstep; split; [exact I|discriminate]|].
  apply orb_false_iff in Heqb as [H1 H2].
  assert (Hx1 : x < 1) by (apply Qnot_le_lt; intros K; apply Qle_bool_iff in K; unfold qleb in H1; congruence).
  apply qltb_ge in H2.
  assert (G : forall s1 g1, appends c s (Ok tt) s1 g1 ->
     wp o (tail_loop c fuel x;; s' <- get;; ret (w s')) (fun r s' g' => appends c s r s' g' /\
     (forall a, r = Ok a -> 0 <= x /\ x < 1 /\ x <= qsum (w s') /\ a = w s')) s1 g1).
  { intros s1 g1 Ha. eapply wp_call; [apply tail_loop_wp; [assumption|apply Ha]| | |].
    - intros [] s' g' [H3 H4]. wsteps. split.
      + exact (appends_trans c s s1 (Ok tt) s' g1 g' Ha H3).
      + intros a [= <-]; auto.
    - intros; split; [exact I|discriminate].
    - intros; split; [exact I|discriminate]. }
  wstep. wstep.
  - eapply wp_mono; [apply (wm_random_wp c o (SInt 1) s g Hc); simpl; lia|].
    intros [a|e|] s' g' Hr; try (split; [exact I|discriminate]).
    apply G. simpl in *. destruct Hr as (Hr1 & _ & Hr2 & _). repeat split; try apply Hr1; auto.
    assert (E : v s = []).
    { apply isnil in Heqb. pose proof (coherent_len c s Hs) as E. rewrite Heqb in E. destruct (v s); auto; discriminate. }
    rewrite E. eexists; reflexivity.
  - wstep. apply G. apply appends_refl; assumption.
Qed.

Lemma geom_tail_wp a b o x s g : coherent (CGeom a b) s ->
  wp o (geom_tail x) (fun r s' g' => appends (CGeom a b) s r s' g' /\
     (forall y, r = Ok y -> 0 <= x /\ x < 1 /\ y = w s' /\ p s' = p s)) s g.
Proof.
  intros Hs. unfold geom_tail. wstep; [wstep; split; [exact I|discriminate]|].
  apply orb_false_iff in Heqb0 as [H1 H2].
  assert (Hx1 : x < 1) by (apply Qnot_le_lt; intros K; apply Qle_bool_iff in K; unfold qleb in H1; congruence).
  apply qltb_ge in H2. wstep. wstep; try (wstep; split; [exact I|discriminate]).
  eapply wp_call; [apply (geom_complete_wp o (SInt a0) a0 s g eq_refl (or_introl (proj1 Hs)) (proj2 Hs))| | |].
  - intros y s' g' ((G1 & G2 & G3 & G4) & Hr & _ & Hp & Hv). wsteps. split.
    + simpl. repeat split; auto. apply Hv. f_equal; apply Hr; reflexivity.
    + intros y0 [= <-]. auto.
  - intros; split; [exact I|discriminate].
  - intros; split; [exact I|discriminate].
Qed.

Lemma wm_tail_wp c o fuel x s g : growing c = true -> coherent c s ->
  wp o (wm_tail c fuel x) (appends c s) s g.
Proof.
  intros Hc Hs. destruct c; try discriminate Hc; simpl wm_tail;
  try (eapply wp_mono; [apply base_tail_wp; assumption|]; intros r s' g' [H _]; exact H).
  eapply wp_mono; [eapply geom_tail_wp; eassumption|]. intros r s' g' [H _]; exact H.
Qed.

Lemma wm_assign_wp c o dd s g : growing c = true -> coherent c s ->
  wp o (wm_assign_weights c dd) (appends c s) s g.
Proof.
  intros Hc Hs. unfold wm_assign_weights. wstep. wstep; [wstep; exact I|].
  eapply wp_call; [eapply (wm_complete_wp c o); [exact Hc|exact Hs|reflexivity]| | |]; try (intros; exact I).
  intros a s' g' H. apply complete_post_appends in H. wsteps; simpl; auto.
Qed.

(* a size that is not an integer: complete never returns *)
Lemma wm_complete_none c o z s g : growing c = true -> size_val z = None ->
  wp o (wm_complete c z) (fun r s' g' => is_ok r = false) s g.
Proof.
  intros Hc E. destruct z; try discriminate E; destruct c; try discriminate Hc; simpl wm_complete;
  unfold dp_complete, py_complete, geom_complete, bb_complete, bib_complete, bid_complete, bbin_complete;
  repeat first [ reflexivity | discriminate
    | match goal with |- wp _ (bib_random_p _ _ _ _) _ _ _ => eapply wp_mono; [apply bib_random_p_wp|]; intros [? | ? |] ? ? [? ?] end
    | wstep ].
Qed.

(* histories keep the object coherent *)
Lemma exec_op_coherent c o op s g : growing c = true -> regular_op op -> coherent c s ->
  wp o (exec_op c op) (fun r s' g' => r = Ok tt -> coherent c s') s g.
Proof.
  intros Hc Hop Hs. destruct op; simpl exec_op.
  - eapply wp_call; [apply (wm_random_wp c o size s g Hc (pos_size_pos _ Hop))| | |]; try discriminate.
    intros a s' g' H. wstep. intros _. apply H.
  - destruct (size_val size) as [n|] eqn:E.
    + eapply wp_call; [apply (wm_complete_wp c o size n s g Hc Hs E)| | |]; try discriminate.
      intros a s' g' H. wstep. intros _; apply H.
    + eapply wp_call; [apply (wm_complete_none c o size s g Hc E)| | |]; simpl; try discriminate.
  - eapply wp_call; [apply (wm_tail_wp c o fuel x s g Hc Hs)| | |]; try discriminate.
    intros a s' g' H. wstep. intros _; apply H.
  - unfold wm_fit, wm_reset. wstep. intros _. exact Hs.
  - unfold wm_fit, wm_reset. wstep. intros _. exact Hs.
  - eapply wp_call; [apply (wm_assign_wp c o dd s g Hc Hs)| | |]; try discriminate.
    intros a s' g' H. wstep. intros _; apply H.
  - unfold wm_random_assignment. destruct size; wsteps; try discriminate; intros _; exact Hs.
Qed.

Lemma exec_ops_coherent c o : growing c = true -> forall ops s g, Forall regular_op ops -> coherent c s ->
  wp o (exec_ops c ops) (fun r s' g' => r = Ok tt -> coherent c s') s g.
Proof.
  intros Hc; induction ops as [|op t IH]; intros s g H Hs; simpl.
  - wstep. auto.
  - inversion H; subst. eapply wp_call; [apply exec_op_coherent; eassumption| | |]; try discriminate.
    intros [] s' g' Hs'. apply IH; auto.
Qed.

Lemma new_coherent c parg narg o s g : growing c = true -> new_ws c parg narg o = Ok (s, g) -> coherent c s.
Proof.
  intros Hc H. destruct c; try discriminate Hc; simpl in H;
  repeat match type of H with (if ?b then _ else _) = _ => destruct b end; try discriminate;
  injection H as <- <-; split; reflexivity || exact I.
Qed.

Lemma reached_coherent c o s g : stick_breaking c -> reached c o s g -> coherent c s.
Proof.
  intros Hc (parg & narg & ops & s0 & g0 & _ & Hn & Hops & He). apply growing_stick in Hc.
  pose proof (exec_ops_coherent c o Hc ops s0 g0 Hops (new_coherent _ _ _ _ _ _ Hc Hn)) as H.
  unfold wp in H. rewrite He in H. auto.
Qed.

Lemma exec_ops_okw c ops : tri okw (exec_ops c ops) anyR.
Proof.
  induction ops; simpl; [apply tri_ret; exact I|]. eapply tri_bind; [apply exec_op_ok|]. auto.
Qed.
Lemma reached_okw c o s g : valid_oracle o -> reached c o s g -> okw s.
Proof.
  intros Ho (parg & narg & ops & s0 & g0 & Hp & Hn & Hops & He).
  pose proof (exec_ops_okw c ops o Ho s0 g0 (new_ws_ok _ _ _ _ _ _ Ho Hp Hn)) as H. rewrite He in H. apply H.
Qed.
