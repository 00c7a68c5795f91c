(* One Gibbs sweep: labels, atoms, weights. *)
From Coq Require Import Lqa.
From Verif Require Import Prelude Numpy Rng M_Weights M_Niw M_Utils M_Mix S_Weights P_Lists P_Wp P_MixW P_Mix P_Random.
Open Scope Q_scope.
Open Scope m_scope.

Definition keys {A} (t : list (nat * A)) : list nat := map fst t.

Lemma lookup_keys {A} j (t : list (nat * A)) : In j (keys t) <-> lookup j t <> None.
Proof.
  induction t as [|[i a] t IH]; simpl; [tauto|]. destruct (Nat.eqb_spec i j); [subst; split; [discriminate|auto]|].
  rewrite <- IH. split; [intros [K|K]; [congruence|exact K]|auto].
Qed.
Lemma lookup_put {A} j i (a : A) t : lookup i (put j a t) = if Nat.eqb j i then Some a else lookup i t.
Proof.
  induction t as [|[k b] t IH]; simpl; [reflexivity|].
  destruct (Nat.eqb_spec k j); simpl.
  - subst. destruct (Nat.eqb j i); reflexivity.
  - rewrite IH. destruct (Nat.eqb_spec k i); [|reflexivity]. subst. destruct (Nat.eqb_spec j i); [congruence|reflexivity].
Qed.
Lemma keys_put {A} j i (a : A) t : In i (keys (put j a t)) <-> i = j \/ In i (keys t).
Proof.
  rewrite !lookup_keys, lookup_put. destruct (Nat.eqb_spec j i).
  - split; [auto|discriminate].
  - split; [auto|]. intros [K|K]; [congruence|exact K].
Qed.
Lemma put_length {A} j (a : A) t : (length t <= length (put j a t))%nat.
Proof. induction t as [|[k b] t IH]; simpl; [lia|]. destruct (Nat.eqb k j); simpl; lia. Qed.
Lemma keys_length {A} (t : list (nat * A)) : length (keys t) = length t. Proof. apply map_length. Qed.

(* relations that every step respects *)
Definition mono {S A} (R : S -> S -> Prop) (m : M S A) : Prop := forall o s g, R s (snd (fst (m o s g))).
Lemma mono_bind {S A B} (R : S -> S -> Prop) (m : M S A) (k : A -> M S B) : (forall a b c, R a b -> R b c -> R a c) ->
  mono R m -> (forall a, mono R (k a)) -> mono R (bind m k).
Proof.
  intros T Hm Hk o s g. unfold bind. specialize (Hm o s g). destruct (m o s g) as [[[a|e|] s'] g']; simpl in *; auto.
  eapply T; [exact Hm|apply Hk].
Qed.
Lemma mono_upd {S} (R : S -> S -> Prop) f : (forall s, R s (f s)) -> mono R (upd f).
Proof. intros H o s g. apply H. Qed.
Lemma mono_keeps {S A} (R : S -> S -> Prop) (m : M S A) : (forall s, R s s) -> keeps (fun s => s) m -> mono R m.
Proof. intros H K o s g. specialize (K o s g). simpl in K. rewrite K. apply H. Qed.
Lemma mono_wp {S A} o (R : S -> S -> Prop) (m : M S A) s g : mono R m -> wp o m (fun r s' g' => R s s') s g.
Proof. intros H. unfold wp. specialize (H o s g). destruct (m o s g) as [[r s'] g']; exact H. Qed.

(* the atom dictionary only gains keys *)
Definition tle (s s' : ms) : Prop :=
  incl (keys (s_theta s)) (keys (s_theta s')) /\ (length (s_theta s) <= length (s_theta s'))%nat.
Lemma tle_refl s : tle s s. Proof. split; [apply incl_refl|lia]. Qed.
Lemma tle_trans a b c : tle a b -> tle b c -> tle a c.
Proof. intros [H1 H2] [H3 H4]; split; [eapply incl_tran; eassumption|lia]. Qed.
Lemma tle_same s s' : s_theta s' = s_theta s -> tle s s'.
Proof. intros E. unfold tle. rewrite E. apply tle_refl. Qed.
Lemma tle_put s j a : tle s (upd_theta (put j a (s_theta s)) s).
Proof. split; simpl; [|apply put_length]. intros i Hi. apply keys_put; auto. Qed.
Lemma mono_tle_keeps {A} (m : M ms A) : keeps s_theta m -> mono tle m.
Proof. intros H o s g. apply tle_same, H. Qed.

Ltac mono_tac :=
  lazymatch goal with
  | |- mono tle (bind _ _) => apply mono_bind; [exact tle_trans|mono_tac|intros ?; mono_tac]
  | |- mono tle (upd _) => apply mono_upd; intros ?; try apply tle_put; try (apply tle_same; reflexivity)
  | |- mono tle (if ?b then _ else _) => destruct b; mono_tac
  | |- mono tle (match ?b with _ => _ end) => destruct b; mono_tac
  | |- mono tle get => apply mono_tle_keeps, keeps_get
  | |- mono tle (ret _) => apply mono_tle_keeps, keeps_ret
  | |- mono tle (raise _) => apply mono_tle_keeps, keeps_raise
  | |- mono tle (of_res _) => apply mono_tle_keeps, keeps_of_res
  | |- mono tle (unif_many _) => apply mono_tle_keeps, keeps_unif
  | |- mono tle (draw_niw _) => apply mono_tle_keeps, keeps_draw_niw
  | |- mono tle (masked _) => apply mono_tle_keeps, keeps_masked
  | |- mono tle prior_atom => apply mono_tle_keeps, keeps_prior_atom
  | |- mono tle (onw _) => apply mono_tle_keeps, keeps_onw; reflexivity
  | |- mono tle (draw_labels _) => apply mono_tle_keeps, keeps_draw_labels
  | |- _ => auto
  end.

Lemma tle_get_atom j : mono tle (get_atom j).
Proof. unfold get_atom. mono_tac. Qed.
Lemma tle_update_atoms js : mono tle (update_atoms js).
Proof. induction js; simpl; mono_tac. Qed.
Lemma tle_tail c f : mono tle (tail_to_slice c f).
Proof. unfold tail_to_slice. mono_tac. Qed.
Lemma tle_update_weights c f : mono tle (update_weights c f).
Proof. unfold update_weights. mono_tac. apply tle_tail. Qed.
Lemma tle_logpdf_rows E js : mono tle (logpdf_rows E js).
Proof. induction js; simpl; mono_tac. apply tle_get_atom. Qed.
Lemma tle_update_d E : mono tle (update_d E).
Proof. unfold update_d. mono_tac. apply tle_logpdf_rows. Qed.
Lemma tle_gibbs_step E c f : mono tle (gibbs_step E c f).
Proof. unfold gibbs_step, update_all_atoms. mono_tac; [apply tle_update_atoms|apply tle_update_weights|apply tle_update_d]. Qed.
Lemma tle_y_loglik E js acc : mono tle (y_loglik E js acc).
Proof. revert acc; induction js; intros acc; simpl; mono_tac. apply tle_get_atom. Qed.
Lemma tle_run_loglik E c : mono tle (run_loglik E c).
Proof. unfold run_loglik. mono_tac. apply tle_y_loglik. Qed.
Lemma tle_update_map E c : mono tle (update_map E c).
Proof. unfold update_map. mono_tac. apply tle_run_loglik. Qed.
Lemma tle_sweep E c f : mono tle (sweep E c f).
Proof. unfold sweep. mono_tac; [apply tle_gibbs_step|apply tle_update_map]. Qed.

(* ------------------------------------------------------------------ *)
(* labels *)
Lemma mem_in j l : mem j l = true <-> In j l.
Proof.
  unfold mem. rewrite existsb_exists. split.
  - intros (x & Hx & E). apply Nat.eqb_eq in E; subst; assumption.
  - intros H. exists j. split; [assumption|apply Nat.eqb_refl].
Qed.
Lemma nunique_in l j : In j (nunique l) <-> In j l.
Proof.
  unfold nunique. destruct l as [|x t]; [simpl; tauto|].
  rewrite filter_In, mem_in, in_seq. split; [tauto|]. intros H; split; [|exact H].
  pose proof (nmax_ge (x :: t)) as G. rewrite Forall_forall in G. specialize (G j H). lia.
Qed.
Lemma nunique_nodup l : NoDup (nunique l).
Proof. unfold nunique. destruct l; [constructor|]. apply NoDup_filter, seq_NoDup. Qed.
Lemma nunique_nil l : nunique l = [] -> l = [].
Proof. intros H. destruct l as [|x t]; [reflexivity|]. assert (K : In x (nunique (x :: t))) by (apply nunique_in; left; reflexivity). rewrite H in K; destruct K. Qed.
Lemma nunique_length l : (length (nunique l) <= length l)%nat.
Proof. apply NoDup_incl_length; [apply nunique_nodup|]. intros x; apply nunique_in. Qed.

Lemma index_where_lt {A} (f : A -> bool) l i : index_where f l = Some i -> (i < length l)%nat.
Proof.
  revert i; induction l as [|x t IH]; intros i; simpl; [discriminate|].
  destruct (f x); [intros [= <-]; lia|]. destruct (index_where f t) as [k|]; simpl; [|discriminate].
  intros [= <-]. specialize (IH k eq_refl). lia.
Qed.
Lemma forallb_false_in {A} (f : A -> bool) l : forallb f l = false -> exists x, In x l /\ f x = false.
Proof.
  induction l as [|a t IH]; simpl; [discriminate|]. intros H. apply andb_false_iff in H as [H|H]; [eauto|].
  destruct (IH H) as (x & Hx & E); eauto.
Qed.
Lemma gumbel_lt o g ok : valid_oracle o -> In true ok -> (o_gumbel o g ok < length ok)%nat.
Proof.
  intros Ho H. pose proof (vo_gumbel o Ho g ok H) as K.
  destruct (le_lt_dec (length ok) (o_gumbel o g ok)); [rewrite nth_overflow in K by assumption; discriminate|assumption].
Qed.
Lemma pick_label_lt o g lg : valid_oracle o -> lg <> [] ->
  (pick_label lg (o_gumbel o g (map (fun l => negb (lx_is_neg l)) lg)) < length lg)%nat.
Proof.
  intros Ho Hn. unfold pick_label. destruct (index_where _ lg) as [i|] eqn:E1; [apply index_where_lt in E1; exact E1|].
  destruct (index_where (fun x => match x with LPos => true | _ => false end) lg) as [i|] eqn:E2; [apply index_where_lt in E2; exact E2|].
  destruct (forallb lx_is_neg lg) eqn:E3; [destruct lg; [congruence|simpl; lia]|].
  apply forallb_false_in in E3 as (x & Hx & E3).
  rewrite <- (map_length (fun l => negb (lx_is_neg l)) lg). apply gumbel_lt; [exact Ho|].
  apply in_map_iff. exists x. rewrite E3. auto.
Qed.
(* label i of the answers *)
Fixpoint label_answers (o : oracle) (g : rng) (lgs : list (list lx)) : list nat :=
  match lgs with
  | [] => []
  | lg :: t => let ok := map (fun l => negb (lx_is_neg l)) lg in
               pick_label lg (o_gumbel o g ok) :: label_answers o (g ++ [RGumbel ok]) t
  end.
Lemma draw_labels_eq o lgs : forall s g,
  draw_labels lgs o s g = (Ok (label_answers o g lgs), s, g ++ map (fun lg => RGumbel (map (fun l => negb (lx_is_neg l)) lg)) lgs).
Proof.
  induction lgs as [|lg t IH]; intros s g; simpl; [unfold ret; rewrite app_nil_r; reflexivity|].
  unfold bind, gumbel1. rewrite IH. unfold ret. rewrite <- app_assoc. reflexivity.
Qed.
Lemma label_answers_length o lgs : forall g, length (label_answers o g lgs) = length lgs.
Proof. induction lgs; intros g; simpl; auto. Qed.
Lemma label_answers_lt o k lgs : valid_oracle o -> (0 < k)%nat -> Forall (fun lg => length lg = k) lgs ->
  forall g, Forall (fun j => (j < k)%nat) (label_answers o g lgs).
Proof.
  intros Ho Hk. induction 1 as [|lg t H _ IH]; intros g; simpl; constructor; [|apply IH].
  rewrite <- H. apply pick_label_lt; [exact Ho|]. intros ->; simpl in H; lia.
Qed.
Lemma label_answers_nth o lgs : forall g i d0, (i < length lgs)%nat -> exists g',
  nth i (label_answers o g lgs) 0%nat = pick_label (nth i lgs d0) (o_gumbel o g' (map (fun l => negb (lx_is_neg l)) (nth i lgs d0))).
Proof.
  induction lgs as [|lg t IH]; intros g i d0 Hi; simpl in Hi; [lia|]. destruct i; simpl; [eauto|]. apply IH; lia.
Qed.

Section Sweep.
Variables (E : env) (c : cls) (fuel : nat).

Lemma get_atom_wp o j s g : wp o (get_atom j) (fun r s' g' => forall a, r = Ok a -> lookup j (s_theta s') = Some a) s g.
Proof.
  unfold get_atom. wpure. destruct (lookup j (s_theta s)) eqn:EL.
  - wstep. intros a0 [= <-]; exact EL.
  - destruct (s_gen s); [|wstep; discriminate]. apply wp_bind. eapply wp_mono; [apply wp_any_triv|].
    intros [a|e|] s' g' _; try discriminate. wsteps. intros b [= <-]. simpl. rewrite lookup_put, Nat.eqb_refl. reflexivity.
Qed.

Lemma logpdf_rows_wp o js : forall s g, wp o (logpdf_rows E js) (fun r s' g' => forall l, r = Ok l ->
   incl js (keys (s_theta s')) /\ length l = length js) s g.
Proof.
  induction js as [|j t IH]; intros s g; simpl.
  - wstep. intros l [= <-]; split; [intros x []|reflexivity].
  - eapply wp_call; [apply get_atom_wp| | |]; try discriminate.
    intros a s1 g1 H1. specialize (H1 a eq_refl). wpure. apply wp_bind, wp_of_res.
    destruct (e_logpdf E (s_y s1) a) as [l0|e|]; try discriminate.
    apply wp_bind. pose proof (mono_wp o tle _ s1 g1 (tle_logpdf_rows E t)) as W1. specialize (IH s1 g1). unfold wp in *.
    destruct (logpdf_rows E t o s1 g1) as [[[l|e|] s'] g']; try discriminate.
    destruct (IH l eq_refl) as [H4 H5]. simpl. intros l1 [= <-]. split; [|simpl; lia].
    intros x [<-|Hx]; [|auto]. apply W1, lookup_keys. rewrite H1; discriminate.
Qed.

Lemma update_atoms_wp o js : forall s g, wp o (update_atoms js) (fun r s' g' => r = Ok tt ->
   incl js (keys (s_theta s')) /\ (js <> [] -> length (labels_of s) = length (s_y s))) s g.
Proof.
  induction js as [|j t IH]; intros s g; simpl; [wstep; intros _; split; [intros x []|congruence]|].
  unfold masked. wpure. destruct (Nat.eqb_spec (length (labels_of s)) (length (s_y s))) as [EL|EL]; [|wsteps; discriminate].
  wpure. apply wp_bind, wp_of_res. destruct (prior_niw s) as [h|e|]; try discriminate.
  apply wp_bind, wp_of_res. destruct (niw_post_call _ h) as [h'|e|]; try discriminate.
  apply wp_bind. eapply wp_mono; [apply (keeps_wp o (fun s => s) (draw_niw h')); apply keeps_draw_niw|].
  intros [a|e|] s1 g1 ->; try discriminate. wstep.
  match goal with |- wp _ _ _ ?s1 _ => set (s2 := s1) end.
  pose proof (mono_wp o tle _ s2 g1 (tle_update_atoms t)) as W1. specialize (IH s2 g1). unfold wp in *.
  destruct (update_atoms t o s2 g1) as [[r s'] g']. intros Hr. destruct (IH Hr) as [H1 _]. split; [|auto].
  intros x [<-|Hx]; [|auto]. apply W1. unfold s2; simpl. apply keys_put; auto.
Qed.

(* after fit(labels); random() in a sweep that goes on *)
Definition slice_ok (s s' : ms) : Prop :=
  labels_of s <> [] /\ wfull c (s_wm s') /\ s_u s' <> [] /\ length (s_u s') = length (labels_of s) /\
  d (s_wm s') = labels_of s.
Lemma update_weights_wp o s g : valid_oracle o ->
  wp o (update_weights c fuel) (fun r s' g' => r = Ok tt -> slice_ok s s') s g.
Proof.
  intros Ho. unfold update_weights. wpure. unfold wm_fit. apply wp_bind, wp_onw, wp_upd. cbv iota beta.
  set (s1 := upd_wm _ _).
  destruct (s_d s) as [dl|] eqn:Ed.
  2:{ apply wp_bind, wp_onw. eapply wp_mono; [apply wp_any_triv|]. intros [a|e|] x g' _; wsteps; discriminate. }
  assert (El : labels_of s = dl) by (unfold labels_of; rewrite Ed; reflexivity).
  destruct (is_nil dl) eqn:Enil.
  { apply isnil in Enil. subst dl. apply wp_bind, wp_onw. eapply wp_mono; [apply wp_any_triv|]. intros [a|e|] x g' _; try discriminate.
    cbv beta iota. rewrite Enil. simpl gather. cbv iota. wstep. wstep. unfold tail_to_slice. wpure. simpl. wstep. discriminate. }
  apply nonnil in Enil.
  apply wp_bind, wp_onw. eapply wp_mono; [apply (random_full c o (s_wm s1) g Ho)|].
  { unfold s1; simpl. rewrite El; exact Enil. }
  intros [a|e|] x g1 H; try discriminate. destruct (H a eq_refl) as (Hf & -> & Hd & _). cbv beta iota.
  destruct (gather (w x) dl) as [wd|] eqn:Eg; [|wstep; discriminate].
  wstep. wstep. unfold tail_to_slice. wpure.
  match goal with |- context [upd_u ?u _] => set (uu := u) end.
  assert (Hu : length uu = length dl) by (unfold uu; rewrite unif_draws_length, map_length; apply (gather_length _ _ _ Eg)).
  destruct (is_nil (s_u _)) eqn:Eu; [wstep; discriminate|]. apply nonnil in Eu.
  apply wp_bind, wp_onw. eapply wp_mono; [apply (tail_full c o fuel _ _ _ Ho)|]; [exact Hf|].
  intros [b|e|] x' g2 HT; try discriminate. destruct (HT b eq_refl) as (HT1 & HT2 & _). wstep. intros _.
  unfold slice_ok. simpl. rewrite El. split; [exact Enil|]. split; [exact HT1|]. split; [exact Eu|]. split; [exact Hu|].
  rewrite HT2. simpl. rewrite Hd. exact El.
Qed.

Definition logit_rows (ll : list (list lx)) (ww u : list Q) (n : nat) : list (list lx) :=
  map (fun i => logits ll ww (nth i u 0) i) (seq 0 n).
Lemma update_d_wp o s g : valid_oracle o ->
  wp o (update_d E) (fun r s' g' => r = Ok tt ->
     length (labels_of s') = length (s_y s) /\ length (s_u s) = length (s_y s) /\
     Forall (fun j => (j < length (w (s_wm s)))%nat) (labels_of s') /\ (0 < length (w (s_wm s)))%nat /\ length (s_y s) <> 1%nat /\
     incl (seq 0 (length (w (s_wm s)))) (keys (s_theta s')) /\ tle s s' /\
     exists ll g1, length ll = length (w (s_wm s)) /\ labels_of s' = label_answers o g1 (logit_rows ll (w (s_wm s)) (s_u s) (length (s_y s)))) s g.
Proof.
  intros Ho. unfold update_d. wpure.
  set (k := length (w (s_wm s))). 
  pose proof (keeps_logpdf_rows (fun s => (s_wm s, s_y s, s_u s)) E (seq 0 k) ltac:(reflexivity)) as K.
  pose proof (keeps_wp o _ _ s g K) as W1. pose proof (logpdf_rows_wp o (seq 0 k) s g) as W2.
  pose proof (mono_wp o tle _ s g (tle_logpdf_rows E (seq 0 k))) as W3.
  apply wp_bind. unfold wp in *. destruct (logpdf_rows E (seq 0 k) o s g) as [[[ll|e|] s1] g1]; try discriminate.
  destruct (W2 ll eq_refl) as [W4 W5]. injection W1 as Ewm Ey Eu. rewrite seq_length in W5.
  destruct (Nat.eqb_spec k 0); [simpl; discriminate|]. destruct (Nat.eqb_spec (length (s_y s)) 1); [simpl; discriminate|].
  destruct (Nat.eqb_spec (length (s_u s)) (length (s_y s))); [|simpl; discriminate]. cbn [orb negb].
  fold (logit_rows ll (w (s_wm s)) (s_u s) (length (s_y s))).
  unfold bind. rewrite draw_labels_eq. unfold upd. intros _.
  unfold labels_of; cbn [s_d upd_d].
  split; [rewrite label_answers_length; unfold logit_rows; rewrite map_length, seq_length; reflexivity|].
  split; [assumption|]. split.
  { apply label_answers_lt; [exact Ho|lia|]. apply Forall_forall. intros lg Hlg. apply in_map_iff in Hlg as (i & <- & _).
    unfold logits. rewrite map_length, combine_length, W5. fold k. lia. }
  split; [lia|]. split; [assumption|]. split; [exact W4|]. split; [eapply tle_trans; [exact W3|apply tle_same; reflexivity]|].
  exists ll, g1. split; [exact W5|reflexivity].
Qed.

(* a sweep that returns *)
Record swept (s s' : ms) : Prop := {
  sw_old : labels_of s <> [];
  sw_oldlen : length (labels_of s) = length (s_y s);
  sw_len : length (labels_of s') = length (s_y s);
  sw_lt : Forall (fun j => (j < length (w (s_wm s')))%nat) (labels_of s');
  sw_full : wfull c (s_wm s');
  sw_keys : forall j, (j < length (w (s_wm s')))%nat -> In j (keys (s_theta s'));
  sw_tle : tle s s';
  sw_fit : d (s_wm s') = labels_of s;
  sw_two : length (s_y s) <> 1%nat;
  sw_ulen : length (s_u s') = length (s_y s);
  sw_lab : exists o ll g1, valid_oracle o /\ labels_of s' = label_answers o g1 (logit_rows ll (w (s_wm s')) (s_u s') (length (s_y s))) /\ length ll = length (w (s_wm s'))
}.

Lemma gibbs_step_wp o s g : valid_oracle o -> wp o (gibbs_step E c fuel) (fun r s' g' => r = Ok tt -> swept s s') s g.
Proof.
  intros Ho. unfold gibbs_step, update_all_atoms. wpure.
  set (js := nunique (labels_of s)).
  pose proof (keeps_wp o (fun s => (s_y s, s_d s)) _ s g (keeps_update_atoms (fun s => (s_y s, s_d s)) js ltac:(reflexivity))) as W1.
  pose proof (update_atoms_wp o js s g) as W2. pose proof (mono_wp o tle _ s g (tle_update_atoms js)) as W3.
  apply wp_bind. unfold wp in W1, W2, W3. unfold wp at 1. destruct (update_atoms js o s g) as [[[[]|e|] s1] g1]; try discriminate.
  injection W1 as Ey Ed. destruct (W2 eq_refl) as [W4 W5].
  assert (El : labels_of s1 = labels_of s) by (unfold labels_of; rewrite Ed; reflexivity).
  pose proof (keeps_wp o (fun s => (s_y s, s_d s, s_theta s)) _ s1 g1 (keeps_update_weights (fun s => (s_y s, s_d s, s_theta s)) c fuel ltac:(reflexivity) ltac:(reflexivity))) as V1.
  pose proof (update_weights_wp o s1 g1 Ho) as V2.
  apply wp_bind. unfold wp in V1, V2. unfold wp at 1. destruct (update_weights c fuel o s1 g1) as [[[[]|e|] s2] g2]; try discriminate.
  destruct (V2 eq_refl) as (U1 & U2 & U3 & U4 & U5). injection V1 as Ey2 Ed2 Et2.
  pose proof (keeps_wp o (fun s => (s_wm s, s_u s)) _ s2 g2 (keeps_update_d (fun s => (s_wm s, s_u s)) E ltac:(reflexivity) ltac:(reflexivity))) as X1.
  pose proof (update_d_wp o s2 g2 Ho) as X2.
  unfold wp in *. destruct (update_d E o s2 g2) as [[r s3] g3]. intros Hr.
  destruct (X2 Hr) as (Y1 & Y2 & Y3 & Y4 & Y5 & Y6 & Y7 & ll & gg & Y8 & Y9). injection X1 as Ewm Eu.
  rewrite El in *. rewrite Ey2, Ey in *.
  constructor; rewrite ?Ewm, ?Eu; auto.
  - apply W5. intros K. apply U1, nunique_nil; exact K.
  - intros j Hj. apply Y6, in_seq. lia.
  - eapply tle_trans; [exact W3|]. eapply tle_trans; [|exact Y7]. apply tle_same; exact Et2.
  - exists o, ll, gg. auto.
Qed.

Lemma y_loglik_wp o js : forall acc s g, wp o (y_loglik E js acc) (fun r s' g' => forall l, r = Ok l ->
   incl js (keys (s_theta s')) /\ (js <> [] -> length (labels_of s) = length (s_y s))) s g.
Proof.
  induction js as [|j t IH]; intros acc s g; simpl; [wstep; intros l _; split; [intros x []|congruence]|].
  unfold masked. wpure. destruct (Nat.eqb_spec (length (labels_of s)) (length (s_y s))) as [EL|EL]; [|wsteps; discriminate].
  wpure. apply wp_bind. eapply wp_mono; [apply get_atom_wp|]. intros [a|e|] s1 g1 H1; try discriminate. specialize (H1 a eq_refl).
  apply wp_bind, wp_of_res. destruct (e_logpdf E _ a) as [l0|e|]; try discriminate.
  pose proof (mono_wp o tle _ s1 g1 (tle_y_loglik E t (lx_add acc (lx_sum l0)))) as W1. specialize (IH (lx_add acc (lx_sum l0)) s1 g1). unfold wp in *.
  destruct (y_loglik E t _ o s1 g1) as [[r s'] g']. intros l Hr. destruct (IH l Hr) as [H2 _]. split; [|auto].
  intros x [<-|Hx]; [|auto]. apply W1. apply lookup_keys. rewrite H1; discriminate.
Qed.

(* the likelihood keeps the weights of a sweep *)
Lemma run_loglik_wp o s g : wfull c (s_wm s) -> Forall (fun j => (j < length (w (s_wm s)))%nat) (labels_of s) ->
  wp o (run_loglik E c) (fun r s' g' => forall l, r = Ok l -> wfull c (s_wm s') /\ w (s_wm s') = w (s_wm s) /\ d (s_wm s') = d (s_wm s) /\ tle s s') s g.
Proof.
  intros Hf Hl. unfold run_loglik. wpure.
  pose proof (keeps_wp o (fun s => (s_wm s, s_d s)) _ s g (keeps_y_loglik (fun s => (s_wm s, s_d s)) E (nunique (labels_of s)) (LQ 0) ltac:(reflexivity))) as W1.
  pose proof (mono_wp o tle _ s g (tle_y_loglik E (nunique (labels_of s)) (LQ 0))) as W2.
  apply wp_bind. unfold wp in W1, W2. unfold wp at 1. destruct (y_loglik E _ _ o s g) as [[[a|e|] s1] g1]; try discriminate.
  injection W1 as Ewm Ed. apply wp_bind, wp_onw. rewrite Ewm.
  destruct (is_nil (labels_of s)) eqn:En.
  { unfold wm_assign_weights. wstep. rewrite En. wstep. discriminate. }
  apply nonnil in En. eapply wp_mono; [apply (assign_full c o _ _ g1 Hf Hl En)|].
  intros [b|e|] x g2 [H1 _]; try discriminate. destruct (H1 b eq_refl) as (H2 & H3 & H4 & _). wstep. intros l _. simpl.
  split; [exact H2|]. split; [exact H4|]. split; [exact H3|]. eapply tle_trans; [exact W2|apply tle_same; reflexivity].
Qed.

Lemma sweep_wp o s g : valid_oracle o -> wp o (sweep E c fuel) (fun r s' g' => r = Ok tt -> swept s s') s g.
Proof.
  intros Ho. unfold sweep.
  eapply wp_call; [apply (gibbs_step_wp o s g Ho)| | |]; try discriminate.
  intros [] s1 g1 H1. destruct (H1 eq_refl) as [A1 A2 A3 A4 A5 A6 A7 A8 A9 A10 A11].
  unfold update_map.
  pose proof (keeps_wp o (fun s => (s_d s, s_u s)) _ s1 g1 (keeps_run_loglik (fun s => (s_d s, s_u s)) E c ltac:(reflexivity) ltac:(reflexivity))) as W1.
  pose proof (run_loglik_wp o s1 g1 A5 A4) as W2.
  apply wp_bind. unfold wp in W1, W2. unfold wp at 1. destruct (run_loglik E c o s1 g1) as [[[l|e|] s2] g2]; try discriminate.
  destruct (W2 l eq_refl) as (B1 & B2 & B3 & B4). injection W1 as Ed Eu.
  assert (El : labels_of s2 = labels_of s1) by (unfold labels_of; rewrite Ed; reflexivity).
  assert (K : forall s3, s_wm s3 = s_wm s2 -> s_d s3 = s_d s2 -> s_theta s3 = s_theta s2 -> s_u s3 = s_u s2 -> swept s s3).
  { intros s3 E1 E2 E3 E4. assert (El3 : labels_of s3 = labels_of s1) by (unfold labels_of; rewrite E2, Ed; reflexivity).
    constructor; rewrite ?El3, ?E1, ?E3, ?E4, ?B2, ?B3, ?Eu; auto.
    - intros j Hj. apply B4, A6, Hj.
    - eapply tle_trans; [exact A7|]. eapply tle_trans; [exact B4|]. apply tle_same; exact E3. }
  wpure. destruct (lx_ltb _ l); [wsteps; intros _; apply K; reflexivity|].
  destruct (lx_is_neg _); [wsteps; intros _; apply K; reflexivity|wsteps; intros _; apply K; reflexivity].
Qed.
End Sweep.
