(* Saved states: their number, the affinity matrix, the atoms. *)
From Coq Require Import Lqa.
From Verif Require Import Prelude Numpy Rng M_Weights M_Niw M_Utils M_Mix M_Query S_Weights S_Mix P_Lists P_Wp P_MixW P_Mix P_Mix37.
Open Scope Q_scope.
Open Scope m_scope.

Lemma wp_and {S A} o (m : M S A) (P P' : post S A) s g : wp o m P s g -> wp o m P' s g -> wp o m (fun r s' g' => P r s' g' /\ P' r s' g') s g.
Proof. unfold wp. destruct (m o s g) as [[r s'] g']; auto. Qed.
Lemma wp_run {S A} o (m : M S A) (P : post S A) s g r s' g' : wp o m P s g -> m o s g = (r, s', g') -> P r s' g'.
Proof. unfold wp. intros H E. rewrite E in H. exact H. Qed.

(* ---- counting ---- *)
Fixpoint hits (n : nat) (i b : Z) : nat :=
  match n with O => 0%nat | S m => ((if (i mod b =? 0)%Z then 1 else 0) + hits m (i + 1) b)%nat end.
Lemma ceil_step i b : (0 < b)%Z -> (ceil_div (i + 1) b = ceil_div i b + (if (i mod b =? 0) then 1 else 0))%Z.
Proof.
  intros Hb. unfold ceil_div.
  pose proof (Z.div_mod i b ltac:(lia)) as D3. pose proof (Z.mod_pos_bound i b Hb) as B3.
  set (q := (i / b)%Z) in *. set (r := (i mod b)%Z) in *.
  destruct (Z.eqb_spec r 0).
  - rewrite <- (Z.div_unique (- i) b (- q) 0) by lia. rewrite <- (Z.div_unique (- (i + 1)) b (- q - 1) (b - 1)) by lia. lia.
  - rewrite <- (Z.div_unique (- i) b (- q - 1) (b - r)) by lia. rewrite <- (Z.div_unique (- (i + 1)) b (- q - 1) (b - r - 1)) by lia. lia.
Qed.
Lemma hits_ceil b : (0 < b)%Z -> forall n i, Z.of_nat (hits n i b) = (ceil_div (i + Z.of_nat n) b - ceil_div i b)%Z.
Proof.
  intros Hb. induction n as [|n IH]; intros i; cbn [hits]; [replace (i + Z.of_nat 0)%Z with i by lia; lia|].
  rewrite Nat2Z.inj_add, IH. replace (i + Z.of_nat (S n))%Z with (i + 1 + Z.of_nat n)%Z by lia.
  rewrite (ceil_step i b Hb). destruct (i mod b =? 0)%Z; lia.
Qed.
Lemma hits_planned t bu b : (0 < b)%Z -> hits (Z.to_nat (t - bu)) 0 b = Z.to_nat (ceil_div (t - bu) b).
Proof.
  intros Hb. apply Nat2Z.inj. rewrite hits_ceil by exact Hb. unfold ceil_div.
  change (- 0)%Z with 0%Z. rewrite Z.div_0_l by lia.
  destruct (Z.le_gt_cases 0 (t - bu)).
  - assert ((- (t - bu)) / b <= 0)%Z by (apply Z.div_le_upper_bound; lia). rewrite !Z2Nat.id by lia. rewrite Z.add_0_l. lia.
  - assert (0 <= (- (t - bu)) / b)%Z by (apply Z.div_pos; lia).
    replace (Z.to_nat (t - bu)) with 0%nat by lia. change (- (0 + Z.of_nat 0))%Z with 0%Z. rewrite Z.div_0_l by lia. lia.
Qed.

(* ---- what a save does ---- *)
Definition saved_len (s : ms) := (s_saved s, length (s_sims s), length (s_groups s), length (s_atoms s)).
Definition bump k (q : nat * nat * nat * nat) := match q with (a, b, c, d) => (k + a, k + b, k + c, k + d)%nat end.
Lemma save_count o s g : wp o save_params (fun r s' g' => r = Ok tt -> saved_len s' = bump 1 (saved_len s)) s g.
Proof.
  unfold save_params. wsteps; [|discriminate]. intros _. unfold saved_len, bump; simpl. rewrite !app_length; simpl. f_equal; [f_equal; [f_equal|]|]; lia.
Qed.
Lemma train_count E c fuel o n : forall i s g, (0 < s_sub s)%Z ->
  wp o (train_loop E c fuel n i) (fun r s' g' => r = Ok tt -> saved_len s' = bump (hits n i (s_sub s)) (saved_len s)) s g.
Proof.
  induction n as [|n IH]; intros i s g Hs; cbn [train_loop hits].
  - wstep. intros _. unfold bump, saved_len. reflexivity.
  - apply wp_bind. eapply wp_mono; [apply (keeps_wp o (fun s => (s_sub s, saved_len s)) (sweep E c fuel) s g); apply keeps_sweep; reflexivity|].
    intros [[]|e|] s1 g1 H; try discriminate. injection H as E1 E2 E3 E4 E5. assert (EL : saved_len s1 = saved_len s) by (unfold saved_len; congruence).
    wstep. rewrite E1. destruct (Z.eqb_spec (s_sub s) 0); [lia|].
    destruct (i mod s_sub s =? 0)%Z.
    + apply wp_bind. eapply wp_mono; [apply wp_and; [apply (keeps_wp o s_sub save_params); apply keeps_save; reflexivity|apply save_count]|].
      intros [[]|e|] s2 g2 [K1 K2]; try discriminate. specialize (K2 eq_refl).
      eapply wp_mono; [apply IH; lia|]. intros r s3 g3 K Hr. rewrite (K Hr), K2, K1, EL, E1. unfold bump, saved_len. f_equal; [f_equal; [f_equal|]|]; lia.
    + wstep. eapply wp_mono; [apply IH; lia|]. intros r s3 g3 K Hr. rewrite (K Hr), EL, E1. reflexivity.
Qed.

Lemma keeps_settings_init_gibbs E c fuel ig meth : keeps (fun s => (s_total s, s_burn s, s_sub s)) (init_gibbs E c fuel ig meth).
Proof.
  unfold init_gibbs. keep; try reflexivity.
  - apply keeps_tail_to_slice; reflexivity.
  - apply keeps_fit_variational; reflexivity.
Qed.
Lemma init_common_rows y o s g : is_data y = true -> wp o (init_common y) (fun r s' g' => s_y s' = rows_of y) s g.
Proof.
  intros Hy. unfold init_common. apply wp_bind. 
  assert (KS : wp o (set_obs y) (fun r s' g' => s_y s' = rows_of y) s g) by (destruct y; try discriminate Hy; simpl; wstep; reflexivity).
  eapply wp_mono; [exact KS|]. intros [[]|e|] s3 g3 K3; auto. rewrite <- K3.
  match goal with |- wp _ ?m _ _ _ => apply (keeps_wp o s_y m) end. keep; reflexivity.
Qed.
Lemma fit_variational_rows E c y k warm tol meth o s g : is_data y = true ->
  wp o (fit_variational E c y k warm tol meth) (fun r s' g' => s_y s' = rows_of y) s g.
Proof.
  intros Hy. unfold fit_variational. apply wp_bind. eapply wp_mono; [apply (init_common_rows y o s g Hy)|].
  intros [[]|e|] s1 g1 K; auto. rewrite <- K. match goal with |- wp _ ?m _ _ _ => apply (keeps_wp o s_y m) end.
  keep; try reflexivity; try (apply keeps_init_variational; reflexivity). apply keeps_var_loop; reflexivity.
Qed.

(* init_gibbs: what is reset *)
Lemma init_gibbs_reset E c fuel ig meth o s g :
  wp o (init_gibbs E c fuel ig meth) (fun r s' g' => s_saved s' = 0%nat /\ s_sims s' = [] /\ s_groups s' = [] /\ s_atoms s' = [] /\
     s_aff s' = repeat (repeat 0%nat (length (s_y s))) (length (s_y s)) /\ s_gen s' = true /\ s_theta s' = []) s g.
Proof.
  unfold init_gibbs. wstep. wstep. wstep. wstep. wstep.
  set (s1 := upd_aff _ _). 
  set (f := fun s => (s_saved s, s_sims s, s_groups s, s_atoms s, s_aff s, s_gen s, s_theta s)).
  eapply wp_mono; [match goal with |- wp _ ?m _ _ _ => apply (keeps_wp o f m) end|].
  - keep; try reflexivity; [apply keeps_tail_to_slice; reflexivity|apply keeps_fit_variational; reflexivity].
  - intros r s' g' A1. unfold f in A1. injection A1 as -> -> -> -> -> -> ->. auto 10.
Qed.
Lemma size_biased_length a l x : size_biased a l = Some x -> length x = length l.
Proof. unfold size_biased. intros H. apply gather_length in H. rewrite H. apply map_length. Qed.
Lemma init_gibbs_labels E c fuel ig meth o s g : valid_oracle o ->
  wp o (init_gibbs E c fuel ig meth) (fun r s' g' => r = Ok tt -> length (labels_of s') = length (s_y s)) s g.
Proof.
  intros Ho. unfold init_gibbs. wstep. wstep. wstep. wstep. wstep. wstep. wstep.
  apply wp_bind. match goal with |- wp _ ?m _ ?s1 _ => assert (K : keeps s_y m); [|pose proof (keeps_wp o s_y m s1) as K1] end.
  { destruct (is_snone ig); [apply keeps_tail_to_slice; reflexivity|keep; reflexivity]. }
  eapply wp_mono; [apply (K1 _ K)|]. clear K K1. intros [[]|e|] s1 g1 Ey; try discriminate. simpl in Ey.
  destruct meth.
  - apply wp_bind. destruct (s_1d _); [wstep; discriminate|]. wstep. simpl.
    unfold kmeans_cluster_size_biased, kmeans1. apply wp_assoc. unfold wp, bind. 
    destruct (_ || _); [simpl; discriminate|].
    destruct (size_biased _ _) eqn:Es; [|simpl; discriminate]. simpl. intros _. unfold labels_of; simpl.
    rewrite (size_biased_length _ _ _ Es). apply (vo_kmeans_len o Ho).
  - unfold wm_random_assignment. apply wp_bind, wp_onw. wsteps; try discriminate.
    intros _. unfold labels_of; simpl. rewrite map_length, unif_draws_length, repeat_length. apply Nat2Z.id.
  - wstep. apply wp_bind. eapply wp_mono; [apply (fit_variational_rows E c _ _ false _ _ o s1 g1)|].
    { destruct (s_1d s1); reflexivity. }
    intros [[]|e|] s2 g2 K; try discriminate. wsteps. intros _. unfold labels_of; simpl.
    unfold argmax0. rewrite map_length, seq_length, K.
    destruct (s_1d s1); simpl; unfold column; rewrite ?map_length, Ey; reflexivity.
  - wstep. discriminate.
Qed.

(* ---- C33 ---- *)
Lemma fit_gibbs_settings E c fuel y ig warm meth :
  keeps (fun s => (s_total s, s_burn s, s_sub s)) (fit_gibbs E c fuel y ig warm meth).
Proof.
  assert (KS : keeps (fun s => (s_total s, s_burn s, s_sub s)) (sweep E c fuel)) by (apply keeps_sweep; reflexivity).
  unfold fit_gibbs. keep; try reflexivity.
  - apply keeps_init_common; reflexivity.
  - apply keeps_settings_init_gibbs.
  - apply keeps_update_map; reflexivity.
  - apply keeps_burn; exact KS.
  - apply keeps_train; [exact KS|apply keeps_save; reflexivity].
Qed.
Lemma fit_gibbs_count E c fuel y ig warm meth o s g : (0 < s_sub s)%Z ->
  wp o (fit_gibbs E c fuel y ig warm meth) (fun r s' g' => r = Ok tt ->
     saved_len s' = bump (planned_saves s) (if warm then saved_len s else (0, 0, 0, 0)%nat)) s g.
Proof.
  intros Hs. unfold fit_gibbs. set (f := fun s => (s_total s, s_burn s, s_sub s, saved_len s)).
  apply wp_bind. eapply wp_mono; [apply (keeps_wp o f (init_common y)); apply keeps_init_common; reflexivity|].
  intros [[]|e|] s1 g1 H; try discriminate. unfold f in H. injection H as E1 E2 E3 E4 E5 E6 E7.
  assert (EL : saved_len s1 = saved_len s) by (unfold saved_len; congruence). clear E4 E5 E6 E7.
  set (L := if warm then saved_len s else (0, 0, 0, 0)%nat).
  assert (K : wp o (if warm then ret tt else init_gibbs E c fuel ig meth ;; update_map E c) (fun r s' g' =>
    r = Ok tt -> (s_total s', s_burn s', s_sub s') = (s_total s, s_burn s, s_sub s) /\ saved_len s' = L) s1 g1).
  { unfold L. destruct warm; [wstep; intros _; split; congruence|].
    apply wp_bind. eapply wp_mono; [apply wp_and; [apply (keeps_wp o _ _ s1 g1 (keeps_settings_init_gibbs E c fuel ig meth))|apply init_gibbs_reset]|].
    intros [[]|e|] s2 g2 [K1 (K2 & K3 & K4 & K5 & _)]; try discriminate.
    eapply wp_mono; [apply (keeps_wp o (fun s => (s_total s, s_burn s, s_sub s, saved_len s)) (update_map E c)); apply keeps_update_map; reflexivity|].
    intros r s3 g3 K Hr. injection K as A1 A2 A3 A4 A5 A6 A7. injection K1 as B1 B2 B3. split; [congruence|].
    unfold saved_len. rewrite A4, A5, A6, A7, K2, K3, K4, K5. reflexivity. }
  apply wp_bind. eapply wp_mono; [exact K|]. clear K. intros [[]|e|] s2 g2 K; try discriminate.
  destruct (K eq_refl) as [K1 K2]. injection K1 as B1 B2 B3. clear K.
  wstep. apply wp_bind. eapply wp_mono; [apply (keeps_wp o f (burn_loop E c fuel (Z.to_nat (s_burn s2)))); apply keeps_burn, keeps_sweep; reflexivity|].
  intros [[]|e|] s3 g3 H; try discriminate. unfold f in H. injection H as C1 C2 C3 C4 C5 C6 C7.
  apply wp_bind. eapply wp_mono; [apply train_count; lia|].
  intros [[]|e|] s4 g4 H; try discriminate. specialize (H eq_refl). wstep. intros _. unfold saved_len in *. simpl. rewrite H, C4, C5, C6, C7, K2, C3, B3, B1, B2.
  rewrite hits_planned by assumption. reflexivity.
Qed.
Lemma c33_cold_proof : forall E c fuel y ig meth o s g s' g', (1 <= s_sub s)%Z ->
  fit_gibbs E c fuel y ig false meth o s g = (Ok tt, s', g') ->
  length (get_sim_params s') = planned_saves s /\ length (get_n_groups s') = planned_saves s /\
  length (get_n_theta s') = planned_saves s /\ s_saved s' = planned_saves s.
Proof.
  intros * Hs H. pose proof (wp_run _ _ _ _ _ _ _ _ (fit_gibbs_count E c fuel y ig false meth o s g ltac:(lia)) H eq_refl) as K.
  unfold saved_len, bump in K. injection K as K1 K2 K3 K4. unfold get_sim_params, get_n_groups, get_n_theta. lia.
Qed.
Lemma c33_warm_proof : forall E c fuel y ig meth o s g s' g', (1 <= s_sub s)%Z ->
  fit_gibbs E c fuel y ig true meth o s g = (Ok tt, s', g') ->
  length (get_sim_params s') = (length (get_sim_params s) + planned_saves s)%nat /\
  length (get_n_groups s') = (length (get_n_groups s) + planned_saves s)%nat /\
  length (get_n_theta s') = (length (get_n_theta s) + planned_saves s)%nat /\
  s_saved s' = (s_saved s + planned_saves s)%nat /\ planned_saves s' = planned_saves s.
Proof.
  intros * Hs H. pose proof (wp_run _ _ _ _ _ _ _ _ (fit_gibbs_count E c fuel y ig true meth o s g ltac:(lia)) H eq_refl) as K.
  unfold saved_len, bump in K. injection K as K1 K2 K3 K4. unfold get_sim_params, get_n_groups, get_n_theta.
  pose proof (wp_run _ _ _ _ _ _ _ _ (keeps_wp o _ _ s g (fit_gibbs_settings E c fuel y ig true meth)) H) as K. injection K as A1 A2 A3.
  unfold planned_saves at 5. rewrite A1, A2, A3. repeat split; try lia.
Qed.

(* ---- the invariant of histories ---- *)
Definition count_table (n : nat) (sims : list rparams) : list (list nat) :=
  map (fun i => map (fun k => n_together i k sims) (seq 0 n)) (seq 0 n).
Lemma map_nth_seq {A} (l : list A) x : map (fun i => nth i l x) (seq 0 (length l)) = l.
Proof.
  induction l as [|a l IH]; [reflexivity|]. cbn [length seq map]. rewrite <- seq_shift, map_map. cbn [nth]. rewrite IH. reflexivity.
Qed.
Lemma equal_matrix_table dl : equal_matrix dl =
  map (fun i => map (fun k => if Nat.eqb (nth i dl 0%nat) (nth k dl 0%nat) then 1%nat else 0%nat) (seq 0 (length dl))) (seq 0 (length dl)).
Proof.
  unfold equal_matrix. 
  transitivity (map (fun a => map (fun k => if Nat.eqb a (nth k dl 0%nat) then 1%nat else 0%nat) (seq 0 (length dl))) dl).
  - apply map_ext. intros a. rewrite <- (map_nth_seq dl 0%nat) at 1. rewrite map_map. apply map_ext. intros k. rewrite Nat.eqb_sym. reflexivity.
  - set (F := fun a => map (fun k => if Nat.eqb a (nth k dl 0%nat) then 1%nat else 0%nat) (seq 0 (length dl))).
    rewrite <- (map_nth_seq (map F dl) (F 0%nat)), map_length. apply map_ext. intros i. rewrite map_nth. reflexivity.
Qed.
Lemma combine_map2 {A B C} (f : A -> B) (h : A -> C) l : combine (map f l) (map h l) = map (fun x => (f x, h x)) l.
Proof. induction l; simpl; congruence. Qed.
Lemma add_tables n (f h : nat -> nat -> nat) :
  add_matrix (map (fun i => map (f i) (seq 0 n)) (seq 0 n)) (map (fun i => map (h i) (seq 0 n)) (seq 0 n)) =
  map (fun i => map (fun k => (f i k + h i k)%nat) (seq 0 n)) (seq 0 n).
Proof.
  unfold add_matrix. rewrite combine_map2, map_map. apply map_ext. intros i. simpl. rewrite combine_map2, map_map. reflexivity.
Qed.
Lemma n_together_app i k a b : n_together i k (a ++ b) = (n_together i k a + n_together i k b)%nat.
Proof. unfold n_together. rewrite filter_app, app_length. reflexivity. Qed.
Lemma count_table_save n sims r : length (r_d r) = n ->
  add_matrix (count_table n sims) (equal_matrix (r_d r)) = count_table n (sims ++ [r]).
Proof.
  intros <-. rewrite equal_matrix_table. unfold count_table. rewrite add_tables. apply map_ext. intros i. apply map_ext. intros k.
  rewrite n_together_app. unfold n_together at 3. simpl. unfold together. destruct (Nat.eqb _ _); reflexivity.
Qed.
Lemma count_table_nil n : count_table n [] = repeat (repeat 0%nat n) n.
Proof.
  unfold count_table. assert (H : forall A (x : A) k m, map (fun _ : nat => x) (seq m k) = repeat x k).
  { intros A x k. induction k; intros m; simpl; [reflexivity|]. rewrite IHk. reflexivity. }
  rewrite <- (H _ (repeat 0%nat n) n 0%nat). apply map_ext. intros i. apply (H _ 0%nat n 0%nat).
Qed.

(* what is known about a saved state *)
Definition good_state (n : nat) (r : rparams) : Prop :=
  self_contained r /\ Forall (fun j => (j < length (r_w r))%nat) (r_d r) /\ length (r_d r) = n.
Record ginv (s : ms) : Prop := {
  gi_saved : s_saved s = length (s_sims s);
  gi_groups : s_groups s = map (fun r => length (nunique (r_d r))) (s_sims s);
  gi_atoms : s_atoms s = map (fun r => length (r_theta r)) (s_sims s);
  gi_len : length (s_aff s) = length (labels_of s);
  gi_aff : s_aff s = count_table (length (s_aff s)) (s_sims s);
  gi_good : Forall (good_state (length (s_aff s))) (s_sims s);
  gi_grow : forall i j, (i <= j)%nat -> (j < length (s_atoms s))%nat -> (nth i (s_atoms s) 0 <= nth j (s_atoms s) 0)%nat;
  gi_top : Forall (fun k => (k <= length (s_theta s))%nat) (s_atoms s)
}.
Definition gview (s : ms) := (s_saved s, s_sims s, s_groups s, s_atoms s, s_aff s).
Lemma ginv_grow s s' : ginv s -> gview s' = gview s -> length (labels_of s') = length (labels_of s) -> tle s s' -> ginv s'.
Proof.
  intros [H1 H2 H3 H4 H5 H6 H7 H8] E EL [_ T]. unfold gview in E. injection E as E1 E2 E3 E4 E5.
  constructor; rewrite ?E1, ?E2, ?E3, ?E4, ?E5; auto; [congruence|].
  eapply Forall_impl; [|exact H8]. simpl; intros; lia.
Qed.

Lemma gibbs_step_d E c fuel o s g : wp o (gibbs_step E c fuel) (fun r s' g' => r = Ok tt \/ s_d s' = s_d s) s g.
Proof.
  unfold gibbs_step, update_all_atoms.
  assert (K : forall s1, s_d s1 = s_d s -> forall g1, wp o (update_d E) (fun r s' g' => r = Ok tt \/ s_d s' = s_d s) s1 g1).
  { intros s1 E1 g1. unfold update_d. wstep. apply wp_bind.
    eapply wp_mono; [apply (keeps_wp o s_d (logpdf_rows E _)); apply keeps_logpdf_rows; reflexivity|].
    intros [ll|e|] s2 g2 E2; [|right; congruence|right; congruence].
    wstep; [wstep; right; congruence|]. unfold wp, bind. rewrite draw_labels_eq. simpl. auto. }
  wpure. apply wp_bind.
  eapply wp_mono; [apply (keeps_wp o s_d (update_atoms _)); apply keeps_update_atoms; reflexivity|].
  intros [[]|e|] s1 g1 E1; auto. apply wp_bind.
  eapply wp_mono; [apply (keeps_wp o s_d (update_weights c fuel)); apply keeps_update_weights; reflexivity|].
  intros [[]|e|] s2 g2 E2; [|right; congruence|right; congruence]. apply K; congruence.
Qed.
Lemma gibbs_step_len E c fuel o s g : valid_oracle o ->
  wp o (gibbs_step E c fuel) (fun r s' g' => length (labels_of s') = length (labels_of s)) s g.
Proof.
  intros Ho. eapply wp_mono; [apply wp_and; [apply (gibbs_step_d E c fuel o s g)|apply (gibbs_step_wp E c fuel o s g Ho)]|].
  intros r s' g' [[Hr|Hd] H]; [destruct (H Hr); congruence|unfold labels_of; rewrite Hd; reflexivity].
Qed.
Lemma sweep_len E c fuel o s g : valid_oracle o ->
  wp o (sweep E c fuel) (fun r s' g' => length (labels_of s') = length (labels_of s)) s g.
Proof.
  intros Ho. unfold sweep. apply wp_bind. eapply wp_mono; [apply (gibbs_step_len E c fuel o s g Ho)|].
  intros [[]|e|] s1 g1 H1; auto. rewrite <- H1.
  apply (keeps_wp o (fun s => length (labels_of s))). apply keeps_update_map; reflexivity.
Qed.
Lemma sweep_ginv E c fuel o s g : valid_oracle o -> ginv s -> wp o (sweep E c fuel) (fun r s' g' => ginv s') s g.
Proof.
  intros Ho H. eapply wp_mono; [apply wp_and; [apply wp_and; [apply (keeps_wp o gview (sweep E c fuel)); apply keeps_sweep; reflexivity|apply (sweep_len E c fuel o s g Ho)]|apply (mono_wp o tle _ s g (tle_sweep E c fuel))]|].
  intros r s' g' [[K1 K2] K3]. apply (ginv_grow s s'); auto.
Qed.
Lemma burn_ginv E c fuel o n : valid_oracle o -> forall s g, ginv s -> wp o (burn_loop E c fuel n) (fun r s' g' => ginv s') s g.
Proof.
  intros Ho. induction n; intros s g H; simpl; [wstep; exact H|]. apply wp_bind.
  eapply wp_mono; [apply (sweep_ginv E c fuel o s g Ho H)|]. intros [[]|e|] s1 g1 H1; auto.
Qed.

Lemma keys_in {A} j (t : list (nat * A)) : In j (keys t) -> exists a, In (j, a) t.
Proof. intros H. apply in_map_iff in H as ([i a] & <- & H). exists a; exact H. Qed.
Lemma save_ginv c s0 o s g : ginv s -> swept c s0 s -> wp o save_params (fun r s' g' => r = Ok tt /\ ginv s') s g.
Proof.
  intros [H1 H2 H3 H4 H5 H6 H7 H8] [A1 A2 A3 A4 A5 A6 A7 A8 A9 A10 A11]. unfold save_params. wstep. wstep.
  cbn [s_aff upd_sims labels_of s_d]. change (labels_of (upd_sims _ _ _ _ s)) with (labels_of s). rewrite H4, Nat.eqb_refl. wsteps. split; [reflexivity|].
  set (r := get_run_params s).
  assert (Ed : r_d r = labels_of s) by reflexivity.
  assert (Hr : length (r_d r) = length (s_aff s)) by (rewrite Ed; auto).
  assert (EA : add_matrix (s_aff s) (equal_matrix (labels_of s)) = count_table (length (s_aff s)) (s_sims s ++ [r])).
  { rewrite H5 at 1. rewrite <- Ed. apply count_table_save. exact Hr. }
  assert (LA : length (add_matrix (s_aff s) (equal_matrix (labels_of s))) = length (s_aff s)).
  { rewrite EA. unfold count_table. rewrite map_length, seq_length. reflexivity. }
  constructor; cbn [s_saved s_sims s_groups s_atoms s_aff s_theta upd_sims upd_aff].
  - rewrite app_length, H1; simpl; lia.
  - rewrite map_app, H2. reflexivity.
  - rewrite map_app, H3. reflexivity.
  - rewrite LA. exact H4.
  - rewrite LA. exact EA.
  - rewrite LA. apply Forall_app; split; [exact H6|]. constructor; [|constructor]. split; [|split; [exact A4|exact Hr]].
    intros j Hj. apply keys_in, A6, Hj.
  - intros i j Hij Hj. rewrite app_length in Hj; simpl in Hj.
    destruct (Nat.eq_dec j (length (s_atoms s))) as [->|Hn].
    + rewrite (app_nth2 _ _ _ (Nat.le_refl _)), Nat.sub_diag. simpl.
      destruct (le_lt_dec (length (s_atoms s)) i); [rewrite app_nth2 by assumption; replace (i - length (s_atoms s))%nat with 0%nat by lia; simpl; lia|].
      rewrite app_nth1 by assumption. rewrite Forall_forall in H8. apply H8, nth_In; assumption.
    + rewrite !app_nth1 by lia. apply H7; lia.
  - apply Forall_app; split; [exact H8|]. constructor; [lia|constructor].
Qed.
Lemma train_ginv E c fuel o n : valid_oracle o -> forall i s g, ginv s -> wp o (train_loop E c fuel n i) (fun r s' g' => ginv s') s g.
Proof.
  intros Ho. induction n; intros i s g H; simpl; [wstep; exact H|]. apply wp_bind.
  eapply wp_mono; [apply wp_and; [apply (sweep_ginv E c fuel o s g Ho H)|apply (sweep_wp E c fuel o s g Ho)]|].
  intros [[]|e|] s1 g1 [H1 H2]; auto. wstep. destruct (s_sub s1 =? 0)%Z; [wsteps; exact H1|].
  destruct (i mod s_sub s1 =? 0)%Z; [|wstep; apply IHn; exact H1].
  apply wp_bind. eapply wp_mono; [apply (save_ginv c s o s1 g1 H1 (H2 eq_refl))|]. intros [[]|e|] s2 g2 [K1 K2]; auto.
Qed.

Lemma cold_start_ginv E c fuel ig meth o s g : valid_oracle o ->
  wp o (init_gibbs E c fuel ig meth ;; update_map E c) (fun r s' g' => r = Ok tt -> ginv s') s g.
Proof.
  intros Ho. apply wp_bind. eapply wp_mono; [apply wp_and; [apply init_gibbs_reset|apply (init_gibbs_labels E c fuel ig meth o s g Ho)]|].
  intros [[]|e|] s1 g1 [(H1 & H2 & H3 & H4 & H5 & H6 & H7) H8]; try discriminate. specialize (H8 eq_refl).
  assert (G : ginv s1).
  { constructor; rewrite ?H1, ?H2, ?H3, ?H4, ?H5, ?repeat_length; auto; simpl; [|intros; lia]. symmetry; apply count_table_nil. }
  eapply wp_mono; [apply wp_and; [apply (keeps_wp o (fun s => (gview s, labels_of s)) (update_map E c)); apply keeps_update_map; reflexivity|apply (mono_wp o tle _ s1 g1 (tle_update_map E c))]|].
  intros r s' g' [K1 K2] _. injection K1 as K3. apply (ginv_grow s1 s' G); try assumption; unfold gview; congruence.
Qed.
Lemma fit_gibbs_ginv E c fuel y ig warm meth o s g : valid_oracle o -> (warm = true -> ginv s) ->
  wp o (fit_gibbs E c fuel y ig warm meth) (fun r s' g' => warm = true \/ r = Ok tt -> ginv s' /\ (r = Ok tt -> s_gfit s' = true) /\ (s_gfit s = true -> s_gfit s' = true)) s g.
Proof.
  intros Ho HW. unfold fit_gibbs. set (f := fun s => (gview s, labels_of s, s_theta s, s_gfit s)).
  assert (FI : forall s', f s' = f s -> ginv s -> ginv s').
  { intros s' E1 G. unfold f in E1. injection E1; intros. apply (ginv_grow s s' G); [unfold gview; congruence|congruence|apply tle_same; assumption]. }
  apply wp_bind. eapply wp_mono; [apply (keeps_wp o f (init_common y)); apply keeps_init_common; reflexivity|].
  intros r1 s1 g1 F1. assert (G1 : s_gfit s1 = s_gfit s) by (unfold f in F1; congruence).
  destruct r1 as [[]|e|]; cycle 1.
  { intros [->|K]; [|discriminate]. split; [apply FI; auto|]. split; [discriminate|congruence]. }
  { intros [->|K]; [|discriminate]. split; [apply FI; auto|]. split; [discriminate|congruence]. }
  apply wp_bind.
  assert (K : wp o (if warm then ret tt else init_gibbs E c fuel ig meth ;; update_map E c) (fun r s' g' =>
     (r = Ok tt -> ginv s') /\ (warm = true -> r = Ok tt) /\ s_gfit s' = s_gfit s) s1 g1).
  { destruct warm; [wstep; split; [intros _; apply FI; auto|auto]|].
    eapply wp_mono; [apply wp_and; [apply (cold_start_ginv E c fuel ig meth o s1 g1 Ho)|apply (keeps_wp o s_gfit)]|].
    - apply keeps_bind; [|intros _; apply keeps_update_map; reflexivity]. unfold init_gibbs. keep; try reflexivity; [apply keeps_tail_to_slice; reflexivity|apply keeps_fit_variational; reflexivity].
    - simpl. intros r s' g' [K1 K2]. split; [exact K1|split; [discriminate|congruence]]. }
  eapply wp_mono; [exact K|]. clear K. intros r2 s2 g2 (K1 & K2 & K3).
  destruct r2 as [[]|e|]; cycle 1.
  { intros [->|K]; [|discriminate]. discriminate (K2 eq_refl). }
  { intros [->|K]; [|discriminate]. discriminate (K2 eq_refl). }
  specialize (K1 eq_refl). wstep. apply wp_bind.
  eapply wp_mono; [apply wp_and; [apply (burn_ginv E c fuel o _ Ho s2 g2 K1)|apply (keeps_wp o s_gfit); apply keeps_burn, keeps_sweep; reflexivity]|].
  intros [[]|e|] s3 g3 [G3 F3]; [|intros _; split; [exact G3|split; [discriminate|congruence]]..].
  apply wp_bind. eapply wp_mono; [apply wp_and; [apply (train_ginv E c fuel o _ Ho 0%Z s3 g3 G3)|apply (keeps_wp o s_gfit); apply keeps_train; [apply keeps_sweep; reflexivity|apply keeps_save; reflexivity]]|].
  intros [[]|e|] s4 g4 [G4 F4]; [|intros _; split; [exact G4|split; [discriminate|congruence]]..].
  wstep. intros _. split; [|split; reflexivity]. eapply ginv_grow; [exact G4|reflexivity|reflexivity|apply tle_same; reflexivity].
Qed.

Lemma history_ginv E c fuel o s g : valid_oracle o -> gibbs_history E c fuel o s g -> ginv s /\ s_gfit s = true.
Proof.
  intros Ho. induction 1 as [s g y ig meth s' g' H|s g y ig meth r s' g' _ [IH1 IH2] H|s g y k warm tol meth r s' g' _ [IH1 IH2] H].
  - pose proof (wp_run _ _ _ _ _ _ _ _ (fit_gibbs_ginv E c fuel y ig false meth o s g Ho ltac:(discriminate)) H) as (K1 & K2 & _); auto.
  - pose proof (wp_run _ _ _ _ _ _ _ _ (fit_gibbs_ginv E c fuel y ig true meth o s g Ho ltac:(auto)) H) as (K1 & K2 & K3); auto.
  - pose proof (wp_run _ _ _ _ _ _ _ _ (keeps_wp o (fun s => (gview s, labels_of s, s_theta s, s_gfit s)) _ s g
       (keeps_fit_variational (fun s => (gview s, labels_of s, s_theta s, s_gfit s)) E c y k warm tol meth ltac:(reflexivity) ltac:(reflexivity) ltac:(reflexivity) ltac:(reflexivity) ltac:(reflexivity))) H) as K.
    injection K; intros. split; [|congruence]. apply (ginv_grow s s' IH1); [unfold gview; congruence|congruence|apply tle_same; assumption].
Qed.
