(* Consequences of the history invariant: affinity matrix, saved states, counts. *)
From Coq Require Import Lqa.
From Verif Require Import Prelude Numpy Rng M_Weights M_Niw M_Utils M_Mix M_Query S_Mix S_Niw P_Lists P_Wp P_Mix P_MixW P_Mix37 P_Mix33 P_Niw.
Open Scope Q_scope.
Open Scope m_scope.

Lemma nth_map_seq {A} (f : nat -> A) n i x : (i < n)%nat -> nth i (map f (seq 0 n)) x = f i.
Proof. intros H. rewrite nth_indep with (d' := f 0%nat) by (rewrite map_length, seq_length; lia). rewrite map_nth, seq_nth by lia. reflexivity. Qed.

Lemma c34_frequency_proof : forall E QE c fuel o s g, valid_oracle o -> gibbs_history E c fuel o s g -> get_sim_params s <> [] ->
  exists m n, gibbs_eap_affinity_matrix QE s None = Ok m /\ length m = n /\ (forall r, In r (get_sim_params s) -> length (r_d r) = n) /\
    forall i, (i < n)%nat -> length (nth i m []) = n /\
    forall k, (k < n)%nat -> nth k (nth i m []) None = Some (nq (n_together i k (get_sim_params s)) / nq (length (get_sim_params s))).
Proof.
  intros E QE c fuel o s g Ho H Hs. destruct (history_ginv E c fuel o s g Ho H) as [[G1 G2 G3 G4 G5 G6 G7 G8] F].
  unfold get_sim_params in *. set (n := length (s_aff s)) in *.
  exists (div_count (s_saved s) (s_aff s)), n. unfold gibbs_eap_affinity_matrix. rewrite F. simpl.
  split; [reflexivity|]. split; [unfold div_count; rewrite map_length; reflexivity|].
  split; [rewrite Forall_forall in G6; intros r Hr; apply (G6 r Hr)|].
  assert (Hz : Nat.eqb (s_saved s) 0 = false) by (rewrite G1; destruct (s_sims s); [congruence|reflexivity]).
  rewrite G1 in *. unfold div_count. rewrite Hz, G5. unfold count_table. fold n.
  rewrite map_map. intros i Hi. rewrite nth_map_seq by exact Hi. rewrite map_map. split; [rewrite map_length, seq_length; reflexivity|].
  intros k Hk. rewrite nth_map_seq by exact Hk. reflexivity.
Qed.

Lemma n_together_sym i k sims : n_together i k sims = n_together k i sims.
Proof. unfold n_together. f_equal. apply filter_ext. intros r. unfold together. apply Nat.eqb_sym. Qed.
Lemma n_together_le i k sims : (n_together i k sims <= length sims)%nat.
Proof. unfold n_together. induction sims; simpl; [lia|]. destruct (together i k a); simpl; lia. Qed.
Lemma n_together_refl i sims : n_together i i sims = length sims.
Proof. unfold n_together. induction sims; simpl; [reflexivity|]. unfold together at 1. rewrite Nat.eqb_refl. simpl. congruence. Qed.
Lemma c34_shape_proof : forall E QE c fuel o s g, valid_oracle o -> gibbs_history E c fuel o s g -> get_sim_params s <> [] ->
  exists m, gibbs_eap_affinity_matrix QE s None = Ok m /\
    forall i k, (i < length m)%nat -> (k < length m)%nat ->
      exists q, nth k (nth i m []) None = Some q /\ nth i (nth k m []) None = Some q /\ 0 <= q /\ q <= 1 /\ (i = k -> q == 1).
Proof.
  intros E QE c fuel o s g Ho H Hs. destruct (c34_frequency_proof E QE c fuel o s g Ho H Hs) as (m & n & H1 & H2 & H3 & H4).
  exists m. split; [exact H1|]. rewrite H2. intros i k Hi Hk. eexists. split; [apply (H4 i Hi); exact Hk|].
  split; [rewrite n_together_sym; apply (H4 k Hk); exact Hi|].
  set (S := get_sim_params s) in *. assert (P : 0 < nq (length S)) by (apply nq_pos; destruct S; [congruence|simpl; lia]).
  pose proof (n_together_le i k S). pose proof (nq_nonneg (n_together i k S)).
  assert (nq (n_together i k S) <= nq (length S)).
  { replace (length S) with (n_together i k S + (length S - n_together i k S))%nat by lia. rewrite nq_add. pose proof (nq_nonneg (length S - n_together i k S)). lra. }
  split; [apply Qle_shift_div_l; [exact P|]; lra|]. split; [apply Qle_shift_div_r; [exact P|]; lra|].
  intros ->. rewrite n_together_refl. field. lra.
Qed.

(* ---- saved states ---- *)
Lemma c39_saved_proof : forall E c fuel o s g r, valid_oracle o -> gibbs_history E c fuel o s g -> In r (get_sim_params s) ->
  self_contained r /\ Forall (fun j => (j < length (r_w r))%nat) (r_d r).
Proof.
  intros E c fuel o s g r Ho H Hr. destruct (history_ginv E c fuel o s g Ho H) as [G F].
  pose proof (gi_good _ G) as K. rewrite Forall_forall in K. destruct (K r Hr) as (K1 & K2 & _). auto.
Qed.

Lemma rbind_no {A B} e (r : res A) (k : A -> res B) : r <> Err e -> (forall a, k a <> Err e) -> rbind r k <> Err e.
Proof. intros H1 H2. destruct r; simpl; auto. congruence. discriminate. Qed.
Lemma rmap_no {A B} e (f : A -> res B) l : (forall x, In x l -> f x <> Err e) -> rmap f l <> Err e.
Proof.
  induction l; intros H; simpl; [discriminate|]. apply rbind_no; [apply H; left; reflexivity|]. intros b.
  apply rbind_no; [apply IHl; intros; apply H; right; assumption|discriminate].
Qed.
Lemma py_nth_no {A} (l : list A) z : py_nth l z <> Err KeyError.
Proof. unfold py_nth. destruct (py_index _ z); [destruct (nth_error l n)|]; discriminate. Qed.
Lemma sub_vec_no l x : sub_vec l x <> Err KeyError.
Proof. apply rmap_no. intros; apply py_nth_no. Qed.
Lemma sub_mat_no l x : sub_mat l x <> Err KeyError.
Proof. unfold sub_mat. apply rbind_no; [apply rmap_no; intros; apply sub_vec_no|]. intros. apply rmap_no. intros; apply py_nth_no. Qed.
Lemma self_contained_get r z : self_contained r -> (0 <= z < Z.of_nat (length (r_w r)))%Z -> dict_get (r_theta r) z <> Err KeyError.
Proof.
  intros H Hz. unfold dict_get. destruct (Z.ltb_spec z 0); [lia|]. destruct (H (Z.to_nat z)) as (a & Ha); [lia|].
  assert (K : In (Z.to_nat z) (keys (r_theta r))) by (apply in_map_iff; exists (Z.to_nat z, a); auto).
  apply lookup_keys in K. destruct (lookup (Z.to_nat z) (r_theta r)); [discriminate|congruence].
Qed.
Lemma density_no QE x flat r dim comp : no_key QE -> self_contained r -> comp_ok comp r ->
  mixture_density QE x flat (r_w r) (r_theta r) dim comp <> Err KeyError.
Proof.
  intros [N1 N2] H Hc. unfold mixture_density. apply rbind_no; [|discriminate]. apply rmap_no. intros z Hz.
  assert (D : dict_get (r_theta r) z <> Err KeyError).
  { apply self_contained_get; [exact H|]. destruct comp as [j|]; [destruct Hz as [<-|[]]; exact Hc|].
    apply in_map_iff in Hz as (i & <- & Hi). apply in_seq in Hi. lia. }
  unfold component_density. destruct dim.
  - apply rbind_no; [exact D|intros a]. apply rbind_no; [apply N1|intros b]. apply rbind_no; [apply py_nth_no|discriminate].
  - apply rbind_no; [exact D|intros a]. apply rbind_no; [apply sub_vec_no|intros b]. apply rbind_no; [apply sub_mat_no|intros b0].
    apply rbind_no; [apply N1|intros b1]. apply rbind_no; [apply py_nth_no|discriminate].
  - destruct flat; [discriminate|]. apply rbind_no; [exact D|intros a]. do 3 (apply rbind_no; [apply py_nth_no|intros ?]).
    apply rbind_no; [apply N2|intros b1]. apply rbind_no; [apply py_nth_no|discriminate].
  - discriminate.
Qed.
Lemma last_periods_in {A} (sims : list A) p x : In x (last_periods sims p) -> In x sims.
Proof.
  assert (K : forall n (l : list A), In x (skipn n l) -> In x l) by (intros n l H; rewrite <- (firstn_skipn n l); apply in_or_app; auto).
  unfold last_periods. destruct p; auto. cbv zeta. destruct (_ <=? _)%Z; apply K.
Qed.
Lemma cast_obs_no s y : cast_obs s y <> Err KeyError.
Proof. destruct y as [[]|]; discriminate. Qed.
Lemma c39_density_proof : forall E QE c fuel o s g y dim comp periods, valid_oracle o -> gibbs_history E c fuel o s g -> no_key QE ->
  (forall r, In r (get_sim_params s) -> comp_ok comp r) -> gibbs_eap_density QE s y dim comp periods <> Err KeyError.
Proof.
  intros E QE c fuel o s g y dim comp periods Ho H N Hc. unfold gibbs_eap_density. destruct (history_ginv E c fuel o s g Ho H) as [G F].
  rewrite F. simpl. apply rbind_no; [apply cast_obs_no|intros x]. apply rbind_no.
  - apply rmap_no. intros r Hr. apply last_periods_in in Hr. apply density_no; [exact N| |apply Hc, Hr].
    apply (c39_saved_proof E c fuel o s g r Ho H Hr).
  - intros rows. unfold mean_rows. destruct rows; [discriminate|]. destruct (forallb _ _); discriminate.
Qed.
Lemma cluster_no QE x r : no_key QE -> self_contained r -> cluster QE x (r_w r) (r_theta r) <> Err KeyError.
Proof.
  intros [N1 N2] H. unfold cluster, prob_rows. apply rbind_no.
  - apply rbind_no; [|discriminate]. apply rmap_no. intros z Hz. apply rbind_no; [|intros; apply N1].
    apply self_contained_get; [exact H|]. apply in_map_iff in Hz as (i & <- & Hi). apply in_seq in Hi. lia.
  - intros rows. destruct (is_nil _ || _); discriminate.
Qed.
Lemma c39_affinity_proof : forall E QE c fuel o s g y, valid_oracle o -> gibbs_history E c fuel o s g -> no_key QE ->
  gibbs_eap_affinity_matrix QE s y <> Err KeyError.
Proof.
  intros E QE c fuel o s g y Ho H N. unfold gibbs_eap_affinity_matrix. destruct (history_ginv E c fuel o s g Ho H) as [G F].
  rewrite F. simpl. destruct y; [|discriminate]. apply rbind_no; [apply cast_obs_no|intros x]. apply rbind_no; [|discriminate].
  apply rmap_no. intros r Hr. apply cluster_no; [exact N|]. apply (c39_saved_proof E c fuel o s g r Ho H Hr).
Qed.

(* ---- counts ---- *)
Lemma nunique_distinct l : length (nunique l) = distinct l.
Proof.
  unfold distinct. apply Nat.le_antisymm; apply NoDup_incl_length; try apply nunique_nodup; try apply NoDup_nodup.
  - intros x Hx. apply nodup_In, nunique_in, Hx.
  - intros x Hx. apply nunique_in. apply nodup_In in Hx. exact Hx.
Qed.
Lemma nth_map_lt {A B} (f : A -> B) l i x y : (i < length l)%nat -> nth i (map f l) x = f (nth i l y).
Proof. intros H. rewrite nth_indep with (d' := f y) by (rewrite map_length; lia). apply map_nth. Qed.
Definition no_rp : rparams := RP [] [] [] [].
Lemma c40_counts_proof : forall E c fuel o s g, valid_oracle o -> gibbs_history E c fuel o s g ->
  length (get_n_groups s) = length (get_sim_params s) /\ length (get_n_theta s) = length (get_sim_params s) /\
  forall t r, nth_error (get_sim_params s) t = Some r ->
    nth t (get_n_groups s) 0%nat = distinct (r_d r) /\ nth t (get_n_theta s) 0%nat = length (r_theta r) /\
    (nth t (get_n_groups s) 0 <= nth t (get_n_theta s) 0)%nat /\ (nth t (get_n_groups s) 0 <= length (r_d r))%nat /\
    forall t', (t <= t')%nat -> (t' < length (get_n_theta s))%nat -> (nth t (get_n_theta s) 0 <= nth t' (get_n_theta s) 0)%nat.
Proof.
  intros E c fuel o s g Ho H. destruct (history_ginv E c fuel o s g Ho H) as [[G1 G2 G3 G4 G5 G6 G7 G8] F].
  unfold get_n_groups, get_n_theta, get_sim_params. rewrite G2, G3, !map_length. do 2 (split; [reflexivity|]).
  intros t r Hr. assert (Ht : (t < length (s_sims s))%nat) by (apply nth_error_Some; congruence).
  apply (nth_error_nth _ _ no_rp) in Hr.
  rewrite !(nth_map_lt _ _ t _ no_rp) by exact Ht. rewrite Hr, nunique_distinct. do 2 (split; [reflexivity|]).
  rewrite Forall_forall in G6. assert (Hin : In r (s_sims s)) by (rewrite <- Hr; apply nth_In; exact Ht).
  destruct (G6 r Hin) as (K1 & K2 & K3).
  split.
  { unfold distinct. rewrite <- keys_length. apply NoDup_incl_length; [apply NoDup_nodup|]. intros j Hj. apply nodup_In in Hj.
    rewrite Forall_forall in K2. destruct (K1 j (K2 j Hj)) as (a & Ha). apply in_map_iff. exists (j, a); auto. }
  split; [rewrite <- nunique_distinct; apply nunique_length|].
  intros t' L1 L2. rewrite <- Hr. rewrite <- (nth_map_lt (fun r => length (r_theta r)) _ t 0%nat no_rp) by exact Ht.
  rewrite <- G3. apply G7; [exact L1|]. rewrite G3, map_length. exact L2.
Qed.

(* ---- redraw of the atoms ---- *)
Lemma select_members {A} j dl (y : list A) : select j dl y = members j dl y.
Proof.
  unfold select. revert y. induction dl as [|i t IH]; intros [|r u]; simpl; try reflexivity.
  destruct (Nat.eqb i j); simpl; rewrite IH; reflexivity.
Qed.
Lemma members_nonempty {A} j dl (y : list A) : length dl = length y -> In j dl -> members j dl y <> [].
Proof.
  revert y. induction dl as [|i t IH]; intros [|r u]; simpl; try discriminate; [tauto|]. intros [= L] [->|Hj].
  - rewrite Nat.eqb_refl. discriminate.
  - destruct (Nat.eqb i j); [discriminate|auto].
Qed.
Lemma draw_niw_wp {S} o h (s : S) g : wp o (draw_niw h) (fun r s' g' => forall a, r = Ok a -> drawn_from o h a) s g.
Proof.
  unfold wp, draw_niw, bind, invw1, mvn1. cbv zeta. destruct (o_invw o g _ _) as [sg|e] eqn:E1; [|simpl; discriminate].
  destruct (Qeq_bool (n_lam h) 0); [simpl; discriminate|]. simpl.
  destruct (o_mvn o _ _ _) as [mu|e] eqn:E2; [|simpl; discriminate]. simpl.
  intros a [= <-]. exists g. split; assumption.
Qed.
Lemma update_atoms_redraw o js : NoDup js -> forall s g, (forall j, In j js -> In j (labels_of s)) ->
  wp o (update_atoms js) (fun r s' g' => r = Ok tt ->
   (forall j, In j js -> redrawn o s j (s_theta s')) /\ (forall j, ~ In j js -> lookup j (s_theta s') = lookup j (s_theta s))) s g.
Proof.
  induction js as [|j t IH]; intros ND s g Hin; simpl; [wstep; intros _; split; [intros j []|reflexivity]|].
  inversion_clear ND as [|? ? Nj ND']. specialize (IH ND').
  unfold masked. wpure. destruct (Nat.eqb_spec (length (labels_of s)) (length (s_y s))) as [EL|EL]; [|wsteps; discriminate].
  wpure. apply wp_bind, wp_of_res. destruct (prior_niw s) as [h|e|] eqn:Eh; try discriminate.
  apply wp_bind, wp_of_res. rewrite select_members. set (rows := members j _ _).
  destruct (niw_post_call rows h) as [h'|e|] eqn:Ec; try discriminate.
  assert (Hp : is_posterior rows h h').
  { unfold niw_post_call in Ec. destruct (negb _); [discriminate|]. destruct (Qeq_bool _ 0) eqn:Eq; [discriminate|]. injection Ec as <-.
    apply c41_natural_proof; [apply members_nonempty; [exact EL|apply Hin; left; reflexivity]|]. intros K. apply Qeq_bool_iff in K. congruence. }
  apply wp_bind. eapply wp_mono; [apply wp_and; [apply (keeps_wp o (fun s => s) (draw_niw h')); apply keeps_draw_niw|apply draw_niw_wp]|].
  intros [a|e|] s1 g1 [E1 Hd]; try discriminate. cbv beta in E1. subst s1. specialize (Hd a eq_refl). wstep.
  match goal with |- wp _ _ _ ?s1 _ => set (s2 := s1) end.
  eapply wp_mono; [apply (IH s2 g1)|].
  { intros i Hi. unfold s2, labels_of; simpl. apply Hin; right; exact Hi. }
  intros r s' g' H Hr. destruct (H Hr) as [H1 H2]. split.
  - intros i [<-|Hi].
    + exists h, h', a. repeat (split; [assumption|]). rewrite (H2 _ Nj). unfold s2; simpl. rewrite lookup_put, Nat.eqb_refl. reflexivity.
    + exact (H1 i Hi).
  - intros i Hi. rewrite (H2 i) by (intros K; apply Hi; right; exact K). unfold s2; simpl. rewrite lookup_put.
    destruct (Nat.eqb_spec j i) as [->|]; [destruct Hi; left; reflexivity|reflexivity].
Qed.
(* new atoms only for missing keys *)
Definition kept_atoms (s s' : ms) : Prop := forall j a, lookup j (s_theta s) = Some a -> lookup j (s_theta s') = Some a.
Lemma kept_trans a b c : kept_atoms a b -> kept_atoms b c -> kept_atoms a c.
Proof. unfold kept_atoms; auto. Qed.
Lemma kept_same s s' : s_theta s' = s_theta s -> kept_atoms s s'.
Proof. unfold kept_atoms. intros ->; auto. Qed.
Lemma mono_kept_keeps {A} (m : M ms A) : keeps s_theta m -> mono kept_atoms m.
Proof. intros H o s g. apply kept_same, H. Qed.
Lemma kept_get_atom j : mono kept_atoms (get_atom j).
Proof.
  intros o s g. unfold get_atom, bind, get. destruct (lookup j (s_theta s)) eqn:El; [simpl; intros ? ?; auto|]. destruct (s_gen s); [|simpl; intros ? ?; auto].
  pose proof (keeps_prior_atom s_theta o s g) as K. destruct (prior_atom o s g) as [[[a|e|] s1] g1]; simpl in *; intros i b Hb; try (rewrite K; exact Hb).
  simpl. rewrite lookup_put, K. destruct (Nat.eqb_spec j i) as [->|]; [congruence|exact Hb].
Qed.
Lemma kept_logpdf_rows E js : mono kept_atoms (logpdf_rows E js).
Proof.
  induction js; simpl; [apply mono_kept_keeps; keep|].
  apply mono_bind; [exact kept_trans|apply kept_get_atom|intros b].
  apply mono_bind; [exact kept_trans|apply mono_kept_keeps; keep|intros b0].
  apply mono_bind; [exact kept_trans|apply mono_kept_keeps; keep|intros b1].
  apply mono_bind; [exact kept_trans|apply IHjs|intros b2]. apply mono_kept_keeps; keep.
Qed.
Lemma kept_update_d E : mono kept_atoms (update_d E).
Proof.
  unfold update_d. apply mono_bind; [exact kept_trans|apply mono_kept_keeps; keep|intros b].
  apply mono_bind; [exact kept_trans|apply kept_logpdf_rows|intros b0].
  destruct (_ || _); [apply mono_kept_keeps; keep|].
  apply mono_bind; [exact kept_trans|apply mono_kept_keeps|intros b1; apply mono_kept_keeps; keep].
  apply (keeps_draw_labels s_theta).
Qed.
Lemma c40_redraw_proof : forall E c fuel o s g s' g', gibbs_step E c fuel o s g = (Ok tt, s', g') ->
  (forall j, In j (labels_of s) -> redrawn o s j (s_theta s')) /\
  (forall j a, ~ In j (labels_of s) -> lookup j (s_theta s) = Some a -> lookup j (s_theta s') = Some a).
Proof.
  intros E c fuel o s g s' g' H.
  assert (W : wp o (gibbs_step E c fuel) (fun r s' g' => r = Ok tt ->
    (forall j, In j (labels_of s) -> redrawn o s j (s_theta s')) /\
    (forall j a, ~ In j (labels_of s) -> lookup j (s_theta s) = Some a -> lookup j (s_theta s') = Some a)) s g).
  2:{ unfold wp in W. rewrite H in W. apply W; reflexivity. }
  unfold gibbs_step, update_all_atoms. wpure.
  eapply wp_call; [apply (update_atoms_redraw o (nunique (labels_of s)) (nunique_nodup _) s g); intros j Hj; apply nunique_in, Hj| | |]; try discriminate.
  intros [] s1 g1 H1. destruct (H1 eq_refl) as [R1 R2]. clear H1.
  eapply wp_call; [apply (keeps_wp o s_theta _ s1 g1 (keeps_update_weights s_theta c fuel ltac:(reflexivity) ltac:(reflexivity)))| | |]; try discriminate.
  intros [] s2 g2 E2. cbv beta in E2.
  eapply wp_mono; [apply (mono_wp o kept_atoms _ s2 g2 (kept_update_d E))|].
  intros r s3 g3 K _. split.
  - intros j Hj. destruct (R1 j) as (h & h' & a & P1 & P2 & P3 & P4); [apply nunique_in, Hj|]. exists h, h', a.
    repeat (split; [assumption|]). apply K. rewrite E2. exact P4.
  - intros j a Hj Ha. apply K. rewrite E2, R2; [exact Ha|]. intros F. apply Hj, nunique_in, F.
Qed.
