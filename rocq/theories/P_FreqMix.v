(* The label chain of a mixture with frequency weights. *)
From Coq Require Import Lqa.
From Verif Require Import Prelude Numpy Rng M_Weights M_Niw M_Utils M_Mix M_Query S_Weights S_Hist S_Mix S_Map S_Chain S_SliceStep S_MixEx S_Oracle S_Sort S_FreqMix P_Lists P_Wp P_Hoare P_Inv P_Complete P_Random P_Tail P_Sticks P_Geom P_Grow P_Fixed P_Bid P_Loglik P_Mix P_MixW P_Mix37 P_Mix33 P_Mix34 P_Mix38 P_Map P_SliceStep P_Chain P_MixEx P_Post P_Sort P_Fail.
Open Scope Q_scope.
Open Scope m_scope.

Definition shares (l : list nat) : list Q := map (fun y => y / qsum (map nq (bincount l))) (map nq (bincount l)).
Definition fq (s s' : ws) : Prop := d s' = d s /\ (w s = shares (d s) -> w s' = shares (d s)).
Lemma freq_random_wp n z o s g : d s <> [] -> wp o (freq_random n z) (fun r s' g' => d s' = d s /\ w s' = shares (d s) /\ r = Ok (w s')) s g.
Proof. intros H. unfold freq_random. wpure. destruct (d s) as [|a t] eqn:E; [congruence|]. cbn [is_nil]. wstep. wstep. simpl. auto. Qed.
Lemma freq_tail_loop n x o fuel : forall s g, d s <> [] -> w s = shares (d s) -> wp o (tail_loop (CFreq n) fuel x) (fun r s' g' => d s' = d s /\ w s' = shares (d s)) s g.
Proof.
  induction fuel; intros s g H Hw; cbn [tail_loop]; wpure; destruct (qltb _ x).
  - unfold wp. auto.
  - wstep. auto.
  - cbn [wm_complete]. apply wp_bind, wp_bind. eapply wp_mono; [apply freq_random_wp, H|]. intros [a|e|] s1 g1 (H1 & H2 & H3); auto; try discriminate. wstep.
    eapply wp_mono; [apply IHfuel; congruence|]. intros r s2 g2. rewrite H1. auto.
  - wstep. auto.
Qed.
Lemma shares_length l : l <> [] -> length (shares l) = S (nmax l).
Proof. intros H. unfold shares. rewrite !map_length. apply bincount_length, H. Qed.
Lemma shares_nonnil l : l <> [] -> is_nil (shares l) = false.
Proof. intros H. pose proof (shares_length l H). destruct (shares l); [discriminate|reflexivity]. Qed.
Lemma freq_tail n x o fuel s g : d s <> [] -> w s = shares (d s) -> wp o (wm_tail (CFreq n) fuel x) (fun r s' g' => d s' = d s /\ w s' = shares (d s)) s g.
Proof.
  intros H Hw. cbn [wm_tail]. unfold base_tail. destruct (_ || _); [wstep; auto|]. wpure. rewrite Hw, shares_nonnil by exact H. wstep.
  apply wp_bind. eapply wp_mono; [apply freq_tail_loop; assumption|]. intros [a|e|] s1 g1 K; auto; wpure; auto.
Qed.
Lemma freq_update_weights n fuel o s g : wp o (update_weights (CFreq n) fuel) (fun r s' g' => r = Ok tt ->
  labels_of s <> [] /\ d (s_wm s') = labels_of s /\ w (s_wm s') = shares (labels_of s)) s g.
Proof.
  unfold update_weights. wpure. unfold wm_fit. apply wp_bind, wp_onw, wp_upd. cbv iota beta.
  set (s1 := upd_wm _ _).
  destruct (s_d s) as [dl|] eqn:Ed.
  2:{ apply wp_bind, wp_onw. eapply wp_mono; [apply wp_any_triv|]. intros [a|e|] x g' _; wsteps; discriminate. }
  assert (El : labels_of s = dl) by (unfold labels_of; rewrite Ed; reflexivity).
  destruct (is_nil dl) eqn:Enil.
  { apply isnil in Enil. subst dl. apply wp_bind, wp_onw. eapply wp_mono; [apply wp_any_triv|]. intros [a|e|] x g' _; try discriminate.
    cbv beta iota. rewrite Enil. simpl gather. cbv iota. wstep. wstep. unfold tail_to_slice. wpure. simpl. wstep. discriminate. }
  apply nonnil in Enil.
  apply wp_bind, wp_onw. cbn [wm_random]. eapply wp_mono; [apply (freq_random_wp n SNone o (s_wm s1) g)|].
  { unfold s1; simpl. rewrite El; exact Enil. }
  intros [a|e|] x g1 (H1 & H2 & H3); try discriminate. unfold s1 in H1, H2. simpl in H1, H2. cbv beta iota.
  destruct (gather a dl) as [wd|] eqn:Eg; [|wstep; discriminate].
  wstep. wstep. unfold tail_to_slice. wpure.
  destruct (is_nil (s_u _)) eqn:Eu; [wstep; discriminate|].
  apply wp_bind, wp_onw. cbn [s_wm upd_u upd_wm]. eapply wp_mono; [apply (freq_tail n _ o fuel x)|]; [rewrite H1, El; exact Enil|congruence|].
  intros [b|e|] x' g2 (K1 & K2); try discriminate. wstep. intros _. simpl. rewrite K1, K2, H1, El. auto.
Qed.
Lemma keeps_step_d E o s g : wp o (update_d E) (fun r s' g' => r = Ok tt -> s_wm s' = s_wm s) s g.
Proof. eapply wp_mono; [apply update_d_scores|]. intros r s' g' H Hr. apply (H Hr). Qed.
Lemma freq_step E n fuel o s g s' g' : gibbs_step E (CFreq n) fuel o s g = (Ok tt, s', g') ->
  labels_of s <> [] /\ d (s_wm s') = labels_of s /\ w (s_wm s') = shares (labels_of s).
Proof.
  intros H. assert (W : wp o (gibbs_step E (CFreq n) fuel) (fun r s' g' => r = Ok tt -> labels_of s <> [] /\ d (s_wm s') = labels_of s /\ w (s_wm s') = shares (labels_of s)) s g).
  2:{ unfold wp in W. rewrite H in W. apply W; reflexivity. }
  unfold gibbs_step, update_all_atoms. wpure.
  eapply wp_call; [apply (keeps_wp o s_d _ s g (keeps_update_atoms s_d (nunique (labels_of s)) ltac:(reflexivity)))| | |]; try discriminate.
  intros [] s1 g1 E1. cbv beta in E1. assert (El : labels_of s1 = labels_of s) by (unfold labels_of; rewrite E1; reflexivity).
  eapply wp_call; [apply (freq_update_weights n fuel o s1 g1)| | |]; try discriminate.
  intros [] s2 g2 E2. rewrite El in E2. eapply wp_mono; [apply keeps_step_d|]. intros r s3 g3 K Hr. rewrite (K Hr). apply E2; reflexivity.
Qed.
Lemma nth_shares l j : l <> [] -> nth j (shares l) 0 == nq (n_eq j l) / nq (length l).
Proof.
  intros H. unfold shares. destruct (le_lt_dec (S (nmax l)) j) as [Hj|Hj].
  - rewrite nth_overflow by (rewrite !map_length, bincount_length by exact H; lia).
    replace (n_eq j l) with 0%nat; [unfold nq; simpl; unfold Qdiv; ring|]. symmetry. apply count_occ_not_In. intros Hi.
    pose proof (proj1 (Forall_forall _ _) (nmax_ge l) j Hi) as Hm. cbv beta in Hm. lia.
  - rewrite map_map. rewrite (nth_map_lt _ _ j 0 0%nat) by (rewrite bincount_length by exact H; lia).
    rewrite bincount_eq at 1 by exact H. rewrite nth_map_seq by lia.
    assert (Eq : qsum (map nq (bincount l)) == nq (length l)); [|rewrite Eq; reflexivity].
    rewrite <- (count_all l). clear. generalize (bincount l). intros m. induction m as [|a t IH]; [reflexivity|].
    cbn [map qsum fold_right nsum]. simpl. rewrite IH. unfold nq. rewrite Nat2Z.inj_add, inject_Z_plus. reflexivity.
Qed.
Lemma c80_step_proof : forall E n fuel o s g s' g', gibbs_step E (CFreq n) fuel o s g = (Ok tt, s', g') ->
  length (w (s_wm s')) = S (list_max (labels_of s)) /\ forall j, nth j (w (s_wm s')) 0 == nq (n_eq j (labels_of s)) / nq (length (labels_of s)).
Proof.
  intros E n fuel o s g s' g' H. destruct (freq_step _ _ _ _ _ _ _ _ H) as (N & _ & ->). split; [rewrite shares_length by exact N; rewrite P_Post.nmax_list_max; reflexivity|].
  intros j. apply nth_shares, N.
Qed.
Lemma unif_nth_nonneg o ab : valid_oracle o -> Forall (fun x => 0 <= fst x /\ fst x <= snd x) ab -> forall i g, 0 <= nth i (fst (unif_draws o ab g)) 0.
Proof.
  intros Ho H. induction H as [|[lo hi] t [H1 H2] _ IH]; intros i g; simpl; [destruct i; apply Qle_refl|].
  destruct i; cbn [nth]; [|apply IH]. cbn [fst snd] in *.
  destruct (Qlt_le_dec lo hi) as [L|L].
  - assert (L' : Qred lo < Qred hi) by (rewrite !Qred_correct; exact L). pose proof (vo_unif o Ho g _ _ L') as [A _]. pose proof (Qred_correct lo) as R1. lra.
  - assert (L' : Qred lo == Qred hi) by (rewrite !Qred_correct; lra). rewrite (vo_unif_eq o Ho g _ _ L'), Qred_correct. exact H1.
Qed.
Lemma c80_labels_proof : forall E n fuel o s g s' g' i, valid_oracle o -> finite_env E -> gibbs_step E (CFreq n) fuel o s g = (Ok tt, s', g') ->
  (i < length (labels_of s'))%nat ->
  In (nth i (labels_of s') 0%nat) (labels_of s) \/
  (nth i (labels_of s') 0%nat = 0%nat /\ forall j, (j < length (w (s_wm s')))%nat -> nth j (w (s_wm s')) 0 <= nth i (s_u s') 0).
Proof.
  intros E n fuel o s g s' g' i Ho HE H Hi. destruct (freq_step _ _ _ _ _ _ _ _ H) as (N & _ & Hw).
  destruct (c78_step_proof _ _ _ _ _ _ _ _ Ho H) as ((gu & Hu) & _).
  assert (P : 0 <= nth i (s_u s') 0).
  { rewrite Hu. apply unif_nth_nonneg; [exact Ho|]. apply Forall_forall. intros [lo hi] Hin. apply in_map_iff in Hin as (j & [= <- <-] & _).
    pose proof (nth_shares (labels_of s) j N) as Hs. rewrite Hw. assert (0 < eps) by reflexivity. assert (0 <= nth j (shares (labels_of s)) 0).
    { rewrite Hs. apply Qle_shift_div_l; [|rewrite Qmult_0_l; apply nq_nonneg]. destruct (labels_of s); [congruence|]. unfold nq. unfold Qlt. simpl. lia. }
    change (1 # (2 ^ 52)) with eps. cbn [fst snd]. lra. }
  destruct (existsb (fun x => qltb (nth i (s_u s') 0) x) (w (s_wm s'))) eqn:Ex.
  - left. apply existsb_exists in Ex as (x & Hx & Hlt). apply qltb_lt in Hlt. apply (In_nth _ _ 0) in Hx as (j & Hj & <-).
    pose proof (c38_respects_proof E (CFreq n) fuel o s g s' g' i Ho HE H Hi (ex_intro _ j (conj Hj Hlt))) as Q.
    set (l := nth i (labels_of s') 0%nat) in *. rewrite Hw, nth_shares in Q by exact N.
    destruct (in_dec Nat.eq_dec l (labels_of s)) as [|NI]; [assumption|]. apply (proj1 (count_occ_not_In Nat.eq_dec _ _)) in NI. unfold n_eq in Q. rewrite NI in Q.
    assert (Z0 : nq 0 / nq (length (labels_of s)) == 0) by (unfold Qdiv; unfold nq at 1; simpl; ring). rewrite Z0 in Q. lra.
  - right. assert (A : forall j, (j < length (w (s_wm s')))%nat -> nth j (w (s_wm s')) 0 <= nth i (s_u s') 0).
    { intros j Hj. destruct (Qlt_le_dec (nth i (s_u s') 0) (nth j (w (s_wm s')) 0)) as [L|L]; [|exact L]. exfalso.
      assert (T : existsb (fun x => qltb (nth i (s_u s') 0) x) (w (s_wm s')) = true); [|congruence].
      apply existsb_exists. exists (nth j (w (s_wm s')) 0). split; [apply nth_In, Hj|apply qltb_lt, L]. }
    split; [|exact A]. exact (c38_above_proof E (CFreq n) fuel o s g s' g' i Ho HE H Hi A).
Qed.
Lemma step_incl E n fuel o s g s' g' : valid_oracle o -> finite_env E -> gibbs_step E (CFreq n) fuel o s g = (Ok tt, s', g') -> incl (labels_of s') (0%nat :: labels_of s).
Proof.
  intros Ho HE H x Hx. apply (In_nth _ _ 0%nat) in Hx as (i & Hi & <-). destruct (c80_labels_proof _ _ _ _ _ _ _ _ _ Ho HE H Hi) as [K|[K _]]; [right; exact K|left; symmetry; exact K].
Qed.
Lemma distinct_incl a b : incl a b -> (distinct a <= distinct b)%nat.
Proof.
  intros H. unfold distinct. apply NoDup_incl_length; [apply NoDup_nodup|]. intros x Hx. apply nodup_In in Hx. apply nodup_In. apply H, Hx.
Qed.
Lemma distinct_cons x l : (distinct (x :: l) <= S (distinct l))%nat.
Proof. unfold distinct. simpl. destruct (in_dec Nat.eq_dec x l); simpl; lia. Qed.
Lemma c80_groups_proof : forall E n fuel o s g s' g', valid_oracle o -> finite_env E -> gibbs_step E (CFreq n) fuel o s g = (Ok tt, s', g') ->
  (distinct (labels_of s') <= S (distinct (labels_of s)))%nat /\ (In 0%nat (labels_of s) -> (distinct (labels_of s') <= distinct (labels_of s))%nat).
Proof.
  intros E n fuel o s g s' g' Ho HE H. pose proof (step_incl _ _ _ _ _ _ _ _ Ho HE H) as I. split.
  - etransitivity; [apply distinct_incl, I|apply distinct_cons].
  - intros H0. apply distinct_incl. intros x Hx. destruct (I x Hx) as [<-|]; assumption.
Qed.
Lemma visit_labels E c o s g p s' g' : visit E c o s g = (Ok p, s', g') -> labels_of s' = labels_of s /\ r_d (fst p) = labels_of s.
Proof.
  intros H. unfold visit in H. apply bind_ok in H as (l & s1 & g1 & H1 & H). injection H as <- <- <-.
  assert (K : s_d s1 = s_d s) by (eapply (keeps_ok s_d); [apply keeps_run_loglik; reflexivity|exact H1]). unfold labels_of. rewrite K. split; [reflexivity|]. cbn [fst r_d get_run_params]. rewrite K. reflexivity.
Qed.
Lemma incl0_trans a b l : incl a (0%nat :: b) -> incl b (0%nat :: l) -> incl a (0%nat :: l).
Proof. intros H1 H2 x Hx. destruct (H1 x Hx) as [<-|Hb]; [left; reflexivity|apply H2, Hb]. Qed.
Lemma visits_incl E n fuel o k : valid_oracle o -> finite_env E -> forall s g tr s1 g1, visits E (CFreq n) fuel k o s g = (Ok tr, s1, g1) ->
  (forall p, In p (map fst tr) -> incl (r_d p) (0%nat :: labels_of s)) /\ shrinking (map fst tr) /\ incl (labels_of s1) (0%nat :: labels_of s).
Proof.
  intros Ho HE. induction k; intros s g tr s1 g1 H; cbn [visits] in H.
  - injection H as <- <- <-. split; [intros p []|]. split; [intros i j p q L Hp; destruct i; discriminate Hp|apply incl_tl, incl_refl].
  - apply bind_ok in H as ([] & a & ga & H1 & H). apply bind_ok in H as (p & b & gb & H2 & H). apply bind_ok in H as (t & c & gc & H3 & H). injection H as <- <- <-.
    pose proof (step_incl _ _ _ _ _ _ _ _ Ho HE H1) as I1. destruct (visit_labels _ _ _ _ _ _ _ _ H2) as [V1 V2].
    destruct (IHk _ _ _ _ _ H3) as (K1 & K2 & K3). rewrite V1 in K1, K3. cbn [map]. split; [|split].
    + intros q [<-|Hq]; [rewrite V2; exact I1|]. eapply incl0_trans; [apply K1, Hq|exact I1].
    + intros i j q q' L Hq Hq'. destruct i; cbn [nth_error] in Hq.
      * injection Hq as <-. rewrite V2. destruct j; [lia|]. cbn [nth_error] in Hq'. apply K1. eapply nth_error_In; exact Hq'.
      * destruct j; [lia|]. cbn [nth_error] in Hq'. eapply (K2 i j); [lia|exact Hq|exact Hq'].
    + eapply incl0_trans; [exact K3|exact I1].
Qed.
Lemma thinned_in b u tr l r : thinned b u tr l -> In r l -> In r (map fst tr).
Proof. intros H Hr. apply In_nth_error in Hr as (k & Hk). rewrite H in Hk. destruct (nth_error tr _) eqn:E; [|discriminate]. injection Hk as <-. apply in_map. eapply nth_error_In; exact E. Qed.
Lemma thinned_shrinking b u tr l : thinned b u tr l -> shrinking (map fst tr) -> shrinking l.
Proof.
  intros H K i j p q L Hp Hq. destruct (Nat.eq_dec (Z.to_nat (Z.abs u)) 0) as [E0|E0].
  - rewrite H in Hp, Hq. rewrite E0 in Hp, Hq. rewrite !Nat.mul_0_r in *. rewrite Hp in Hq. injection Hq as <-. apply incl_tl, incl_refl.
  - rewrite H in Hp, Hq. rewrite <- nth_error_map in Hp, Hq. eapply (K _ _ p q); [|exact Hp|exact Hq]. nia.
Qed.
Lemma run_params_labels s s' : get_run_params s = get_run_params s' -> labels_of s = labels_of s'.
Proof. intros H. exact (f_equal r_d H). Qed.
Lemma init_common_labels y o s g s' g' : init_common y o s g = (Ok tt, s', g') -> labels_of s' = labels_of s.
Proof. intros H. assert (K : s_d s' = s_d s) by (eapply (keeps_ok s_d); [apply (keeps_init_common s_d); reflexivity|exact H]). unfold labels_of. rewrite K. reflexivity. Qed.

Lemma c80_warm_proof : forall E n fuel y ig meth o s g s' g', valid_oracle o -> finite_env E ->
  fit_gibbs E (CFreq n) fuel y ig true meth o s g = (Ok tt, s', g') ->
  exists l, s_sims s' = s_sims s ++ l /\ Forall (fun r => incl (r_d r) (0%nat :: labels_of s)) l /\ shrinking l /\ incl (labels_of s') (0%nat :: labels_of s).
Proof.
  intros E n fuel y ig meth o s g s' g' Ho HE H. destruct (c74_saved_proof _ _ _ _ _ _ _ _ _ _ _ _ H) as (tr & s1 & l & R & L & S1 & T & P).
  exists l. split; [exact S1|]. unfold replay in R. apply bind_ok in R as ([] & a & ga & H1 & R). apply bind_ok in R as (t0 & b & gb & H2 & R). injection H2 as <- <- <-.
  apply bind_ok in R as (t & c & gc & H3 & R). injection R as <- <- <-. simpl in *.
  destruct (visits_incl E n fuel o _ Ho HE _ _ _ _ _ H3) as (K1 & K2 & K3). rewrite (init_common_labels _ _ _ _ _ _ H1) in K1, K3.
  split; [|split]; [|eapply thinned_shrinking; eassumption|rewrite (run_params_labels _ _ P); exact K3].
  apply Forall_forall. intros r Hr. apply K1. eapply thinned_in; eassumption.
Qed.
Lemma c80_one_group_proof : forall E n fuel y ig meth o s g s' g', valid_oracle o -> finite_env E ->
  fit_gibbs E (CFreq n) fuel y ig true meth o s g = (Ok tt, s', g') -> Forall (eq 0%nat) (labels_of s) ->
  exists l, s_sims s' = s_sims s ++ l /\ Forall (fun r => Forall (eq 0%nat) (r_d r)) l /\ Forall (eq 0%nat) (labels_of s').
Proof.
  intros E n fuel y ig meth o s g s' g' Ho HE H F. destruct (c80_warm_proof _ _ _ _ _ _ _ _ _ _ _ Ho HE H) as (l & A & B & _ & D). exists l. split; [exact A|].
  assert (G : forall a, incl a (0%nat :: labels_of s) -> Forall (eq 0%nat) a).
  { intros a I. apply Forall_forall. intros x Hx. destruct (I x Hx) as [<-|Hi]; [reflexivity|]. rewrite Forall_forall in F. apply F, Hi. }
  split; [|apply G, D]. eapply Forall_impl; [|exact B]. intros r. apply G.
Qed.
Lemma c80_cold_proof : forall E n fuel y ig meth o s g s' g', valid_oracle o -> finite_env E ->
  fit_gibbs E (CFreq n) fuel y ig false meth o s g = (Ok tt, s', g') ->
  exists p ll s0 g0, replay E (CFreq n) fuel y ig false meth 0 o s g = (Ok [(p, ll)], s0, g0) /\
    Forall (fun r => incl (r_d r) (0%nat :: r_d p)) (s_sims s') /\ shrinking (s_sims s') /\ incl (labels_of s') (0%nat :: r_d p).
Proof.
  intros E n fuel y ig meth o s g s' g' Ho HE H. destruct (c74_saved_proof _ _ _ _ _ _ _ _ _ _ _ _ H) as (tr & s1 & l & R & L & S1 & T & P).
  unfold replay in R. apply bind_ok in R as ([] & a & ga & H1 & R). apply bind_ok in R as (t0 & b & gb & H2 & R).
  pose proof H2 as H2'. apply bind_ok in H2' as ([] & e & ge & H4 & H5). apply bind_ok in H5 as ([p ll] & f & gf & H6 & H7). injection H7 as <- <- <-.
  apply bind_ok in R as (t & c & gc & H3 & R). injection R as <- <- <-. simpl in S1, T. rewrite S1.
  exists p, ll, f, gf. split.
  { unfold replay. rewrite (ok_bind _ _ _ _ _ _ _ _ H1), (ok_bind _ _ _ _ _ _ _ _ H2). reflexivity. }
  destruct (visit_labels _ _ _ _ _ _ _ _ H6) as [V1 V2]. cbn [fst] in V2. rewrite <- V1 in V2.
  destruct (visits_incl E n fuel o _ Ho HE _ _ _ _ _ H3) as (K1 & K2 & K3). rewrite V2.
  split; [|split]; [|eapply thinned_shrinking; eassumption|rewrite (run_params_labels _ _ P); exact K3].
  apply Forall_forall. intros r Hr. apply K1. eapply thinned_in; eassumption.
Qed.
Lemma distinct_below l k : Forall (fun j => (j < k)%nat) l -> (distinct l <= k)%nat.
Proof.
  intros H. rewrite <- (seq_length k 0). unfold distinct. apply NoDup_incl_length; [apply NoDup_nodup|]. intros x Hx. apply nodup_In in Hx. rewrite Forall_forall in H. apply in_seq. specialize (H x Hx). lia.
Qed.
Lemma init_gibbs_kmeans E c fuel ig o s g s' g' : valid_oracle o -> argsorts (e_argsort E) -> init_gibbs E c fuel ig IKmeans o s g = (Ok tt, s', g') ->
  forall n, s_n s = Some n -> In 0%nat (labels_of s') /\ (distinct (labels_of s') <= Z.to_nat n)%nat.
Proof.
  intros Ho Ha H n Hn. unfold init_gibbs in H.
  apply bind_ok in H as ([] & s1 & g1 & X1 & H). injection X1 as <- <-.
  apply bind_ok in H as ([] & s2 & g2 & X2 & H). injection X2 as <- <-.
  apply bind_ok in H as ([] & s3 & g3 & X3 & H). injection X3 as <- <-.
  apply bind_ok in H as (s4 & s5 & g4 & X4 & H). injection X4 as <- <- <-. cbv zeta in H.
  apply bind_ok in H as ([] & s6 & g6 & X6 & H). injection X6 as <- <-.
  apply bind_ok in H as (u & s7 & g7 & X7 & H). apply bind_ok in H as ([] & s8 & g8 & X8 & H). apply bind_ok in H as ([] & s9 & g9 & X9 & H).
  cbn [s_n upd_gen upd_theta upd_sims] in H. rewrite Hn in H. apply bind_ok in H as ([] & s10 & g10 & X10 & H). apply bind_ok in H as (l & s11 & g11 & X11 & H). injection H as <- <-.
  cbn [labels_of s_d upd_d]. clear - Ho Ha X11.
  destruct (Z_le_dec 1 n) as [L1|L1]; [destruct (Z_le_dec n (Z.of_nat (length (s_y s)))) as [L2|L2]|].
  - destruct (c45_relabel_proof (e_argsort E) _ s10 _ n o g10 Ha (conj L1 L2)) as (l' & El & Pa & Co & _). 
    change (kmeans_cluster_size_biased (e_argsort E) (s_y s) n o s10 g10 = (Ok l, s11, g11)) in X11. rewrite El in X11. injection X11 as -> _ _. cbv zeta in *.
    pose proof (vo_kmeans o Ho g10 (s_y s) (Z.to_nat n) ltac:(lia)) as K. pose proof (vo_kmeans_len o Ho g10 (s_y s) (Z.to_nat n)) as Len.
    set (l0 := o_kmeans o g10 (s_y s) (Z.to_nat n)) in *.
    assert (D0 : (distinct l0 <= Z.to_nat n)%nat) by (apply distinct_below; exact K).
    split; [|etransitivity; [apply distinct_below; apply Forall_forall; intros x Hx; apply Co; exact Hx|exact D0]].
    apply Co. destruct l0 as [|x t]; [simpl in Len; unfold vec in *; lia|]. pose proof (distinct_incl [x] (x :: t) ltac:(intros y [<-|[]]; left; reflexivity)) as Q. change (distinct [x]) with 1%nat in Q. exact Q.
  - change (kmeans_cluster_size_biased (e_argsort E) (s_y s) n o s10 g10 = (Ok l, s11, g11)) in X11. rewrite c45_bad_k_proof in X11 by (unfold vec in *; lia). discriminate.
  - change (kmeans_cluster_size_biased (e_argsort E) (s_y s) n o s10 g10 = (Ok l, s11, g11)) in X11. rewrite c45_bad_k_proof in X11 by (unfold vec in *; lia). discriminate.
Qed.

Lemma c80_kmeans_proof : forall E n fuel y ig o s g s' g', valid_oracle o -> finite_env E -> argsorts (e_argsort E) -> s_n s = Some n ->
  fit_gibbs E (CFreq n) fuel y ig false IKmeans o s g = (Ok tt, s', g') ->
  exists p ll s0 g0, replay E (CFreq n) fuel y ig false IKmeans 0 o s g = (Ok [(p, ll)], s0, g0) /\
    (distinct (r_d p) <= Z.to_nat n)%nat /\
    Forall (fun r => incl (r_d r) (r_d p) /\ (distinct (r_d r) <= distinct (r_d p))%nat) (s_sims s').
Proof.
  intros E n fuel y ig o s g s' g' Ho HE Ha Hn H. destruct (c80_cold_proof _ _ _ _ _ _ _ _ _ _ _ Ho HE H) as (p & ll & s0 & g0 & R & F & _ & _).
  exists p, ll, s0, g0. split; [exact R|].
  assert (K : In 0%nat (r_d p) /\ (distinct (r_d p) <= Z.to_nat n)%nat).
  { unfold replay in R. apply bind_ok in R as ([] & a & ga & H1 & R). apply bind_ok in R as (t0 & b & gb & H2 & R).
    apply bind_ok in H2 as ([] & e & ge & H4 & H5). apply bind_ok in H5 as ([p' ll'] & f & gf & H6 & H7). injection H7 as <- <- <-.
    apply bind_ok in R as (t & c & gc & H3 & R). injection H3 as <- <- <-. cbn [app] in R. inversion R; subst p' ll'. clear R.
    destruct (visit_labels _ _ _ _ _ _ _ _ H6) as [_ V2]. cbn [fst] in V2. rewrite V2. eapply (init_gibbs_kmeans E); [exact Ho|exact Ha|exact H4|].
    rewrite <- Hn. eapply (keeps_ok s_n); [apply (keeps_init_common s_n); reflexivity|exact H1]. }
  destruct K as [K0 K1]. split; [exact K1|]. eapply Forall_impl; [|exact F]. intros r I.
  assert (J : incl (r_d r) (r_d p)) by (intros x Hx; destruct (I x Hx) as [<-|]; assumption). split; [exact J|apply distinct_incl, J].
Qed.

(* the Dirichlet process does open groups *)
Definition o_open : oracle := ex_oracle (1 # 2) (fun g => if Nat.leb (length g) 20 then 9 # 10 else 1 # 8) true (fun _ => 0%nat).
Lemma o_open_valid : valid_oracle o_open.
Proof. apply ex_oracle_valid; [split; discriminate|]. intros g. destruct (Nat.leb _ _); split; discriminate || reflexivity. Qed.
Lemma c80_dp_opens_proof : exists E fuel o s g s' g' al y, valid_oracle o /\ finite_env E /\
  Forall (eq 0%nat) (labels_of s) /\ labels_of s <> [] /\
  fit_gibbs E (CDP al) fuel y SNone true IKmeans o s g = (Ok tt, s', g') /\ ~ incl (labels_of s') (0%nat :: labels_of s).
Proof.
  set (q := ex_run flat_env (CDP 1) 0 1 0 1 o_open [cold y4]). vm_compute in q.
  exists flat_env, 60%nat, o_open, (fst q), (snd q). eexists _, _. exists 1, y4. split; [apply o_open_valid|]. split; [apply flat_finite|].
  split; [repeat constructor|]. split; [discriminate|]. split; [vm_compute; reflexivity|]. intros I. specialize (I 2%nat (or_introl eq_refl)).
  repeat (destruct I as [I|I]; [discriminate I|]). destruct I.
Qed.
Definition o_lose : oracle := ex_oracle (1 # 2) (fun g => if Nat.leb (length g) 20 then 9 # 10 else 1 # 8) true by_sign.
Lemma o_lose_valid : valid_oracle o_lose.
Proof. apply ex_oracle_valid; [split; discriminate|]. intros g. destruct (Nat.leb _ _); split; discriminate || reflexivity. Qed.
(* a fit that loses a group *)
Lemma lose_example : let q := ex_run sorted_env (CFreq 3) 3 2 0 1 o_lose [cold y4] in
  ex_out (ex_last sorted_env (CFreq 3) 3 2 0 1 o_lose [] (cold y4)) = Ok tt /\ s_n (fst q) = Some 3%Z /\
  map r_d (s_sims (fst q)) = [[1; 0; 0; 0]; [1; 1; 1; 1]]%nat /\
  ex_out (ex_last sorted_env (CFreq 3) 3 2 0 1 o_lose [cold y4] (MGibbs y4 SNone true IKmeans)) = Ok tt.
Proof. vm_compute. repeat split; reflexivity. Qed.
Lemma zero_example : let q := ex_run flat_env (CFreq 3) 3 2 0 1 o_open [cold y4] in
  labels_of (fst q) = [0; 0; 0; 0]%nat /\ ex_out (ex_last flat_env (CFreq 3) 3 2 0 1 o_open [cold y4] (MGibbs y4 SNone true IKmeans)) = Ok tt.
Proof. vm_compute. repeat split; reflexivity. Qed.
