(* Labels with NaN or infinite densities (C90), an affinity matrix of another
   size (C91), an object fitted without a sweep (C92). *)
From Verif Require Import Prelude Numpy Rng M_Weights M_Niw M_Utils M_Mix M_Query S_Oracle S_Mix S_Flags S_SliceStep S_MixEx S_Odd P_Lists P_Wp P_Mix P_Mix33 P_Mix37 P_Map P_Fail P_Shape P_SliceStep P_MixEx P_Warm.
Open Scope Q_scope.
Open Scope m_scope.

Lemma index_where_first {A} (f : A -> bool) (x : A) : (forall y, f y = true <-> y = x) -> forall l i, index_where f l = Some i -> first_at x l i.
Proof.
  intros F. induction l as [|y t IH]; intros i H; [discriminate|]. cbn [index_where] in H. destruct (f y) eqn:Ef.
  - injection H as <-. apply F in Ef as ->. split; [reflexivity|]. intros i Hi; lia.
  - destruct (index_where f t) as [k|] eqn:Ek; [|discriminate]. injection H as <-. destruct (IH k eq_refl) as [H1 H2]. split; [exact H1|].
    intros [|i] Hi; cbn [nth_error]; [|apply H2; lia]. intros [= ->]. assert (K : f x = true) by (apply F; reflexivity). congruence.
Qed.
Lemma index_where_none {A} (f : A -> bool) (x : A) : (forall y, f y = true <-> y = x) -> forall l, index_where f l = None -> ~ In x l.
Proof.
  intros F. induction l as [|y t IH]; intros H; [intros []|]. cbn [index_where] in H. destruct (f y) eqn:Ef; [discriminate|].
  destruct (index_where f t) eqn:Ek; [discriminate|]. intros [->|K]; [|exact (IH eq_refl K)]. assert (K : f x = true) by (apply F; reflexivity). congruence.
Qed.
Lemma pick_chosen o g ls : valid_oracle o -> chosen ls (pick_label ls (o_gumbel o g (map (fun l => negb (lx_is_neg l)) ls))).
Proof.
  intros Ho. unfold pick_label.
  assert (F1 : forall y, (match y with LNan => true | _ => false end) = true <-> y = LNan) by (intros []; split; congruence).
  assert (F2 : forall y, (match y with LPos => true | _ => false end) = true <-> y = LPos) by (intros []; split; congruence).
  destruct (index_where _ ls) as [i|] eqn:E1; [apply chosen_nan; exact (index_where_first _ _ F1 _ _ E1)|].
  pose proof (index_where_none _ _ F1 _ E1) as N1.
  destruct (index_where (fun x => match x with LPos => true | _ => false end) ls) as [i|] eqn:E2; [apply chosen_pos; [exact N1|exact (index_where_first _ _ F2 _ _ E2)]|].
  pose proof (index_where_none _ _ F2 _ E2) as N2.
  destruct (forallb lx_is_neg ls) eqn:E3.
  - apply chosen_none; [|reflexivity]. intros x Hx. rewrite forallb_forall in E3. specialize (E3 x Hx). destruct x; try discriminate; reflexivity.
  - apply forallb_false_in in E3 as (x & Hx & E3). set (ok := map _ ls).
    assert (T : In true ok) by (apply in_map_iff; exists x; rewrite E3; auto).
    pose proof (vo_gumbel o Ho g ok T) as G. pose proof (gumbel_lt o g ok Ho T) as L. set (j := o_gumbel o g ok) in *. unfold ok in L. rewrite map_length in L.
    destruct (nth_error ls j) as [y|] eqn:Ey; [|apply nth_error_None in Ey; lia].
    assert (Y : nth j ok false = negb (lx_is_neg y)) by (unfold ok; apply nth_error_nth; exact (map_nth_error (fun l => negb (lx_is_neg l)) _ _ Ey)).
    rewrite Y in G. pose proof (nth_error_In _ _ Ey) as Hy. destruct y as [q| | |]; [exact (chosen_finite ls j q N1 N2 Ey)|contradiction|discriminate G|contradiction].
Qed.
Lemma scores_unique E s i a b : scores_at E s i a -> scores_at E s i b -> a = b.
Proof.
  intros [L1 H1] [L2 H2]. apply (nth_ext _ _ LNan LNan); [congruence|]. intros j Hj.
  destruct (H1 j Hj) as (x & l & X1 & X2 & ->). destruct (H2 j ltac:(congruence)) as (x' & l' & Y1 & Y2 & ->). rewrite X1 in Y1. injection Y1 as <-. rewrite X2 in Y2. injection Y2 as <-. reflexivity.
Qed.
Lemma c90_chosen_proof E c fuel o s g s' g' i ls : valid_oracle o -> gibbs_step E c fuel o s g = (Ok tt, s', g') -> (i < length (labels_of s'))%nat ->
  scores_at E s' i ls -> chosen ls (nth i (labels_of s') 0%nat).
Proof.
  intros Ho H Hi Sc. destruct (c78_step_proof _ _ _ _ _ _ _ _ Ho H) as [_ K]. destruct (K i Hi) as (ls' & gi & Sc' & ->).
  rewrite (scores_unique _ _ _ _ _ Sc Sc'). apply pick_chosen. exact Ho.
Qed.
Lemma c90_scores_proof E c fuel o s g s' g' i : valid_oracle o -> gibbs_step E c fuel o s g = (Ok tt, s', g') -> (i < length (labels_of s'))%nat -> exists ls, scores_at E s' i ls.
Proof. intros Ho H Hi. destruct (c78_step_proof _ _ _ _ _ _ _ _ Ho H) as [_ K]. destruct (K i Hi) as (ls' & gi & Sc' & _). eauto. Qed.
(* a density that is NaN, or +inf below the slice, gives a NaN score *)
Lemma c90_below_proof E c fuel o s g s' g' i j a l : valid_oracle o -> gibbs_step E c fuel o s g = (Ok tt, s', g') -> (i < length (labels_of s'))%nat -> (j < length (w (s_wm s')))%nat ->
  lookup j (s_theta s') = Some a -> e_logpdf E (s_y s') a = Ok l ->
  nth i l LNan = LNan \/ (nth i l LNan = LPos /\ nth j (w (s_wm s')) 0 <= nth i (s_u s') 0) ->
  (nth i (labels_of s') 0 <= j)%nat.
Proof.
  intros Ho H Hi Hj Ha Hl D. destruct (c90_scores_proof _ _ _ _ _ _ _ _ _ Ho H Hi) as (ls & Sc). pose proof (c90_chosen_proof _ _ _ _ _ _ _ _ _ _ Ho H Hi Sc) as C.
  destruct Sc as [L K]. destruct (K j ltac:(lia)) as (a' & l' & X1 & X2 & X3). rewrite Ha in X1. injection X1 as <-. rewrite Hl in X2. injection X2 as <-.
  assert (N : nth_error ls j = Some LNan).
  { rewrite (nth_error_nth' ls LNan) by lia. rewrite X3. destruct D as [->|[-> D]]; [destruct (qltb _ _); reflexivity|]. apply qltb_ge in D. rewrite D. reflexivity. }
  pose proof (nth_error_In _ _ N) as I. destruct C as [[_ C]|C _|q C _ _|C _]; [|contradiction|contradiction|discriminate (C _ I)].
  destruct (Nat.le_gt_cases (nth i (labels_of s') 0%nat) j) as [X|X]; [exact X|]. destruct (C j X N).
Qed.

(* ---- C91 ---- *)
Lemma burn_facts E c fuel o n : valid_oracle o -> forall s g r s' g', burn_loop E c fuel n o s g = (r, s', g') ->
  (s_aff s', s_saved s', s_sims s', s_groups s', length (labels_of s')) = (s_aff s, s_saved s, s_sims s, s_groups s, length (labels_of s)).
Proof.
  intros Ho. induction n as [|n IH]; intros s g r s' g' H; cbn [burn_loop] in H; [injection H as _ <- _; reflexivity|].
  unfold bind in H. pose proof (sweep_len E c fuel o s g Ho) as L. unfold wp in L.
  destruct (sweep E c fuel o s g) as [[x t] h] eqn:Es.
  pose proof (keeps_ok (fun s => (s_aff s, s_saved s, s_sims s, s_groups s)) _ _ _ _ _ _ _ (keeps_sweep (fun s => (s_aff s, s_saved s, s_sims s, s_groups s)) E c fuel ltac:(reflexivity) ltac:(reflexivity) ltac:(reflexivity) ltac:(reflexivity) ltac:(reflexivity)) Es) as K.
  injection K as K1 K2 K3 K4. destruct x as [[]|e|]; [|injection H as <- <- <-; rewrite K1, K2, K3, K4, L; reflexivity..].
  rewrite (IH _ _ _ _ _ H), K1, K2, K3, K4, L. reflexivity.
Qed.
Lemma c91_stuck_proof E c fuel y ig meth o s g r s' g' : valid_oracle o -> length (s_aff s) <> length (labels_of s) -> (0 < s_total s - s_burn s)%Z ->
  fit_gibbs E c fuel y ig true meth o s g = (r, s', g') ->
  is_ok r = false /\ s_saved s' = s_saved s /\ s_aff s' = s_aff s /\
  (s_sims s' = s_sims s \/ (r = Err ValueError /\ length (s_sims s') = S (length (s_sims s)) /\ length (s_groups s') = S (length (s_groups s)))).
Proof.
  intros Ho La Hn H. unfold fit_gibbs in H. unfold bind at 1 in H. destruct (init_common y o s g) as [[x s1] g1] eqn:I.
  set (f := fun s => (s_aff s, s_saved s, s_sims s, s_groups s, labels_of s, s_total s, s_burn s)).
  assert (K : f s1 = f s) by (eapply (keeps_ok f); [apply keeps_init_common; reflexivity|exact I]). injection K as K1 K2 K3 K4 K5 K6 K7.
  destruct x as [[]|e|]; [|injection H as <- <- <-; rewrite K1, K2, K3; auto..].
  change ((burn_loop E c fuel (Z.to_nat (s_burn s1)) ;; train_loop E c fuel (Z.to_nat (s_total s1 - s_burn s1)) 0 ;; upd (fun s => upd_flags true (s_vfit s) (s_vconv s) s)) o s1 g1 = (r, s', g')) in H.
  unfold bind at 1 in H. destruct (burn_loop E c fuel _ o s1 g1) as [[x s2] g2] eqn:B.
  pose proof (burn_facts _ _ _ _ _ Ho _ _ _ _ _ B) as Bf. injection Bf as B1 B2 B3 B4 B5.
  destruct x as [[]|e|]; [|injection H as <- <- <-; rewrite B1, B2, B3, K1, K2, K3; auto..].
  destruct (Z.to_nat (s_total s1 - s_burn s1)) as [|n] eqn:En; [rewrite K6, K7 in En; lia|]. cbn [train_loop] in H. unfold bind at 1 2 in H.
  pose proof (sweep_len E c fuel o s2 g2 Ho) as L. unfold wp in L. destruct (sweep E c fuel o s2 g2) as [[x s3] g3] eqn:Es.
  pose proof (keeps_ok (fun s => (s_aff s, s_saved s, s_sims s, s_groups s)) _ _ _ _ _ _ _ (keeps_sweep (fun s => (s_aff s, s_saved s, s_sims s, s_groups s)) E c fuel ltac:(reflexivity) ltac:(reflexivity) ltac:(reflexivity) ltac:(reflexivity) ltac:(reflexivity)) Es) as S3.
  injection S3 as S1 S2 S3 S4.
  destruct x as [[]|e|]; [|injection H as <- <- <-; rewrite S1, S2, S3, B1, B2, B3, K1, K2, K3; auto..].
  unfold bind at 1 in H. cbv beta iota delta [get] in H. destruct (s_sub s3 =? 0)%Z.
  { injection H as <- <- <-. rewrite S1, S2, S3, B1, B2, B3, K1, K2, K3; auto. }
  rewrite Zmod_0_l in H. cbn [Z.eqb] in H.
  assert (Sv : save_params o s3 g3 = (Err ValueError, upd_sims (s_saved s3) (s_sims s3 ++ [get_run_params s3]) (s_groups s3 ++ [length (nunique (labels_of s3))]) (s_atoms s3 ++ [length (s_theta s3)]) s3, g3)).
  { unfold save_params, bind, upd, get. cbn [s_aff upd_sims]. change (labels_of (upd_sims _ _ _ _ s3)) with (labels_of s3).
    destruct (Nat.eqb_spec (length (s_aff s3)) (length (labels_of s3))) as [X|_]; [|reflexivity]. exfalso. apply La. rewrite S1, B1, K1 in X. congruence. }
  unfold bind at 1 in H. rewrite Sv in H. injection H as <- <- <-. split; [reflexivity|]. cbn [s_saved s_aff s_sims s_groups upd_sims].
  split; [congruence|]. split; [congruence|]. right. split; [reflexivity|]. rewrite !app_length, S3, S4, B3, B4, K3, K4. simpl. lia.
Qed.

(* ---- C92 ---- *)
Lemma c92_no_sweep_proof E c fuel y ig meth o s g : is_data y = true -> has_nu s y -> (s_burn s <= 0)%Z -> (s_total s <= s_burn s)%Z ->
  exists s', fit_gibbs E c fuel y ig true meth o s g = (Ok tt, s', g) /\ s_gfit s' = true /\ s_y s' = rows_of y /\ s_sims s' = s_sims s /\ s_map s' = s_map s /\ s_d s' = s_d s.
Proof.
  intros D N Hb Ht. destruct (init_common_ok y o s g D N) as (s1 & I). pose proof (init_common_shape _ _ _ _ _ _ I) as (_ & Y & _).
  pose proof (warm_settings _ _ _ _ _ _ I) as K. injection K as K1 K2 K3 K4 K5 K6 K7.
  assert (Km : s_map s1 = s_map s) by (eapply (keeps_ok s_map); [apply (keeps_init_common s_map); reflexivity|exact I]).
  unfold fit_gibbs. rewrite (ok_bind _ _ _ _ _ _ _ _ I). 
  change (exists s', (burn_loop E c fuel (Z.to_nat (s_burn s1)) ;; train_loop E c fuel (Z.to_nat (s_total s1 - s_burn s1)) 0 ;; upd (fun s => upd_flags true (s_vfit s) (s_vconv s) s)) o s1 g = (Ok tt, s', g) /\
    s_gfit s' = true /\ s_y s' = rows_of y /\ s_sims s' = s_sims s /\ s_map s' = s_map s /\ s_d s' = s_d s).
  rewrite K1, K2. replace (Z.to_nat (s_burn s)) with 0%nat by lia. replace (Z.to_nat (s_total s - s_burn s)) with 0%nat by lia. cbn [burn_loop train_loop].
  eexists. split; [reflexivity|]. cbn. auto.
Qed.
Lemma c92_queries_proof QE s : s_gfit s = true -> s_map s = None -> s_sims s = [] -> forall y x, cast_obs s y = Ok x ->
  (forall dim comp, gibbs_map_density QE s y dim comp = Err TypeError) /\ gibbs_map_cluster QE s y = Err TypeError /\
  forall dim comp periods, gibbs_eap_density QE s y dim comp periods = Ok None.
Proof.
  intros F Hm Hs y x Hx. unfold gibbs_map_density, gibbs_map_cluster, gibbs_eap_density. rewrite F, Hx. cbn [negb rbind]. unfold get_map. rewrite Hm.
  split; [reflexivity|]. split; [reflexivity|]. intros dim comp periods. rewrite Hs.
  assert (L : last_periods (@nil rparams) periods = []).
  { unfold last_periods. destruct periods as [p|]; [|reflexivity]. destruct (_ <=? 0)%Z; [destruct (Z.to_nat _); reflexivity|]. cbn [length]. simpl. reflexivity. }
  rewrite L. reflexivity.
Qed.
Lemma c90_label_proof E c fuel o s g s' g' i : valid_oracle o -> gibbs_step E c fuel o s g = (Ok tt, s', g') -> (i < length (labels_of s'))%nat ->
  (exists ls, scores_at E s' i ls) /\ forall ls, scores_at E s' i ls -> chosen ls (nth i (labels_of s') 0%nat).
Proof. intros Ho H Hi. split; [exact (c90_scores_proof _ _ _ _ _ _ _ _ _ Ho H Hi)|]. intros ls. exact (c90_chosen_proof _ _ _ _ _ _ _ _ _ _ Ho H Hi). Qed.
Lemma c91_refuted_proof :
  exists E c fuel o s0 g0 s1 g1 s2 g2 s3 g3, valid_oracle o /\ new_mix c 0 0 None 1 None None 3 1 1 o = Ok (s0, g0) /\
  fit_gibbs E c fuel y3 SNone false IKmeans o s0 g0 = (Ok tt, s1, g1) /\
  fit_gibbs E c fuel y4 (SInt 9) false IKmeans o s1 g1 = (Err ValueError, s2, g2) /\
  fit_gibbs E c fuel y3 SNone true IKmeans o s2 g2 = (Err ValueError, s3, g3) /\
  length (s_aff s2) = 4%nat /\ length (labels_of s2) = 3%nat /\ length (s_sims s3) = 1%nat /\ s_saved s3 = 0%nat.
Proof.
  exists flat_env, (CDP 1), 60%nat, o_half. eexists _, _, _, _, _, _, _, _. split; [exact o_half_valid|]. split; [vm_compute; reflexivity|].
  split; [vm_compute; reflexivity|]. split; [vm_compute; reflexivity|]. split; [vm_compute; reflexivity|]. repeat split.
Qed.
(* the density is NaN at 2 and +inf at 3 *)
Definition nan_env : env := ex_env (fun r _ => if Qeq_bool (vat r 0) 2 then LNan else if Qeq_bool (vat r 0) 3 then LPos else LQ 0).
Definition nan_pre : ms * rng := ex_run flat_env (CDP 1) 0 3 1 1 o_half [MGibbs y3 SNone false IKmeans].
Definition nan_step : res unit * ms * rng := gibbs_step nan_env (CDP 1) 60 o_half (fst nan_pre) (snd nan_pre).
Lemma nan_step_ok : gibbs_step nan_env (CDP 1) 60 o_half (fst nan_pre) (snd nan_pre) = (Ok tt, snd (fst nan_step), snd nan_step).
Proof.
  assert (X : fst (fst nan_step) = Ok tt) by (vm_compute; reflexivity).
  transitivity nan_step; [unfold nan_step; reflexivity|]. rewrite <- X. generalize nan_step. intros [[x1 x2] x3]. reflexivity.
Qed.
