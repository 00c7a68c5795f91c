(* Labels index existing weights and respect the slice. *)
From Coq Require Import Lqa.
From Verif Require Import Prelude Numpy Rng M_Weights M_Niw M_Utils M_Mix M_Query S_Weights S_Hist S_Mix P_Lists P_Wp P_Hoare P_Inv P_Complete P_Random P_Tail P_Sticks P_Geom P_Grow P_Fixed P_Bid P_Loglik P_Mix P_MixW P_Mix37 P_Mix33 P_Mix34.
Open Scope Q_scope.
Open Scope m_scope.

Lemma c37_labels_proof : forall E c fuel o s g s' g', valid_oracle o -> sweep E c fuel o s g = (Ok tt, s', g') ->
  length (labels_of s') = length (s_y s') /\ Forall (fun j => (j < length (w (s_wm s')))%nat) (labels_of s').
Proof.
  intros E c fuel o s g s' g' Ho H. pose proof (sweep_wp E c fuel o s g Ho) as W. unfold wp in W. rewrite H in W.
  specialize (W eq_refl). split; [|apply (sw_lt _ _ _ W)].
  rewrite (sw_len _ _ _ W).
  assert (K : keeps s_y (sweep E c fuel)).
  { unfold sweep. apply keeps_bind; [apply (keeps_gibbs_step s_y); reflexivity|intros _; apply (keeps_update_map s_y); reflexivity]. }
  specialize (K o s g). rewrite H in K. simpl in K. congruence.
Qed.
Lemma c37_step_proof : forall E c fuel o s g s' g', valid_oracle o -> gibbs_step E c fuel o s g = (Ok tt, s', g') ->
  length (labels_of s') = length (s_y s) /\ Forall (fun j => (j < length (w (s_wm s')))%nat) (labels_of s').
Proof.
  intros E c fuel o s g s' g' Ho H. pose proof (gibbs_step_wp E c fuel o s g Ho) as W. unfold wp in W. rewrite H in W.
  specialize (W eq_refl). split; [apply (sw_len _ _ _ W)|apply (sw_lt _ _ _ W)].
Qed.
(* the next slice update *)
Lemma c37_slice_proof : forall E c fuel o s g s' g' x s2 g2, valid_oracle o -> sweep E c fuel o s g = (Ok tt, s', g') ->
  (onw (wm_fit (labels_of s')) ;; onw (wm_random c SNone)) o s' g' = (Ok x, s2, g2) ->
  Forall (fun j => (j < length x)%nat) (labels_of s').
Proof.
  intros E c fuel o s g s' g' x s2 g2 Ho H H2. pose proof (sweep_wp E c fuel o s g Ho) as W. unfold wp in W. rewrite H in W.
  specialize (W eq_refl).
  assert (Hne : labels_of s' <> []).
  { intros K. pose proof (sw_len _ _ _ W) as L. pose proof (sw_oldlen _ _ _ W) as L2. pose proof (sw_old _ _ _ W) as L3. rewrite K in L. rewrite <- L in L2. destruct (labels_of s); [congruence|discriminate]. }
  pose proof (sw_full _ _ _ W) as F. pose proof (sw_lt _ _ _ W) as L.
  unfold bind, onw, wm_fit, upd in H2. simpl in H2.
  pose proof (random_full c o (set_d (labels_of s') (s_wm s')) g' Ho Hne) as R. unfold wp in R.
  destruct (wm_random c SNone o (set_d (labels_of s') (s_wm s')) g') as [[[a|e|] x'] g3] eqn:ER; try discriminate.
  injection H2 as -> _ _. destruct (R x eq_refl) as (R1 & R2 & R3 & R4).
  destruct c; try (specialize (R4 ltac:(discriminate)); rewrite R2; apply Forall_forall; intros j Hj; pose proof (nmax_ge (labels_of s')) as M; rewrite Forall_forall in M; specialize (M j Hj); simpl in *; lia).
  (* equal weights *)
  simpl in ER. unfold eq_random, repeat_inv, bind, get in ER. simpl in ER.
  destruct F as [_ (_ & F1 & F2)]. rewrite F2, repeat_length in L.
  destruct (wn (s_wm s') =? 0)%Z; [discriminate|]. destruct (wn (s_wm s') <? 0)%Z; [discriminate|]. injection ER as <- _ _.
  rewrite repeat_length. exact L.
Qed.

Lemma draw_niw_noindex {S} o h (s : S) g : draws_no_index o -> wp o (draw_niw h) (fun r _ _ => r <> Err IndexError) s g.
Proof.
  intros [N1 N2]. unfold wp, draw_niw, bind, invw1, mvn1. cbv zeta. 
  match goal with |- context [o_invw o g ?a ?b] => specialize (N1 g a b); destruct (o_invw o g a b) end; [|simpl; congruence].
  simpl. destruct (Qeq_bool _ 0); [simpl; discriminate|]. simpl.
  match goal with |- context [o_mvn o ?g ?a ?b] => specialize (N2 g a b); destruct (o_mvn o g a b) end; simpl; [discriminate|congruence].
Qed.
Lemma prior_niw_err s e : prior_niw s = Err e -> e = ValueError.
Proof. unfold prior_niw. destruct (s_mu s), (s_psi s), (s_nu s); congruence. Qed.
Lemma get_atom_noindex o j s g : draws_no_index o -> wp o (get_atom j) (fun r _ _ => r <> Err IndexError) s g.
Proof.
  intros N. unfold get_atom. wpure. destruct (lookup j (s_theta s)); [wstep; discriminate|]. destruct (s_gen s); [|wstep; discriminate].
  apply wp_bind. unfold prior_atom. wpure. apply wp_bind, wp_of_res. destruct (prior_niw s) eqn:E; [|apply prior_niw_err in E; subst; discriminate|discriminate].
  eapply wp_mono; [apply draw_niw_noindex; exact N|]. intros [x|e|] s1 g1 H; [|exact H|exact H]. wsteps. all: discriminate.
Qed.
Lemma y_loglik_noindex E o js : draws_no_index o -> env_no_index E -> forall acc s g, length (labels_of s) = length (s_y s) ->
  wp o (y_loglik E js acc) (fun r _ _ => r <> Err IndexError) s g.
Proof.
  intros N NE. induction js as [|j t IH]; intros acc s g EL; simpl; [wstep; discriminate|].
  unfold masked. wpure. rewrite EL, Nat.eqb_refl. wpure. 
  pose proof (keeps_wp o (fun s => (s_d s, s_y s)) _ s g (keeps_get_atom (fun s => (s_d s, s_y s)) j ltac:(reflexivity))) as K.
  apply wp_bind. eapply wp_mono; [apply wp_and; [exact K|apply get_atom_noindex; exact N]|].
  intros [a|e|] s1 g1 [K1 K2]; [|intros [= ->]; congruence|discriminate]. injection K1 as K1 K3.
  apply wp_bind, wp_of_res. pose proof (NE (select j (labels_of s) (s_y s)) a) as H. destruct (e_logpdf E _ a) as [l|e|]; [|intros [= ->]; congruence|discriminate].
  apply IH. unfold labels_of in *. rewrite K1, K3. exact EL.
Qed.
Lemma complete_noindex c o k x g : wfull c x ->
  wp o (wm_complete c (SNp64 (Z.of_nat k + 1))) (fun r x' g' => r <> Err IndexError) x g.
Proof.
  intros [Hn Hx]. destruct (growing c) eqn:Hg.
  - eapply growing_complete_noindex; [exact Hg|reflexivity|]. intros q al -> [Hv _].
    apply Hn. destruct (w x) eqn:E; [reflexivity|]. pose proof (coherent_len _ _ Hx) as L. rewrite E, Hv in L. discriminate.
  - destruct c; try discriminate Hg; simpl wm_complete.
    + unfold dd_complete, dd_random. wsteps; discriminate.
    + unfold eq_random, repeat_inv. wsteps; discriminate.
    + unfold freq_random, repeat_inv. wsteps; discriminate.
Qed.
Lemma c37_likelihood_proof : forall E c fuel o s g s' g', valid_oracle o -> draws_no_index o -> env_no_index E ->
  gibbs_step E c fuel o s g = (Ok tt, s', g') -> fst (fst (run_loglik E c o s' g')) <> Err IndexError.
Proof.
  intros E c fuel o s g s' g' Ho N NE H. pose proof (gibbs_step_wp E c fuel o s g Ho) as W. unfold wp in W. rewrite H in W.
  specialize (W eq_refl).
  assert (Ky : keeps s_y (gibbs_step E c fuel)) by (apply (keeps_gibbs_step s_y); reflexivity).
  specialize (Ky o s g). rewrite H in Ky. simpl in Ky.
  pose proof (sw_len _ _ _ W) as Ln. rewrite <- Ky in Ln.
  assert (Hne : labels_of s' <> []).
  { intros K. pose proof (sw_oldlen _ _ _ W) as L2. pose proof (sw_old _ _ _ W) as L3. rewrite K, Ky in Ln. rewrite <- Ln in L2. destruct (labels_of s); [congruence|discriminate]. }
  assert (X : wp o (run_loglik E c) (fun r _ _ => r <> Err IndexError) s' g').
  2:{ unfold wp in X. destruct (run_loglik E c o s' g') as [[r x] y]. exact X. }
  unfold run_loglik. wpure.
  pose proof (keeps_wp o (fun s => (s_wm s, s_d s)) _ s' g' (keeps_y_loglik (fun s => (s_wm s, s_d s)) E (nunique (labels_of s')) (LQ 0) ltac:(reflexivity))) as W1.
  eapply wp_call; [apply wp_and; [exact W1|apply y_loglik_noindex; eassumption]| | |]; try discriminate; [|intros e ? ? [_ K]; intros [= ->]; congruence].
  intros a s1 g1 [E1 _]. injection E1 as Ewm Ed. apply wp_bind, wp_onw. rewrite Ewm.
  eapply wp_mono; [apply wp_and; [apply (assign_full c o _ _ g1 (sw_full _ _ _ W) (sw_lt _ _ _ W) Hne)|apply wp_any_triv]|].
  intros [b|e|] x g2 [[_ H1] _]; [wstep; discriminate| |discriminate]. intros [= ->]. specialize (H1 eq_refl).
  pose proof (complete_noindex c o (nmax (labels_of s')) (s_wm s') g1 (sw_full _ _ _ W)) as Cn. unfold wp in Cn. rewrite H1 in Cn. congruence.
Qed.

(* ---- slice ---- *)
Lemma logpdf_rows_from E o js : forall s g, wp o (logpdf_rows E js) (fun r s' g' => forall ll, r = Ok ll ->
   Forall (fun l => exists a, e_logpdf E (s_y s) a = Ok l) ll) s g.
Proof.
  induction js as [|j t IH]; intros s g; simpl.
  - wstep. intros l [= <-]. constructor.
  - eapply wp_call; [apply (keeps_wp o s_y _ s g (keeps_get_atom s_y j ltac:(reflexivity)))| | |]; try discriminate.
    intros a s1 g1 E1. cbv beta in E1. wpure. apply wp_bind, wp_of_res.
    destruct (e_logpdf E (s_y s1) a) as [l0|e|] eqn:El; try discriminate.
    apply wp_bind. eapply wp_mono; [apply IH|]. intros [l|e|] s2 g2 H; try discriminate. wstep. intros l1 [= <-].
    constructor; [rewrite <- E1; eauto|]. rewrite <- E1. apply H; reflexivity.
Qed.
Definition label_rows (E : env) (s s' : ms) (o : oracle) : Prop :=
  exists ll g1, length ll = length (w (s_wm s')) /\ Forall (fun l => exists a, e_logpdf E (s_y s) a = Ok l) ll /\
    labels_of s' = label_answers o g1 (logit_rows ll (w (s_wm s')) (s_u s') (length (s_y s))).
Lemma update_d_rows E o s g : wp o (update_d E) (fun r s' g' => r = Ok tt -> label_rows E s s' o) s g.
Proof.
  unfold update_d. wpure. set (k := length (w (s_wm s))).
  pose proof (keeps_wp o _ _ s g (keeps_logpdf_rows (fun s => (s_wm s, s_y s, s_u s)) E (seq 0 k) ltac:(reflexivity))) as W1.
  pose proof (logpdf_rows_wp E o (seq 0 k) s g) as W2. pose proof (logpdf_rows_from E o (seq 0 k) s g) as W3.
  apply wp_bind. unfold wp in W1, W2, W3. unfold wp at 1. destruct (logpdf_rows E (seq 0 k) o s g) as [[[ll|e|] s1] g1]; try discriminate.
  destruct (W2 ll eq_refl) as [W4 W5]. injection W1 as Ewm Ey Eu. rewrite seq_length in W5. specialize (W3 ll eq_refl).
  cbv zeta. destruct (_ || _); [wstep; discriminate|].
  unfold wp, bind. rewrite draw_labels_eq. simpl. intros _. exists ll, g1. simpl. rewrite Ewm, Eu. repeat split; auto.
Qed.
Lemma gibbs_step_rows E c fuel o s g : wp o (gibbs_step E c fuel) (fun r s' g' => r = Ok tt -> label_rows E s s' o) s g.
Proof.
  unfold gibbs_step, update_all_atoms. wpure.
  eapply wp_call; [apply (keeps_wp o s_y _ s g (keeps_update_atoms s_y (nunique (labels_of s)) ltac:(reflexivity)))| | |]; try discriminate.
  intros [] s1 g1 E1. cbv beta in E1.
  eapply wp_call; [apply (keeps_wp o s_y _ s1 g1 (keeps_update_weights s_y c fuel ltac:(reflexivity) ltac:(reflexivity)))| | |]; try discriminate.
  intros [] s2 g2 E2. cbv beta in E2.
  eapply wp_mono; [apply update_d_rows|]. intros r s3 g3 H Hr. destruct (H Hr) as (ll & gg & H1 & H2 & H3). exists ll, gg. rewrite E2, E1 in *. auto.
Qed.
Lemma nth_logits ll ww u i j : length ll = length ww -> (j < length ww)%nat ->
  nth j (logits ll ww u i) LNan = lx_add (nth i (nth j ll []) LNan) (if qltb u (nth j ww 0) then LQ 0 else LNeg).
Proof.
  intros El Hj. unfold logits.
  rewrite (nth_map_lt _ _ j LNan ([], 0)) by (rewrite combine_length; lia). rewrite combine_nth by exact El. reflexivity.
Qed.
Lemma logits_length ll ww u i : length ll = length ww -> length (logits ll ww u i) = length ww.
Proof. intros H. unfold logits. rewrite map_length, combine_length. lia. Qed.
Lemma no_index {A} (f : A -> bool) l : (forall x, In x l -> f x = false) -> index_where f l = None.
Proof. induction l; intros H; simpl; [reflexivity|]. rewrite (H a (or_introl eq_refl)), IHl; [reflexivity|]. intros; apply H; right; assumption. Qed.

Lemma step_label E c fuel o s g s' g' i : valid_oracle o -> finite_env E -> gibbs_step E c fuel o s g = (Ok tt, s', g') ->
  (i < length (labels_of s'))%nat ->
  exists lg gg, length lg = length (w (s_wm s')) /\
    nth i (labels_of s') 0%nat = pick_label lg (o_gumbel o gg (map (fun l => negb (lx_is_neg l)) lg)) /\
    forall j, (j < length (w (s_wm s')))%nat ->
      (nth i (s_u s') 0 < nth j (w (s_wm s')) 0 -> exists q, nth j lg LNan = LQ q) /\
      (nth j (w (s_wm s')) 0 <= nth i (s_u s') 0 -> nth j lg LNan = LNeg).
Proof.
  intros Ho HE H Hi. pose proof (gibbs_step_rows E c fuel o s g) as W. unfold wp in W. rewrite H in W.
  destruct (W eq_refl) as (ll & g1 & L1 & L2 & L3).
  pose proof (c37_step_proof E c fuel o s g s' g' Ho H) as [Ln _].
  rewrite L3 in Hi. rewrite label_answers_length in Hi. destruct (label_answers_nth o _ g1 i [] Hi) as (gg & Hgg).
  rewrite <- L3 in Hgg. rewrite Hgg. unfold logit_rows in Hi |- *. rewrite map_length, seq_length in Hi.
  rewrite nth_map_seq by exact Hi. eexists _, gg. split; [|split; [reflexivity|]].
  - apply logits_length, L1.
  - intros j Hj. rewrite nth_logits by assumption.
    assert (F : exists q, nth i (nth j ll []) LNan = LQ q).
    { rewrite Forall_forall in L2. destruct (L2 (nth j ll [])) as (a & Ha); [apply nth_In; lia|]. destruct (HE _ _ _ Ha) as [E1 E2].
      rewrite Forall_forall in E2. apply E2, nth_In. lia. }
    destruct F as (q & ->). split; intros Hu.
    + apply qltb_lt in Hu. rewrite Hu. simpl. eauto.
    + apply qltb_ge in Hu. rewrite Hu. reflexivity.
Qed.
Lemma finite_pick lg nz : (forall j, (j < length lg)%nat -> (exists q, nth j lg LNan = LQ q) \/ nth j lg LNan = LNeg) ->
  pick_label lg nz = if forallb lx_is_neg lg then 0%nat else nz.
Proof.
  intros H. unfold pick_label. rewrite !no_index; [reflexivity| |];
  intros x Hx; apply (In_nth _ _ LNan) in Hx as (j & Hj & <-); destruct (H j Hj) as [(q & ->)| ->]; reflexivity.
Qed.
Lemma c38_respects_proof : forall E c fuel o s g s' g' i, valid_oracle o -> finite_env E ->
  gibbs_step E c fuel o s g = (Ok tt, s', g') -> (i < length (labels_of s'))%nat ->
  (exists j, (j < length (w (s_wm s')))%nat /\ nth i (s_u s') 0 < nth j (w (s_wm s')) 0) ->
  nth i (s_u s') 0 < nth (nth i (labels_of s') 0%nat) (w (s_wm s')) 0.
Proof.
  intros E c fuel o s g s' g' i Ho HE H Hi (j & Hj & Hu).
  destruct (step_label E c fuel o s g s' g' i Ho HE H Hi) as (lg & gg & L & -> & K).
  rewrite finite_pick.
  2:{ intros j0 Hj0. rewrite L in Hj0. destruct (K j0 Hj0) as [K1 K2]. destruct (Qlt_le_dec (nth i (s_u s') 0) (nth j0 (w (s_wm s')) 0)); auto. }
  destruct (K j Hj) as [(q & Hq) _]; [exact Hu|].
  assert (F : forallb lx_is_neg lg = false).
  { destruct (forallb lx_is_neg lg) eqn:E0; [|reflexivity]. rewrite forallb_forall in E0. specialize (E0 (nth j lg LNan)).
    rewrite Hq in E0. discriminate E0. rewrite <- Hq. apply nth_In. lia. }
  rewrite F. set (ok := map (fun l => negb (lx_is_neg l)) lg).
  assert (T : In true ok).
  { apply in_map_iff. exists (LQ q). split; [reflexivity|]. rewrite <- Hq. apply nth_In; lia. }
  pose proof (vo_gumbel o Ho gg ok T) as G. pose proof (gumbel_lt o gg ok Ho T) as GL.
  set (x := o_gumbel o gg ok) in *. unfold ok in GL. rewrite map_length, L in GL.
  destruct (Qlt_le_dec (nth i (s_u s') 0) (nth x (w (s_wm s')) 0)) as [D|D]; [exact D|]. exfalso.
  destruct (K x GL) as [_ K2]. specialize (K2 D). unfold ok in G. rewrite (nth_map_lt _ _ x _ LNan) in G by lia. rewrite K2 in G. discriminate.
Qed.
Lemma c38_above_proof : forall E c fuel o s g s' g' i, valid_oracle o -> finite_env E ->
  gibbs_step E c fuel o s g = (Ok tt, s', g') -> (i < length (labels_of s'))%nat ->
  (forall j, (j < length (w (s_wm s')))%nat -> nth j (w (s_wm s')) 0 <= nth i (s_u s') 0) ->
  nth i (labels_of s') 0%nat = 0%nat.
Proof.
  intros E c fuel o s g s' g' i Ho HE H Hi Hu.
  destruct (step_label E c fuel o s g s' g' i Ho HE H Hi) as (lg & gg & L & -> & K).
  rewrite finite_pick.
  2:{ intros j0 Hj0. right. rewrite L in Hj0. apply (K j0 Hj0). auto. }
  assert (F : forallb lx_is_neg lg = true); [|rewrite F; reflexivity].
  apply forallb_forall. intros x Hx. apply (In_nth _ _ LNan) in Hx as (j & Hj & <-). rewrite L in Hj. destruct (K j Hj) as [_ K2]. rewrite K2 by auto. reflexivity.
Qed.
