(* Iteration settings and the chain (C74, C75). *)
From Verif Require Import Prelude Numpy Rng M_Weights M_Niw M_Utils M_Mix M_Query S_Oracle S_Mix S_Map S_Chain P_Lists P_Wp P_Mix P_Mix33 P_Resp P_Map P_Fresh S_Query P_Prior.
Open Scope Q_scope.
Open Scope m_scope.

Lemma nth_error_nil {A} k : nth_error (@nil A) k = None. Proof. destruct k; reflexivity. Qed.
Lemma nth_ext_error {A} (l : list A) : forall m, (forall k, nth_error l k = nth_error m k) -> l = m.
Proof.
  induction l as [|x l IH]; intros [|y m] H; auto; try (specialize (H 0%nat); discriminate H).
  pose proof (H 0%nat) as H0. injection H0 as <-. f_equal. apply IH. intros k. exact (H (S k)).
Qed.

(* ---- which visited states are saved ---- *)
Fixpoint pick (i b : Z) (tr : list (rparams * lx)) : list rparams :=
  match tr with [] => [] | p :: t => if (i mod b =? 0)%Z then fst p :: pick (i + 1) b t else pick (i + 1) b t end.

Lemma save_sims o s g s' g' : save_params o s g = (Ok tt, s', g') -> s_sims s' = s_sims s ++ [get_run_params s] /\ s_sub s' = s_sub s.
Proof.
  unfold save_params, bind, upd, get. simpl. destruct (Nat.eqb _ _); unfold raise; intros [= <- <-]; auto.
Qed.
Definition simsub (s : ms) := (s_sims s, s_sub s).

Section Sim.
Variables (E : env) (c : cls) (fuel : nat).
Lemma sweep_simsub o s g r s' g' : sweep E c fuel o s g = (r, s', g') -> s_sims s' = s_sims s /\ s_sub s' = s_sub s.
Proof.
  intros H. assert (K : simsub s' = simsub s).
  { eapply (keeps_ok simsub); [|exact H]. unfold sweep. apply keeps_bind; [apply keeps_gibbs_step; reflexivity|intros _; apply keeps_update_map; reflexivity]. }
  injection K; auto.
Qed.
Lemma burn_simsub o n : forall s g r s' g', burn_loop E c fuel n o s g = (r, s', g') -> s_sims s' = s_sims s /\ s_sub s' = s_sub s.
Proof.
  induction n as [|n IH]; intros s g r s' g' H; [injection H as _ <- _; auto|]. simpl in H. unfold bind in H.
  destruct (sweep E c fuel o s g) as [[[[]|e|] s1] g1] eqn:W; pose proof (sweep_simsub _ _ _ _ _ _ W) as [A1 A2];
    [apply IH in H as [-> ->]; auto|injection H as _ <- _; auto|injection H as _ <- _; auto].
Qed.
Lemma train_pick o n : forall i s s2 g s' g', train_loop E c fuel n i o s g = (Ok tt, s', g') -> v s = v s2 ->
  exists tr s2', visits E c fuel n o s2 g = (Ok tr, s2', g') /\ v s' = v s2' /\ length tr = n /\
    s_sims s' = s_sims s ++ pick i (s_sub s) tr /\ (n = 0%nat \/ s_sub s <> 0%Z).
Proof.
  induction n as [|n IH]; intros i s s2 g s' g' H Hv.
  { injection H as <- <-. exists [], s2. simpl. rewrite app_nil_r. auto 6. }
  cbn [train_loop] in H. apply bind_ok in H as ([] & s1 & g1 & H1 & H).
  destruct (sweep_sim E c fuel _ _ _ _ _ _ H1 Hv) as (p & a1 & h1 & a2 & G1 & G2 & G3 & _).
  destruct (sweep_simsub _ _ _ _ _ _ H1) as [M1 M2].
  apply bind_ok in H as (s1' & s1'' & g1' & X & H). injection X as <- <- <-.
  apply bind_ok in H as ([] & s3 & g3 & H3 & H). rewrite M2 in H3.
  destruct (Z.eqb_spec (s_sub s) 0) as [Z0|Z0]; [discriminate H3|].
  assert (Pp : fst p = get_run_params s1).
  { unfold visit in G2. apply bind_ok in G2 as (l & b1 & k1 & B1 & G2). injection G2 as <- <- <-. simpl.
    change (get_run_params (v b1) = get_run_params (v s1)). rewrite <- G3. reflexivity. }
  assert (K : v s3 = v s1 /\ g3 = g1 /\ s_sub s3 = s_sub s /\ s_sims s3 = s_sims s ++ (if (i mod s_sub s =? 0)%Z then [fst p] else [])).
  { destruct (i mod s_sub s =? 0)%Z.
    - pose proof (save_v _ _ _ _ _ _ H3) as (K1 & _ & K3). destruct (save_sims _ _ _ _ _ H3) as (K4 & K5).
      rewrite Pp, K4, M1. repeat split; auto. congruence.
    - injection H3 as <- <-. rewrite app_nil_r. auto. }
  destruct K as (Kv & -> & Ks & Km). rewrite <- Kv in G3.
  destruct (IH _ _ _ _ _ _ H G3) as (tr & t & K1 & K2 & K3 & K4 & _).
  exists (p :: tr), t. split; [eapply visits_cons; eauto|]. split; [exact K2|]. split; [simpl; lia|]. split; [|auto].
  rewrite K4, Km, Ks, <- app_assoc. cbn [pick]. destruct (i mod s_sub s =? 0)%Z; reflexivity.
Qed.
End Sim.

(* position of the k-th multiple of b at or after i *)
Lemma pick_nth b : b <> 0%Z -> forall tr i k d, (0 <= d < Z.abs b)%Z -> ((i + d) mod b = 0)%Z ->
  nth_error (pick i b tr) k = option_map fst (nth_error tr (Z.to_nat d + k * Z.to_nat (Z.abs b))).
Proof.
  intros Hb. induction tr as [|p tr IH]; intros i k d Hd Hm.
  { simpl. rewrite !nth_error_nil. reflexivity. }
  cbn [pick].
  assert (Hz : (i mod b = 0 <-> d = 0)%Z).
  { split; [intros H|intros ->; rewrite Z.add_0_r in Hm; exact Hm].
    apply Z.mod_divide in H, Hm; try exact Hb. assert (Hdv : (b | d)%Z) by (replace d with ((i + d) - i)%Z by lia; apply Z.divide_sub_r; assumption).
    destruct Hdv as [q ->]. destruct (Z.eq_dec q 0) as [->|N]; [lia|]. exfalso. rewrite <- (Z.abs_eq (q * b)) in Hd by lia. rewrite Z.abs_mul in Hd. nia. }
  destruct (Z.eqb_spec (i mod b) 0) as [H|H].
  - apply Hz in H. subst d. destruct k as [|k]; [reflexivity|]. cbn [nth_error].
    rewrite (IH (i + 1)%Z k (Z.abs b - 1)%Z); [|lia|].
    + replace (Z.to_nat 0 + S k * Z.to_nat (Z.abs b))%nat with (S (Z.to_nat (Z.abs b - 1) + k * Z.to_nat (Z.abs b)))%nat by nia. reflexivity.
    + rewrite Z.add_0_r in Hm. replace (i + 1 + (Z.abs b - 1))%Z with (i + Z.abs b)%Z by lia.
      apply Z.mod_divide; [exact Hb|]. apply Z.mod_divide in Hm; [|exact Hb]. apply Z.divide_add_r; [exact Hm|apply Z.divide_abs_r, Z.divide_refl].
  - assert (d <> 0)%Z by tauto. rewrite (IH (i + 1)%Z k (d - 1)%Z); [|lia|replace (i + 1 + (d - 1))%Z with (i + d)%Z by lia; exact Hm].
    replace (Z.to_nat d + k * Z.to_nat (Z.abs b))%nat with (S (Z.to_nat (d - 1) + k * Z.to_nat (Z.abs b)))%nat by lia. reflexivity.
Qed.
Lemma pick_thinned bu b tr1 tr2 : length tr1 = Z.to_nat bu -> (tr2 = [] \/ b <> 0%Z) -> thinned bu b (tr1 ++ tr2) (pick 0 b tr2).
Proof.
  intros L [->|Hb] k.
  - rewrite app_nil_r. simpl. rewrite nth_error_nil. replace (nth_error tr1 _) with (@None (rparams * lx)); [reflexivity|]. symmetry. apply nth_error_None. lia.
  - rewrite (pick_nth b Hb tr2 0%Z k 0%Z) by (try apply Z.mod_0_l; lia).
    rewrite nth_error_app2 by lia. rewrite L. do 2 f_equal. lia.
Qed.

(* v : without saved states, affinity and MAP (wipe true) *)
Lemma fit_chain : forall E c fuel y ig warm meth o s g s' g', fit_gibbs E c fuel y ig warm meth o s g = (Ok tt, s', g') ->
  exists tr s1, replay E c fuel y ig warm meth (n_sweeps (s_total s) (s_burn s)) o s g = (Ok tr, s1, g') /\
    v (upd_flags true (s_vfit s1) (s_vconv s1) s1) = v s' /\
    length tr = ((if warm then 0 else 1) + n_sweeps (s_total s) (s_burn s))%nat /\
    exists l, s_sims s' = (if warm then s_sims s else []) ++ l /\ thinned (s_burn s) (s_sub s) (swept_states warm tr) l.
Proof.
  intros E c fuel y ig warm meth o s g s' g' H. unfold fit_gibbs in H.
  apply bind_ok in H as ([] & s1 & g1 & H1 & H). apply bind_ok in H as ([] & s2 & g2 & H2 & H).
  apply bind_ok in H as (s3 & s3' & g3 & X & H). injection X as <- <- <-.
  apply bind_ok in H as ([] & s3 & g3 & H3 & H). apply bind_ok in H as ([] & s4 & g4 & H4 & H).
  injection H as <- <-.
  set (f := fun s => (s_total s, s_burn s, s_sub s)).
  assert (S1 : f s1 = f s) by (eapply (keeps_ok f); [apply (keeps_init_common f); reflexivity|exact H1]).
  assert (S1' : s_sims s1 = s_sims s) by (eapply (keeps_ok s_sims); [apply (keeps_init_common s_sims); reflexivity|exact H1]).
  assert (A : exists t0 s2', (if warm then ret [] else init_gibbs E c fuel ig meth ;; p <- visit E c ;; ret [p]) o s1 g1 = (Ok t0, s2', g2) /\
      v s2 = v s2' /\ length t0 = (if warm then 0 else 1)%nat /\ s_sims s2 = (if warm then s_sims s else []) /\ f s2 = f s1).
  { destruct warm; [injection H2 as <- <-; exists [], s1; auto 6|].
    apply bind_ok in H2 as ([] & a & h & A1 & A2).
    destruct (update_map_sim E c _ _ a _ _ _ A2 eq_refl) as (p & b & B1 & B2 & B3).
    exists [p], b. rewrite (ok_bind _ _ _ _ _ _ _ _ A1), (ok_bind _ _ _ _ _ _ _ _ B1).
    split; [reflexivity|]. split; [exact B2|]. split; [reflexivity|]. split.
    - transitivity (s_sims a); [eapply (keeps_ok s_sims); [apply keeps_update_map; reflexivity|exact A2]|].
      exact (proj1 (proj2 (wp_run o _ _ _ _ _ _ _ (init_gibbs_reset E c fuel ig meth o s1 g1) A1))).
    - transitivity (f a); [eapply (keeps_ok f); [apply (keeps_update_map f); reflexivity|exact A2]|].
      eapply (keeps_ok f); [apply keeps_settings_init_gibbs|exact A1]. }
  destruct A as (t0 & s2' & A1 & A2 & A3 & A4 & A5). rewrite S1 in A5. injection A5 as T B U. rewrite T, B in *.
  destruct (burn_sim E c fuel _ _ _ _ _ _ _ H3 A2) as (tr1 & b1 & B1 & B2 & B3 & _).
  destruct (burn_simsub E c fuel _ _ _ _ _ _ _ H3) as [B4 B5].
  destruct (train_pick E c fuel _ _ _ _ _ _ _ _ H4 B2) as (tr2 & b2 & C1 & C2 & C3 & C4 & C5).
  exists (t0 ++ tr1 ++ tr2), b2. split.
  { unfold replay. rewrite (ok_bind _ _ _ _ _ _ _ _ H1), (ok_bind _ _ _ _ _ _ _ _ A1),
      (ok_bind _ _ _ _ _ _ _ _ (visits_app E c fuel _ _ _ _ _ _ _ _ _ _ _ B1 C1)). reflexivity. }
  split.
  { change (v (upd_flags true (s_vfit (v b2)) (s_vconv (v b2)) (v b2)) = v (upd_flags true (s_vfit (v s4)) (s_vconv (v s4)) (v s4))).
    rewrite C2. reflexivity. }
  split; [rewrite !app_length; unfold n_sweeps; lia|].
  exists (pick 0 (s_sub s) tr2). split.
  { change (s_sims (upd_flags true (s_vfit s4) (s_vconv s4) s4)) with (s_sims s4). rewrite C4, B4, A4, B5, U. reflexivity. }
  replace (swept_states warm (t0 ++ tr1 ++ tr2)) with (tr1 ++ tr2).
  - apply pick_thinned; [exact B3|]. rewrite B5, U in C5. destruct C5 as [C5|C5]; [left; destruct tr2; [reflexivity|simpl in C3; congruence]|auto].
  - destruct warm; [destruct t0; [reflexivity|discriminate A3]|]. destruct t0 as [|p [|]]; try discriminate A3. reflexivity.
Qed.

Lemma c74_saved_proof : forall E c fuel y ig warm meth o s g s' g', fit_gibbs E c fuel y ig warm meth o s g = (Ok tt, s', g') ->
  exists tr s1 l, replay E c fuel y ig warm meth (n_sweeps (s_total s) (s_burn s)) o s g = (Ok tr, s1, g') /\
    length tr = ((if warm then 0 else 1) + n_sweeps (s_total s) (s_burn s))%nat /\
    s_sims s' = (if warm then s_sims s else []) ++ l /\ thinned (s_burn s) (s_sub s) (swept_states warm tr) l /\
    get_run_params s' = get_run_params s1.
Proof.
  intros E c fuel y ig warm meth o s g s' g' H. destruct (fit_chain _ _ _ _ _ _ _ _ _ _ _ _ H) as (tr & s1 & H1 & H2 & H3 & l & H4 & H5).
  exists tr, s1, l. repeat (split; [assumption|]). change (get_run_params (v s') = get_run_params s1). rewrite <- H2. reflexivity.
Qed.

(* ---- changing the settings ---- *)
(* a: without total_iter; b: without y.ndim *)
Definition nocfg (a b : bool) (s : ms) : ms :=
  MS (if a then 0%Z else s_total s) 0 0 (s_n s) (s_mu s) (s_lam s) (s_psi s) (s_nu s) (s_wm s) (s_y s) (s_dim s) (if b then false else s_1d s) (s_d s) (s_theta s) (s_gen s) (s_u s)
     [] None LNeg 0 [] [] [] (s_var s) false false false.
Ltac side ::= intros; first [reflexivity|match goal with a : bool, b : bool |- _ => destruct a, b; reflexivity | a : bool |- _ => destruct a; reflexivity end].
Section Cfg.
Variables (E : env) (c : cls) (fuel : nat) (a b : bool).
Notation w := (nocfg a b).
Lemma cfg_prior_atom : resp w prior_atom. Proof. unfold prior_atom. rsp. Qed.
Lemma cfg_tail : resp w (tail_to_slice c fuel). Proof. unfold tail_to_slice. rsp. Qed.
Lemma cfg_set_obs y : resp w (set_obs y). Proof. unfold set_obs. rsp. Qed.
Hint Resolve cfg_prior_atom cfg_tail cfg_set_obs : core.
Lemma cfg_get_atom j : resp w (get_atom j). Proof. unfold get_atom. rsp. Qed.
Lemma cfg_masked j : resp w (masked j). Proof. unfold masked. rsp. Qed.
Hint Resolve cfg_get_atom cfg_masked : core.
Lemma cfg_update_atoms js : resp w (update_atoms js). Proof. induction js; simpl; rsp. Qed.
Lemma cfg_update_weights : resp w (update_weights c fuel). Proof. unfold update_weights. rsp. Qed.
Lemma cfg_logpdf_rows js : resp w (logpdf_rows E js). Proof. induction js; simpl; rsp. Qed.
Lemma cfg_draw_labels l : resp w (draw_labels l). Proof. induction l; simpl; rsp. Qed.
Hint Resolve cfg_update_atoms cfg_update_weights cfg_logpdf_rows cfg_draw_labels : core.
Lemma cfg_update_d : resp w (update_d E). Proof. unfold update_d. rsp. Qed.
Lemma cfg_update_all_atoms : resp w update_all_atoms. Proof. unfold update_all_atoms. rsp. Qed.
Hint Resolve cfg_update_d cfg_update_all_atoms : core.
Lemma cfg_gibbs_step : resp w (gibbs_step E c fuel). Proof. unfold gibbs_step. rsp. Qed.
Lemma cfg_y_loglik js : forall acc, resp w (y_loglik E js acc). Proof. induction js; intros; simpl; rsp. Qed.
Hint Resolve cfg_y_loglik : core.
Lemma cfg_run_loglik : resp w (run_loglik E c). Proof. unfold run_loglik. rsp. Qed.
Hint Resolve cfg_gibbs_step cfg_run_loglik : core.
Lemma cfg_visit : resp w (visit E c). Proof. unfold visit. rsp. Qed.
Hint Resolve cfg_visit : core.
Lemma cfg_visits n : resp w (visits E c fuel n). Proof. induction n; simpl; rsp. Qed.
End Cfg.
Section Cfg1.
Variables (E : env) (c : cls) (fuel : nat) (a : bool).
Notation w := (nocfg a false).
Hint Resolve cfg_prior_atom cfg_tail cfg_set_obs cfg_visit cfg_visits : core.
Lemma cfg_init_common y : resp w (init_common y). Proof. unfold init_common. rsp. Qed.
Lemma cfg_fit_var_weights k D : resp w (fit_var_weights c k D). Proof. unfold fit_var_weights. rsp. Qed.
Lemma cfg_update_var_d : resp w (update_var_d E c). Proof. unfold update_var_d. rsp. Qed.
Lemma cfg_update_var_theta : resp w (update_var_theta E). Proof. unfold update_var_theta. rsp. Qed.
Hint Resolve cfg_init_common cfg_fit_var_weights cfg_update_var_d cfg_update_var_theta : core.
Lemma cfg_maximize : resp w (maximize_variational E c). Proof. unfold maximize_variational. rsp. Qed.
Lemma cfg_prior_vatoms n : resp w (prior_vatoms E n). Proof. induction n; simpl; rsp. Qed.
Hint Resolve cfg_maximize cfg_prior_vatoms : core.
Lemma cfg_init_variational k i meth : resp w (init_variational E c k i meth). Proof. unfold init_variational. rsp. Qed.
Lemma cfg_var_loop tol n : forall e d i, resp w (var_loop E c tol n e d i). Proof. induction n; intros; simpl; rsp. Qed.
Hint Resolve cfg_init_variational cfg_var_loop : core.
End Cfg1.
Section Cfg2.
Variables (E : env) (c : cls) (fuel : nat).
Hint Resolve cfg_prior_atom cfg_tail cfg_set_obs cfg_visit cfg_visits cfg_init_common cfg_init_variational cfg_var_loop : core.
Lemma cfg_fit_variational y k warm tol meth : resp (nocfg false false) (fit_variational E c y k warm tol meth).
Proof. unfold fit_variational. rsp. Qed.
Variable a : bool.
Notation w := (nocfg a false).
Lemma cfg_init_gibbs ig meth : a = false \/ meth <> IVariational -> resp w (init_gibbs E c fuel ig meth).
Proof. intros H. unfold init_gibbs. rsp. destruct H; [subst; apply cfg_fit_variational|congruence]. Qed.
Lemma cfg_replay y ig warm meth n : a = false \/ warm = true \/ meth <> IVariational -> resp w (replay E c fuel y ig warm meth n).
Proof. intros H. unfold replay. rsp. apply cfg_init_gibbs. destruct H as [H|[H|H]]; auto; congruence. Qed.
End Cfg2.

Lemma c74_settings_proof : forall E c fuel y ig warm meth n t b u o s g r s1 g1,
  warm = true \/ meth <> IVariational \/ t = s_total s ->
  replay E c fuel y ig warm meth n o s g = (r, s1, g1) ->
  exists s2, replay E c fuel y ig warm meth n o (with_settings t b u s) g = (r, s2, g1) /\ get_run_params s2 = get_run_params s1.
Proof.
  intros E c fuel y ig warm meth n t b u o s g r s1 g1 H R.
  assert (K : exists a, (a = false \/ warm = true \/ meth <> IVariational) /\ nocfg a false s = nocfg a false (with_settings t b u s)).
  { destruct H as [H|[H|H]]; [exists true|exists true|exists false; subst]; auto. }
  destruct K as (a & Ha & Hv). pose proof (cfg_replay E c fuel a y ig warm meth n Ha o _ _ g Hv) as K. rewrite R in K.
  destruct (replay _ _ _ _ _ _ _ _ _ (with_settings t b u s) _) as [[r2 s2] g2]. destruct K as (<- & <- & K). exists s2. split; [reflexivity|].
  change (get_run_params (nocfg a false s2) = get_run_params (nocfg a false s1)). rewrite K. reflexivity.
Qed.

(* ---- more sweeps ---- *)
Lemma visits_length E c fuel o n : forall s g tr s1 g1, visits E c fuel n o s g = (Ok tr, s1, g1) -> length tr = n.
Proof.
  induction n as [|n IH]; intros s g tr s1 g1 H; [injection H as <- _ _; reflexivity|].
  cbn [visits] in H. apply bind_ok in H as ([] & a1 & h1 & A1 & H). apply bind_ok in H as (p & a2 & h2 & A2 & H).
  apply bind_ok in H as (t & a3 & h3 & A3 & H). injection H as <- _ _. simpl. f_equal. eauto.
Qed.
Lemma visits_split E c fuel o n m : forall s g tr s2 g2, visits E c fuel (n + m) o s g = (Ok tr, s2, g2) ->
  exists s1 g1, visits E c fuel n o s g = (Ok (firstn n tr), s1, g1) /\ visits E c fuel m o s1 g1 = (Ok (skipn n tr), s2, g2).
Proof.
  induction n as [|n IH]; intros s g tr s2 g2 H; [exists s, g; auto|].
  cbn [visits Nat.add] in H. apply bind_ok in H as ([] & a1 & h1 & A1 & H). apply bind_ok in H as (p & a2 & h2 & A2 & H).
  apply bind_ok in H as (t & a3 & h3 & A3 & H). injection H as <- <- <-.
  destruct (IH _ _ _ _ _ A3) as (s1 & g1 & B1 & B2). exists s1, g1. split; [|exact B2].
  cbn [firstn]. eapply visits_cons; eauto.
Qed.
Lemma c74_prefix_proof : forall E c fuel y ig warm meth n m o s g tr s1 g1,
  replay E c fuel y ig warm meth (n + m) o s g = (Ok tr, s1, g1) ->
  exists s2 g2, replay E c fuel y ig warm meth n o s g = (Ok (firstn ((if warm then 0 else 1) + n) tr), s2, g2).
Proof.
  intros E c fuel y ig warm meth n m o s g tr s1 g1 H. unfold replay in *.
  apply bind_ok in H as ([] & a & h & A & H). apply bind_ok in H as (t0 & a' & h' & A' & H). apply bind_ok in H as (t & a2 & h2 & A2 & H).
  injection H as <- _ _. destruct (visits_split _ _ _ _ _ _ _ _ _ _ _ A2) as (s2 & g2 & B & _). exists s2, g2.
  rewrite (ok_bind _ _ _ _ _ _ _ _ A), (ok_bind _ _ _ _ _ _ _ _ A'), (ok_bind _ _ _ _ _ _ _ _ B).
  assert (L : length t0 = if warm then 0%nat else 1%nat).
  { destruct warm; [injection A' as <- _ _; reflexivity|]. apply bind_ok in A' as ([] & x & k & _ & A'). apply bind_ok in A' as (p & x' & k' & _ & A'). injection A' as <- _ _. reflexivity. }
  unfold ret. f_equal. f_equal. f_equal. rewrite <- L, firstn_app_2. reflexivity.
Qed.

(* two fits of the same object with other settings *)
Lemma nth_tl {A} (l : list A) n : nth_error (tl l) n = nth_error l (S n).
Proof. destruct l; [simpl; rewrite nth_error_nil|]; reflexivity. Qed.
Lemma nth_firstn {A} (l : list A) n k : nth_error (firstn n l) k = if (k <? n)%nat then nth_error l k else None.
Proof.
  revert n k; induction l as [|x l IH]; intros [|n] [|k]; simpl; auto.
  - destruct (_ <? _)%nat; reflexivity.
  - rewrite IH. reflexivity.
Qed.
Lemma c74_thin_proof : forall E c fuel y ig meth b u o s g s1 g1 s2 g2, (0 <= b <= s_total s)%Z -> (0 < u)%Z ->
  fit_gibbs E c fuel y ig false meth o (with_settings (s_total s) 0 1 s) g = (Ok tt, s1, g1) ->
  fit_gibbs E c fuel y ig false meth o (with_settings (s_total s) b u s) g = (Ok tt, s2, g2) ->
  g2 = g1 /\ get_run_params s2 = get_run_params s1 /\
  forall k, nth_error (s_sims s2) k = nth_error (s_sims s1) (Z.to_nat b + k * Z.to_nat u).
Proof.
  intros E c fuel y ig meth b u o s g s1 g1 s2 g2 Hb Hu F1 F2.
  destruct (c74_saved_proof _ _ _ _ _ _ _ _ _ _ _ _ F1) as (tr1 & t1 & l1 & R1 & _ & L1 & T1 & P1).
  destruct (c74_saved_proof _ _ _ _ _ _ _ _ _ _ _ _ F2) as (tr2 & t2 & l2 & R2 & _ & L2 & T2 & P2).
  cbn [s_total s_burn s_sub with_settings] in *.
  replace (n_sweeps (s_total s) b) with (n_sweeps (s_total s) 0) in R2 by (unfold n_sweeps; lia).
  destruct (c74_settings_proof _ _ _ _ _ _ _ _ (s_total s) b u _ _ _ _ _ _ (or_intror (or_intror (eq_refl : s_total s = s_total (with_settings (s_total s) 0 1 s)))) R1) as (t3 & R3 & P3).
  change (with_settings (s_total s) b u (with_settings (s_total s) 0 1 s)) with (with_settings (s_total s) b u s) in R3.
  rewrite R2 in R3. injection R3 as -> -> ->.
  split; [reflexivity|]. split; [congruence|]. intros k. simpl in L1, L2. rewrite L1, L2, (T1 _), (T2 _).
  do 2 f_equal. rewrite Z.abs_eq by lia. lia.
Qed.
Lemma c74_longer_proof : forall E c fuel y ig meth t b u o s g s1 g1 s2 g2, meth <> IVariational -> (0 <= b <= t)%Z -> (t <= s_total s)%Z -> (0 < u)%Z ->
  fit_gibbs E c fuel y ig false meth o (with_settings t b u s) g = (Ok tt, s1, g1) ->
  fit_gibbs E c fuel y ig false meth o (with_settings (s_total s) b u s) g = (Ok tt, s2, g2) ->
  s_sims s1 = firstn (length (s_sims s1)) (s_sims s2).
Proof.
  intros E c fuel y ig meth t b u o s g s1 g1 s2 g2 Hm Hb Ht Hu F1 F2.
  destruct (c74_saved_proof _ _ _ _ _ _ _ _ _ _ _ _ F1) as (tr1 & t1 & l1 & R1 & N1 & L1 & T1 & P1).
  destruct (c74_saved_proof _ _ _ _ _ _ _ _ _ _ _ _ F2) as (tr2 & t2 & l2 & R2 & N2 & L2 & T2 & P2).
  cbn [s_total s_burn s_sub with_settings] in *.
  replace (n_sweeps (s_total s) b) with (n_sweeps t b + Z.to_nat (s_total s - t))%nat in R2 by (unfold n_sweeps; lia).
  destruct (c74_prefix_proof _ _ _ _ _ _ _ _ _ _ _ _ _ _ _ R2) as (t3 & g3 & R3).
  destruct (c74_settings_proof _ _ _ _ _ _ _ _ (s_total s) b u _ _ _ _ _ _ (or_intror (or_introl Hm)) R1) as (t4 & R4 & _).
  change (with_settings (s_total s) b u (with_settings t b u s)) with (with_settings (s_total s) b u s) in R4.
  assert (E1 : firstn (1 + n_sweeps t b) tr2 = tr1) by congruence. simpl in L1, L2. rewrite L1, L2.
  assert (X : forall k, nth_error l1 k = if (Z.to_nat b + k * Z.to_nat u <? n_sweeps t b)%nat then nth_error l2 k else None).
  { intros k. rewrite (T1 k), (T2 k), <- E1. unfold swept_states. rewrite !nth_tl, Z.abs_eq by lia. rewrite nth_firstn. simpl.
    change (S ?a <? S ?b)%nat with (a <? b)%nat. destruct (_ <? _)%nat; reflexivity. }
  apply nth_ext_error. intros k. rewrite nth_firstn, X. destruct (Nat.ltb_spec k (length l1)) as [Hk|Hk].
  - assert (Y : nth_error l1 k <> None) by (apply nth_error_Some; exact Hk). rewrite X in Y. destruct (_ <? _)%nat; [reflexivity|congruence].
  - rewrite <- X. apply nth_error_None. exact Hk.
Qed.

(* ---- a warm start continues the chain ---- *)
Definition obs (s : ms) := (s_y s, s_dim s).
Definition obs1 (s : ms) := (s_y s, s_dim s, s_1d s).
Lemma init_common_obs y o s g s' g' : init_common y o s g = (Ok tt, s', g') ->
  is_data y = true /\ obs s' = (rows_of y, cols_of y) /\ (s_1d s' = true -> exists l, y = YSeries l) /\ s_mu s' <> PNone /\ s_psi s' <> PNone /\ s_nu s' <> None /\ g' = g.
Proof.
  intros H. destruct (is_data y) eqn:D; [|rewrite init_common_bad in H by exact D; discriminate H].
  split; [reflexivity|]. destruct (set_init_common _ _ _ _ _ _ _ D H) as [N1 N2].
  destruct (cases_cols y o s g D) as (b & X). cbv zeta in X. destruct X as [Hb X]. rewrite H in X.
  destruct (s_nu s) eqn:N; [|destruct b; [discriminate X|]]; injection X as -> ->; (split; [reflexivity|]); (split; [intros B; apply Hb; first [exact B|discriminate B]|]);
    repeat (split; [assumption|]); (split; [|reflexivity]); simpl; congruence.
Qed.
Lemma init_common_again y o s g : is_data y = true -> obs s = (rows_of y, cols_of y) -> s_mu s <> PNone -> s_psi s <> PNone -> s_nu s <> None ->
  exists s', init_common y o s g = (Ok tt, s', g) /\ nocfg true true s' = nocfg true true s.
Proof.
  intros D O N1 N2 N3. destruct (cases_cols y o s g D) as (b & X). cbv zeta in X. destruct X as [_ X]. injection O as O1 O2.
  destruct (s_nu s) eqn:N; [|congruence]. eexists. split; [exact X|]. unfold nocfg, mu_default, psi_default. simpl.
  destruct (s_mu s); try congruence; destruct (s_psi s); try congruence; rewrite ?O1, ?O2; reflexivity.
Qed.
Lemma fit_variational_obs E c y k warm tol meth o s g s' g' : fit_variational E c y k warm tol meth o s g = (Ok tt, s', g') -> obs s' = (rows_of y, cols_of y).
Proof.
  unfold fit_variational. intros H. apply bind_ok in H as ([] & s1 & g1 & H1 & H). destruct (init_common_obs _ _ _ _ _ _ H1) as (_ & <- & _).
  eapply (keeps_ok obs); [|exact H]. keep; try reflexivity; try (apply keeps_init_variational; reflexivity). apply keeps_var_loop; reflexivity.
Qed.
Lemma init_gibbs_obs E c fuel ig meth o s g s' g' : (s_1d s = true -> exists l, obs s = (column l, 1%nat)) ->
  init_gibbs E c fuel ig meth o s g = (Ok tt, s', g') -> obs s' = obs s.
Proof.
  intros Hs H. destruct meth; try (eapply (keeps_ok obs); [|exact H]; unfold init_gibbs; keep; try reflexivity; apply keeps_tail_to_slice; reflexivity).
  unfold init_gibbs in H.
  apply bind_ok in H as ([] & s1 & g1 & H1 & H). assert (K1 : obs1 s1 = obs1 s) by (eapply (keeps_ok obs1); [|exact H1]; keep; reflexivity).
  apply bind_ok in H as ([] & s2 & g2 & H2 & H). assert (K2 : obs1 s2 = obs1 s1) by (eapply (keeps_ok obs1); [|exact H2]; keep; reflexivity).
  apply bind_ok in H as ([] & s3 & g3 & H3 & H). assert (K3 : obs1 s3 = obs1 s2) by (eapply (keeps_ok obs1); [|exact H3]; keep; reflexivity).
  apply bind_ok in H as (x & s4 & g4 & H4 & H). assert (K4 : obs1 s4 = obs1 s3) by (eapply (keeps_ok obs1); [|exact H4]; keep; reflexivity).
  cbv zeta in H.
  apply bind_ok in H as ([] & s5 & g5 & H5 & H). assert (K5 : obs1 s5 = obs1 s4) by (eapply (keeps_ok obs1); [|exact H5]; keep; reflexivity).
  apply bind_ok in H as (u & s6 & g6 & H6 & H). assert (K6 : obs1 s6 = obs1 s5) by (eapply (keeps_ok obs1); [|exact H6]; keep; reflexivity).
  apply bind_ok in H as ([] & s7 & g7 & H7 & H). assert (K7 : obs1 s7 = obs1 s6) by (eapply (keeps_ok obs1); [|exact H7]; keep; reflexivity).
  apply bind_ok in H as ([] & s8 & g8 & H8 & H). assert (K8 : obs1 s8 = obs1 s7) by (eapply (keeps_ok obs1); [|exact H8]; keep; try reflexivity; apply keeps_tail_to_slice; reflexivity).
  assert (K : obs1 s8 = obs1 s) by congruence. clear K1 K2 K3 K4 K5 K6 K7 K8.
  apply bind_ok in H as (z & s9 & g9 & H9 & H). injection H9 as <- <- <-.
  apply bind_ok in H as ([] & s10 & g10 & H10 & H). apply fit_variational_obs in H10.
  assert (K9 : obs s' = obs s10) by (eapply (keeps_ok obs); [|exact H]; keep; reflexivity). rewrite K9, H10.
  injection K as Y1 Y2 Y3. rewrite Y3, Y1, Y2. destruct (s_1d s); [|reflexivity].
  destruct (Hs eq_refl) as [l Hl]. rewrite Hl. injection Hl as L1 L2. rewrite L1. simpl. f_equal. clear. unfold column. rewrite map_map. simpl. induction l; simpl; f_equal; auto.
Qed.
Lemma fit_gibbs_obs E c fuel y ig warm meth o s g s' g' : fit_gibbs E c fuel y ig warm meth o s g = (Ok tt, s', g') ->
  is_data y = true /\ obs s' = (rows_of y, cols_of y) /\ s_mu s' <> PNone /\ s_psi s' <> PNone /\ s_nu s' <> None.
Proof.
  intros H. assert (D : is_data y = true) by (destruct (is_data y) eqn:D; [reflexivity|]; unfold fit_gibbs, bind in H; rewrite init_common_bad in H by exact D; discriminate H).
  split; [exact D|]. destruct (exec_first E c fuel (MGibbs y ig warm meth) o s g _ _ _ D H) as (r1 & s1 & g1 & I & P1 & P2 & P3 & _). simpl in I.
  unfold fit_gibbs in H. destruct r1 as [[]|e|]; [|unfold bind in H; rewrite I in H; discriminate H|unfold bind in H; rewrite I in H; discriminate H].
  destruct (init_common_obs _ _ _ _ _ _ I) as (_ & O & F & N1 & N2 & N3 & _).
  split; [|rewrite (P1 N1), (P2 N2), (P3 N3); auto].
  rewrite (ok_bind _ _ _ _ _ _ _ _ I) in H. apply bind_ok in H as ([] & s2 & g2 & H2 & H).
  assert (K : obs s2 = obs s1).
  { destruct warm; [injection H2 as <- _; reflexivity|]. apply bind_ok in H2 as ([] & a & h & A1 & A2).
    transitivity (obs a); [eapply (keeps_ok obs); [apply keeps_update_map; reflexivity|exact A2]|].
    eapply init_gibbs_obs; [|exact A1]. intros B. destruct (F B) as [l ->]. exists l. exact O. }
  rewrite <- O, <- K. eapply (keeps_ok obs); [|exact H].
  assert (KS : keeps obs (sweep E c fuel)) by (apply keeps_sweep; reflexivity).
  keep; try reflexivity; [apply keeps_burn; exact KS|apply keeps_train; [exact KS|apply keeps_save; reflexivity]].
Qed.

Lemma replay_more E c fuel y ig warm meth n m o s g tr s1 g1 tr2 s2 g2 : replay E c fuel y ig warm meth n o s g = (Ok tr, s1, g1) ->
  visits E c fuel m o s1 g1 = (Ok tr2, s2, g2) -> replay E c fuel y ig warm meth (n + m) o s g = (Ok (tr ++ tr2), s2, g2).
Proof.
  intros H V. unfold replay in *. apply bind_ok in H as ([] & a & h & A & H). apply bind_ok in H as (t0 & a' & h' & A' & H). apply bind_ok in H as (t & a2 & h2 & A2 & H).
  injection H as <- <- <-. rewrite (ok_bind _ _ _ _ _ _ _ _ A), (ok_bind _ _ _ _ _ _ _ _ A'), (ok_bind _ _ _ _ _ _ _ _ (visits_app E c fuel _ _ _ _ _ _ _ _ _ _ _ A2 V)).
  rewrite app_assoc. reflexivity.
Qed.
Lemma c75_continue_proof : forall E c fuel y ig warm meth ig2 meth2 t b u o s g s1 g1 s2 g2,
  fit_gibbs E c fuel y ig warm meth o s g = (Ok tt, s1, g1) ->
  fit_gibbs E c fuel y ig2 true meth2 o (with_settings t b u s1) g1 = (Ok tt, s2, g2) ->
  exists tr1 tr2 a1 a2 l1 l2,
    replay E c fuel y ig warm meth (n_sweeps (s_total s) (s_burn s)) o s g = (Ok tr1, a1, g1) /\
    replay E c fuel y ig warm meth (n_sweeps (s_total s) (s_burn s) + n_sweeps t b) o s g = (Ok (tr1 ++ tr2), a2, g2) /\
    get_run_params s1 = get_run_params a1 /\ get_run_params s2 = get_run_params a2 /\
    s_sims s1 = (if warm then s_sims s else []) ++ l1 /\ thinned (s_burn s) (s_sub s) (swept_states warm tr1) l1 /\
    s_sims s2 = s_sims s1 ++ l2 /\ thinned b u tr2 l2.
Proof.
  intros E c fuel y ig warm meth ig2 meth2 t b u o s g s1 g1 s2 g2 F1 F2.
  destruct (fit_chain _ _ _ _ _ _ _ _ _ _ _ _ F1) as (tr1 & a1 & R1 & V1 & _ & l1 & L1 & T1).
  destruct (fit_chain _ _ _ _ _ _ _ _ _ _ _ _ F2) as (tr2 & a2 & R2 & V2 & _ & l2 & L2 & T2).
  cbn [s_total s_burn s_sub with_settings] in *.
  destruct (fit_gibbs_obs _ _ _ _ _ _ _ _ _ _ _ _ F1) as (D & O & N1 & N2 & N3).
  destruct (init_common_again y o (with_settings t b u s1) g1 D O N1 N2 N3) as (s1' & I & K).
  unfold replay in R2. rewrite (ok_bind _ _ _ _ _ _ _ _ I) in R2. change (bind (ret []) ?k o s1' g1) with (k [] o s1' g1) in R2.
  apply bind_ok in R2 as (tr2' & a2' & g2' & R2 & X). injection X as <- <- <-.
  assert (Z : nocfg true true s1' = nocfg true true a1).
  { rewrite K. change (nocfg true true (with_settings t b u s1)) with (nocfg true true (v s1)). rewrite <- V1. reflexivity. }
  pose proof (cfg_visits E c fuel true true (n_sweeps t b) o _ _ g1 Z) as W. rewrite R2 in W.
  destruct (visits E c fuel (n_sweeps t b) o a1 g1) as [[r a3] g3] eqn:R3. destruct W as (<- & <- & W).
  exists tr1, tr2', a1, a3, l1, l2. split; [exact R1|]. split; [eapply replay_more; eauto|].
  split; [change (get_run_params (v s1) = get_run_params a1); rewrite <- V1; reflexivity|].
  split.
  { transitivity (get_run_params a2'); [change (get_run_params (v s2) = get_run_params a2'); rewrite <- V2; reflexivity|].
    change (get_run_params (nocfg true true a2') = get_run_params (nocfg true true a3)). rewrite W. reflexivity. }
  auto.
Qed.

(* one run saves the same states as a run and its continuation, if nothing is
   burnt and the thinning is in step *)
Lemma thinned_length b u tr l : (0 <= b)%Z -> (0 < u)%Z -> thinned b u tr l -> forall k, (k < length l <-> Z.to_nat b + k * Z.to_nat u < length tr)%nat.
Proof.
  intros Hb Hu T k. specialize (T k). rewrite Z.abs_eq in T by lia. rewrite <- !nth_error_Some, T.
  destruct (nth_error tr _); simpl; split; congruence.
Qed.
Lemma c75_one_fit_proof : forall E c fuel y ig warm meth ig2 meth2 t q u o s g s1 g1 s2 g2 s3 g3, (0 <= t)%Z -> (0 <= q)%Z -> (0 < u)%Z ->
  warm = true \/ meth <> IVariational ->
  fit_gibbs E c fuel y ig warm meth o (with_settings (q * u) 0 u s) g = (Ok tt, s1, g1) ->
  fit_gibbs E c fuel y ig2 true meth2 o (with_settings t 0 u s1) g1 = (Ok tt, s2, g2) ->
  fit_gibbs E c fuel y ig warm meth o (with_settings (q * u + t) 0 u s) g = (Ok tt, s3, g3) ->
  s_sims s3 = s_sims s2 /\ get_run_params s3 = get_run_params s2 /\ g3 = g2.
Proof.
  intros E c fuel y ig warm meth ig2 meth2 t q u o s g s1 g1 s2 g2 s3 g3 Ht Hq Hu Hm F1 F2 F3.
  destruct (c75_continue_proof _ _ _ _ _ _ _ _ _ _ _ _ _ _ _ _ _ _ _ F1 F2) as (tr1 & tr2 & a1 & a2 & l1 & l2 & R1 & R2 & P1 & P2 & L1 & T1 & L2 & T2).
  destruct (c74_saved_proof _ _ _ _ _ _ _ _ _ _ _ _ F1) as (tr1' & a1' & l1' & R1' & N1 & _). rewrite R1 in R1'. injection R1' as <- _.
  destruct (c74_saved_proof _ _ _ _ _ _ _ _ _ _ _ _ F3) as (tr3 & a3 & l3 & R3 & N3 & L3 & T3 & P3).
  cbn [s_total s_burn s_sub s_sims with_settings] in *.
  assert (Hm' : warm = true \/ meth <> IVariational \/ (q * u + t)%Z = s_total (with_settings (q * u) 0 u s)) by tauto.
  destruct (c74_settings_proof _ _ _ _ _ _ _ _ (q * u + t)%Z 0%Z u _ _ _ _ _ _ Hm' R2) as (a4 & R4 & P4).
  change (with_settings (q * u + t) 0 u (with_settings (q * u) 0 u s)) with (with_settings (q * u + t) 0 u s) in R4.
  assert (Nn : n_sweeps (q * u + t) 0 = (n_sweeps (q * u) 0 + n_sweeps t 0)%nat) by (unfold n_sweeps; lia).
  rewrite Nn in R3. rewrite R3 in R4. injection R4 as E1 E2 E3.
  split; [|split; [congruence|exact E3]].
  rewrite L3, L2, L1, <- app_assoc. f_equal. apply nth_ext_error. intros k. rewrite (T3 k).
  assert (Hsw : swept_states warm tr3 = swept_states warm tr1 ++ tr2).
  { rewrite E1. destruct warm; [reflexivity|]. destruct tr1; [discriminate N1|reflexivity]. }
  rewrite Hsw. assert (Ns : length (swept_states warm tr1) = (Z.to_nat q * Z.to_nat u)%nat).
  { transitivity (n_sweeps (q * u) 0); [destruct warm; simpl in *; [exact N1|destruct tr1; [discriminate N1|simpl in *; lia]]|unfold n_sweeps; nia]. }
  pose proof (thinned_length _ _ _ _ (Z.le_refl 0) Hu T1) as Tl. rewrite Ns in Tl. change (Z.to_nat 0) with 0%nat in *. cbn [Nat.add] in *.
  assert (Hl : length l1 = Z.to_nat q).
  { apply Nat.le_antisymm; apply Nat.nlt_ge; intros H; [apply Tl in H|apply Nat.lt_irrefl with (length l1), Tl]; nia. }
  rewrite Z.abs_eq by lia. destruct (Nat.lt_ge_cases k (Z.to_nat q)) as [Hk|Hk].
  - rewrite (nth_error_app1 l1) by lia. rewrite nth_error_app1 by nia. rewrite (T1 k), Z.abs_eq by lia. reflexivity.
  - rewrite (nth_error_app2 l1) by lia. rewrite nth_error_app2 by nia. rewrite (T2 _), Z.abs_eq by lia. rewrite Ns, Hl. do 2 f_equal.
    change (Z.to_nat 0) with 0%nat. nia.
Qed.
