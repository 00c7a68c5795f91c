(* Failing fits, settings, unsupported models (C48, C57, C58). *)
From Coq Require Import Lqa.
From Verif Require Import Prelude Numpy Rng M_Weights M_Niw M_Utils M_Mix M_Query S_Oracle S_Niw S_Mix S_Fresh S_Flags S_Sort S_MixEx P_Lists P_Wp P_Mix P_Mix33 P_Mix34 P_Mix37 P_Map P_MixEx P_Fresh P_Flags P_Sort.
Open Scope Q_scope.
Open Scope m_scope.

(* ---- C48 ---- *)
Lemma c48_type_error_proof : forall E c fuel op o s g, is_data (mop_data op) = false -> exec_mop E c fuel op o s g = (Err TypeError, s, g).
Proof. intros E c fuel [y ig warm meth|y k warm tol meth] o s g H; simpl in *; unfold fit_gibbs, fit_variational, bind; rewrite init_common_bad by exact H; reflexivity. Qed.
Lemma init_common_ok y o s g : is_data y = true -> has_nu s y -> exists s', init_common y o s g = (Ok tt, s', g).
Proof.
  intros D N. destruct (init_common y o s g) as [[r s'] g'] eqn:I.
  assert (X : r = Ok tt /\ g' = g).
  { destruct y; try discriminate D; unfold init_common, bind, upd, get in I; simpl in I; destruct (s_nu s) eqn:Nu; injection I as <- _ <-; auto.
    exfalso. destruct N as [N|N]; [congruence|exact (N l eq_refl)]. }
  destruct X as [-> ->]. eauto.
Qed.
Lemma c48_unknown_method_proof : forall E c fuel y ig o s g r s' g', is_data y = true -> has_nu s y ->
  fit_gibbs E c fuel y ig false IOther o s g = (r, s', g') ->
  is_ok r = false /\ get_sim_params s' = [] /\ get_n_groups s' = [] /\ s_y s' = rows_of y /\ s_gfit s' = s_gfit s.
Proof.
  intros E c fuel y ig o s g r s' g' D N H. pose proof (gibbs_flags _ _ _ _ _ _ _ _ _ _ _ _ _ H) as (F & _).
  unfold fit_gibbs in H. destruct (init_common_ok y o s g D N) as (s1 & I). rewrite (ok_bind _ _ _ _ _ _ _ _ I) in H.
  pose proof (wp_run o _ _ s g _ _ _ (init_common_rows y o s g D) I) as Y; simpl in Y.
  assert (K : exists r0 s2 g2, (init_gibbs E c fuel ig IOther ;; update_map E c) o s1 g = (r0, s2, g2) /\ is_ok r0 = false /\ s_sims s2 = [] /\ s_groups s2 = [] /\ s_y s2 = s_y s1).
  { destruct (init_gibbs E c fuel ig IOther o s1 g) as [[q s2] g2] eqn:G.
    pose proof (wp_run o _ _ s1 g _ _ _ (init_gibbs_reset E c fuel ig IOther o s1 g) G) as (_ & R1 & R2 & _).
    assert (Ky : s_y s2 = s_y s1).
    { eapply (keeps_ok s_y); [|exact G]. unfold init_gibbs. keep; try reflexivity. apply keeps_tail_to_slice; reflexivity. }
    assert (Q : is_ok q = false).
    { destruct q as [[]|e|]; try reflexivity. exfalso. unfold init_gibbs in G.
      do 8 (apply bind_ok in G as (? & ? & ? & _ & G)). discriminate G. }
    unfold bind. rewrite G. destruct q as [a|e|]; [discriminate Q| |]; do 3 eexists; (split; [reflexivity|]); auto. }
  destruct K as (r0 & s2 & g2 & K1 & K2 & K3 & K4 & K5). unfold bind at 1 in H. rewrite K1 in H.
  destruct r0 as [[]|e|]; [discriminate K2| |]; injection H as <- <- <-; simpl in *; rewrite orb_false_r in F; rewrite K5; auto.
Qed.
Lemma c48_no_groups_proof : forall E c y tol meth o s g, is_data y = true -> has_nu s y -> s_n s = None ->
  exists s', fit_variational E c y SNone false tol meth o s g = (Err AttributeError, s', g) /\ s_y s' = rows_of y /\
    s_var s' = s_var s /\ s_sims s' = s_sims s /\ s_gfit s' = s_gfit s /\ s_vfit s' = s_vfit s.
Proof.
  intros E c y tol meth o s g D N Hn. destruct (init_common_ok y o s g D N) as (s1 & I).
  exists s1. unfold fit_variational. rewrite (ok_bind _ _ _ _ _ _ _ _ I).
  assert (K : (s_n s1, s_var s1, s_sims s1, s_gfit s1, s_vfit s1) = (s_n s, s_var s, s_sims s, s_gfit s, s_vfit s)).
  { eapply (keeps_ok (fun s => (s_n s, s_var s, s_sims s, s_gfit s, s_vfit s))); [|exact I].
    apply (keeps_init_common (fun s => (s_n s, s_var s, s_sims s, s_gfit s, s_vfit s))); reflexivity. }
  injection K as K1 K2 K3 K4 K5. split; [unfold bind at 1 2, get; rewrite K1, Hn; reflexivity|].
  split; [exact (wp_run o _ _ s g _ _ _ (init_common_rows y o s g D) I)|auto].
Qed.
(* earlier results are lost or change *)
Lemma c48_refuted_proof : exists E QE c fuel o s0 g0 s1 g1 s2 g2,
  valid_oracle o /\ finite_env E /\ new_mix c 0 0 None 1 None None 2 1 1 o = Ok (s0, g0) /\
  fit_gibbs E c fuel (YList1 [-1; 2; 3]) SNone false IKmeans o s0 g0 = (Ok tt, s1, g1) /\
  fit_gibbs E c fuel (YList1 [-1; 2; 3]) SNone false IOther o s1 g1 = (Err AttributeError, s2, g2) /\ s_gfit s2 = true /\
  length (get_sim_params s1) = 1%nat /\ get_sim_params s2 = [] /\
  (exists l, gibbs_eap_density QE s1 None DNone None None = Ok (Some l)) /\ gibbs_eap_density QE s2 None DNone None None = Ok None.
Proof.
  exists flat_env, flat_qenv, (CDP 1), 60%nat, o_half. eexists _, _, _, _, _, _.
  split; [apply o_half_valid|]. split; [apply flat_finite|]. split; [vm_compute; reflexivity|]. split; [vm_compute; reflexivity|].
  split; [vm_compute; reflexivity|]. vm_compute. eauto 10.
Qed.
Lemma c48_var_refuted_proof : exists E QE c fuel o s0 g0 s1 g1 s2 g2 a b,
  valid_oracle o /\ finite_env E /\ new_mix c 0 0 None 1 None None 2 1 1 o = Ok (s0, g0) /\
  fit_gibbs E c fuel (YList1 [-1; 2; 3]) SNone false IKmeans o s0 g0 = (Ok tt, s1, g1) /\
  fit_variational E c (YList1 [-1; 1]) SNone false 1 IKmeans o s1 g1 = (Err AttributeError, s2, g2) /\
  gibbs_eap_density QE s1 None DNone None None = Ok (Some a) /\ gibbs_eap_density QE s2 None DNone None None = Ok (Some b) /\
  length a = 3%nat /\ length b = 2%nat.
Proof.
  exists flat_env, flat_qenv, (CDP 1), 60%nat, o_half. eexists _, _, _, _, _, _, _, _.
  split; [apply o_half_valid|]. split; [apply flat_finite|]. split; [vm_compute; reflexivity|]. split; [vm_compute; reflexivity|].
  split; [vm_compute; reflexivity|]. split; [vm_compute; reflexivity|]. split; [vm_compute; reflexivity|]. split; reflexivity.
Qed.

(* ---- C57 ---- *)
Lemma c57_truncation_proof : forall x, (0 <= x -> zq (py_int x) <= x /\ x < zq (py_int x) + 1) /\ (x <= 0 -> x <= zq (py_int x) /\ zq (py_int x) - 1 < x).
Proof.
  assert (P : forall n d, (0 <= n)%Z -> zq (py_int (n # d)) <= n # d /\ n # d < zq (py_int (n # d)) + 1).
  { intros n d Hn. unfold py_int, zq, Qle, Qlt, Qplus. simpl. rewrite Z.quot_div_nonneg by lia.
    pose proof (Z.div_mod n (Zpos d)). pose proof (Z.mod_pos_bound n (Zpos d)). split; nia. }
  intros [n d]. split; intros H; unfold Qle in H; simpl in H.
  - apply P. lia.
  - destruct (P (- n)%Z d) as [A B]; [lia|].
    assert (Eq : zq (py_int (- n # d)) == - zq (py_int (n # d))) by (unfold py_int; simpl; rewrite Z.quot_opp_l by lia; unfold zq, Qeq; simpl; lia).
    assert (Eq2 : - n # d == - (n # d)) by reflexivity. rewrite Eq, Eq2 in A, B. split; lra.
Qed.
Lemma c57_rejected_proof : forall c parg narg mu lam psi nu total burn sub o x, new_ws c parg narg o = Ok x -> total <= burn ->
  new_mix c parg narg mu lam psi nu total burn sub o = Err AssertionError.
Proof. intros c parg narg mu lam psi nu total burn sub o [s g] H L. unfold new_mix. rewrite H. destruct (qltb burn total) eqn:B; [apply qltb_lt in B; lra|reflexivity]. Qed.
Lemma c57_accepted_proof : forall c parg narg mu lam psi nu total burn sub o x, new_ws c parg narg o = Ok x -> burn < total ->
  exists s g, new_mix c parg narg mu lam psi nu total burn sub o = Ok (s, g) /\ s_total s = py_int total /\ s_burn s = py_int burn /\ s_sub s = py_int sub.
Proof. intros c parg narg mu lam psi nu total burn sub o [s g] H L. unfold new_mix. rewrite H. apply qltb_lt in L. rewrite L. eexists _, _. auto. Qed.
Definition settings (s : ms) := (s_total s, s_burn s, s_sub s).
Lemma settings_exec E c fuel op : keeps settings (exec_mop E c fuel op).
Proof. destruct op; simpl; [apply fit_gibbs_settings|]. apply (keeps_fit_variational settings); reflexivity. Qed.
Lemma settings_run E c fuel ops : forall o s g s' g', run_mops E c fuel ops o s g = (s', g') -> settings s' = settings s.
Proof.
  induction ops as [|op ops IH]; intros o s g s' g' H; simpl in H; [injection H as <- <-; reflexivity|].
  pose proof (settings_exec E c fuel op o s g) as K. destruct (exec_mop E c fuel op o s g) as [[r s1] g1]. simpl in K. rewrite <- K. eapply IH, H.
Qed.
Lemma py_int_z z : py_int (zq z) = z. Proof. unfold py_int, zq; simpl. apply Z.quot_1_r. Qed.
Lemma c57_saves_proof : forall E c fuel parg narg mu lam psi nu t b k o s0 g0 ops s g y ig meth s' g',
  (1 <= k)%Z -> new_mix c parg narg mu lam psi nu (zq t) (zq b) (zq k) o = Ok (s0, g0) -> run_mops E c fuel ops o s0 g0 = (s, g) ->
  fit_gibbs E c fuel y ig false meth o s g = (Ok tt, s', g') -> get_sim_params s' <> [].
Proof.
  intros E c fuel parg narg mu lam psi nu t b k o s0 g0 ops s g y ig meth s' g' Hk Hn Hr Hf.
  assert (S : settings s0 = (t, b, k) /\ (b < t)%Z).
  { unfold new_mix in Hn. destruct (new_ws c parg narg o) as [[s1 g1]|e|]; try discriminate Hn. destruct (qltb (zq b) (zq t)) eqn:L; [|discriminate Hn].
    injection Hn as <- _. unfold settings. simpl. rewrite !py_int_z. split; [reflexivity|]. apply qltb_lt in L. unfold zq, Qlt in L; simpl in L; lia. }
  destruct S as [S L]. pose proof (settings_run _ _ _ _ _ _ _ _ _ Hr) as S'. rewrite S in S'. injection S' as S1 S2 S3.
  destruct (c33_cold_proof E c fuel y ig meth o s g s' g') as [A _]; [lia|exact Hf|].
  intros Z. rewrite Z in A. simpl in A. unfold planned_saves in A. rewrite S1, S2, S3 in A.
  assert (1 <= ceil_div (t - b) k)%Z; [|lia]. unfold ceil_div. assert ((- (t - b)) / k < 0)%Z by (apply Z.div_lt_upper_bound; lia). lia.
Qed.
Lemma c57_nothing_saved_proof : forall E c fuel y ig meth o s g s' g', s_total s = s_burn s ->
  fit_gibbs E c fuel y ig false meth o s g = (Ok tt, s', g') -> get_sim_params s' = [] /\ s_gfit s' = true.
Proof.
  intros E c fuel y ig meth o s g s' g' Hs H. split; [|apply gibbs_flags in H as [H _]; rewrite H; apply orb_true_r].
  unfold fit_gibbs in H. apply bind_ok in H as ([] & s1 & g1 & H1 & H). apply bind_ok in H as ([] & s2 & g2 & H2 & H).
  apply bind_ok in H2 as ([] & s3 & g3 & H2 & H3).
  apply bind_ok in H as (s4 & s4' & g4 & [= <- <- <-] & H). apply bind_ok in H as ([] & s4 & g4 & H4 & H).
  assert (K : settings s2 = settings s).
  { transitivity (settings s3); [eapply (keeps_ok settings); [apply (keeps_update_map settings); reflexivity|exact H3]|].
    transitivity (settings s1); [eapply (keeps_ok settings); [apply keeps_settings_init_gibbs|exact H2]|].
    eapply (keeps_ok settings); [apply (keeps_init_common settings); reflexivity|exact H1]. }
  injection K as K1 K2 _. rewrite K1, K2, Hs, Z.sub_diag in H. injection H as <- <-. simpl.
  pose proof (wp_run o _ _ s1 g1 _ _ _ (init_gibbs_reset E c fuel ig meth o s1 g1) H2) as (_ & R1 & _).
  transitivity (s_sims s2); [eapply (keeps_ok s_sims); [apply keeps_burn, keeps_sweep; reflexivity|exact H4]|].
  rewrite <- R1. eapply (keeps_ok s_sims); [apply keeps_update_map; reflexivity|exact H3].
Qed.
Lemma c57_fractional_refuted_proof : exists E QE c fuel o s0 g0 s g,
  valid_oracle o /\ finite_env E /\ new_mix c 0 0 None 1 None None (19 # 10) (12 # 10) 1 o = Ok (s0, g0) /\
  fit_gibbs E c fuel (YList1 [-1; 2; 3]) SNone false IKmeans o s0 g0 = (Ok tt, s, g) /\
  get_sim_params s = [] /\ gibbs_eap_density QE s None DNone None None = Ok None.
Proof.
  exists flat_env, flat_qenv, (CDP 1), 60%nat, o_half. eexists _, _, _, _.
  split; [apply o_half_valid|]. split; [apply flat_finite|]. split; [vm_compute; reflexivity|]. split; [vm_compute; reflexivity|]. split; reflexivity.
Qed.
Lemma c57_zero_step_proof : forall E c fuel y ig warm meth o s g r s' g', s_sub s = 0%Z -> (s_burn s < s_total s)%Z ->
  fit_gibbs E c fuel y ig warm meth o s g = (r, s', g') -> is_ok r = false /\ s_gfit s' = s_gfit s.
Proof.
  intros E c fuel y ig warm meth o s g r s' g' Hs Hl H.
  assert (R : is_ok r = false).
  { destruct r as [[]|e|]; try reflexivity. exfalso.
    unfold fit_gibbs in H. apply bind_ok in H as ([] & s1 & g1 & H1 & H). apply bind_ok in H as ([] & s2 & g2 & H2 & H).
    apply bind_ok in H as (s4 & s4' & g4 & [= <- <- <-] & H). apply bind_ok in H as ([] & s4 & g4 & H4 & H).
    assert (K1 : settings s1 = settings s) by (eapply (keeps_ok settings); [apply (keeps_init_common settings); reflexivity|exact H1]).
    assert (K2 : settings s2 = settings s1).
    { destruct warm; [injection H2 as <- <-; reflexivity|]. apply bind_ok in H2 as ([] & s3 & g3 & H2 & H3).
      transitivity (settings s3); [eapply (keeps_ok settings); [apply (keeps_update_map settings); reflexivity|exact H3]|].
      eapply (keeps_ok settings); [apply keeps_settings_init_gibbs|exact H2]. }
    assert (K4 : settings s4 = settings s2) by (eapply (keeps_ok settings); [apply keeps_burn, keeps_sweep; reflexivity|exact H4]).
    rewrite K1 in K2. rewrite K2 in K4. injection K2 as A1 A2 A3. injection K4 as B1 B2 B3.
    apply bind_ok in H as ([] & s5 & g5 & H5 & _). rewrite A1, A2 in H5.
    destruct (Z.to_nat (s_total s - s_burn s)) as [|n] eqn:Nn; [lia|]. cbn [train_loop] in H5.
    apply bind_ok in H5 as ([] & s6 & g6 & H6 & H5).
    assert (K6 : settings s6 = settings s4) by (eapply (keeps_ok settings); [apply (keeps_sweep settings); reflexivity|exact H6]).
    injection K6 as _ _ C3. apply bind_ok in H5 as (s7 & s7' & g7 & [= <- <- <-] & H5). rewrite C3, B3, Hs in H5. discriminate H5. }
  split; [exact R|]. apply gibbs_flags in H as (F & _). rewrite F, R. apply orb_false_r.
Qed.

(* ---- C58 ---- *)
Lemma no_fit_var_weights c k D o s g r s' g' : supports_var c = false -> fit_var_weights c k D o s g = (r, s', g') -> r = Err NotImplementedError.
Proof. intros H. unfold fit_var_weights, onw, wm_fit_var, bind, raise. destruct c; try discriminate H; intros [= <- _ _]; reflexivity. Qed.
Lemma no_update_var_d E c o s g r s' g' : supports_var c = false -> update_var_d E c o s g = (r, s', g') -> is_ok r = false.
Proof.
  intros H. unfold update_var_d. unfold bind at 1, get. destruct (s_1d s); [intros [= <- _ _]; reflexivity|].
  destruct (vk _); [|intros [= <- _ _]; reflexivity]. destruct (_ <? _)%Z; [intros [= <- _ _]; reflexivity|]. rewrite H. intros [= <- _ _]; reflexivity.
Qed.
Lemma no_var E c y k warm tol meth o s g r s' g' : supports_var c = false -> warm = false \/ (1 <= s_total s)%Z ->
  fit_variational E c y k warm tol meth o s g = (r, s', g') -> is_ok r = false.
Proof.
  intros Hc Hw H. destruct r as [[]|e|]; try reflexivity. exfalso. unfold fit_variational in H.
  apply bind_ok in H as ([] & s1 & g1 & H1 & H). apply bind_ok in H as ([] & s2 & g2 & H2 & H). destruct warm.
  - destruct Hw as [Hw|Hw]; [discriminate Hw|]. injection H2 as <- <-.
    assert (K : s_total s1 = s_total s) by (eapply (keeps_ok s_total); [apply keeps_init_common; reflexivity|exact H1]).
    apply bind_ok in H as (s4 & s4' & g4 & [= <- <- <-] & H). apply bind_ok in H as (i & s4 & g4 & H4 & _). rewrite K in H4.
    destruct (Z.to_nat (s_total s)) as [|n] eqn:Nn; [lia|]. cbn [var_loop lx_ltb] in H4.
    apply bind_ok in H4 as ([] & s5 & g5 & H5 & _). unfold maximize_variational in H5.
    apply bind_ok in H5 as ([] & s6 & g6 & H6 & _). apply no_update_var_d in H6; [discriminate H6|exact Hc].
  - clear H Hw. apply bind_ok in H2 as (s3 & s3' & g3 & [= <- <- <-] & H2).
    assert (K : forall k b, exists r0 s0 g0, init_variational E c k b meth o s1 g1 = (r0, s0, g0) /\ is_ok r0 = false).
    { intros k0 b. destruct (init_variational E c k0 b meth o s1 g1) as [[r0 s0] g0] eqn:I. exists r0, s0, g0. split; [reflexivity|].
      destruct r0 as [[]|e|]; try reflexivity. exfalso. unfold init_variational in I.
      apply bind_ok in I as (? & ? & ? & _ & I). apply bind_ok in I as (? & ? & ? & _ & I). apply bind_ok in I as (? & ? & ? & _ & I).
      apply no_fit_var_weights in I; [discriminate I|exact Hc]. }
    destruct k; [destruct (s_n s1); [|discriminate H2]| | |apply bind_ok in H2 as (? & ? & ? & _ & H2); destruct meth; discriminate H2];
      match type of H2 with init_variational _ _ ?a ?b _ _ _ _ = _ => destruct (K a b) as (r0 & s0 & g0 & K1 & K2) end; rewrite K1 in H2; injection H2 as -> _ _; discriminate K2.
Qed.
Lemma c58_never_fits_proof : forall E c y k warm tol meth o s g r s' g', supports_var c = false -> warm = false \/ (1 <= s_total s)%Z ->
  fit_variational E c y k warm tol meth o s g = (r, s', g') -> is_ok r = false /\ s_vfit s' = s_vfit s.
Proof.
  intros E c y k warm tol meth o s g r s' g' Hc Hw H. pose proof (no_var _ _ _ _ _ _ _ _ _ _ _ _ _ Hc Hw H) as R. split; [exact R|].
  apply var_flags in H as (_ & V & _). rewrite V, R. apply orb_false_r.
Qed.
Lemma c58_history_proof : forall E c fuel ops o s g s' g', supports_var c = false -> (1 <= s_total s)%Z -> s_vfit s = false ->
  run_mops E c fuel ops o s g = (s', g') -> s_vfit s' = false.
Proof.
  intros E c fuel ops; induction ops as [|op ops IH]; intros o s g s' g' Hc Ht Hv H; simpl in H; [injection H as <- <-; exact Hv|].
  destruct (exec_mop E c fuel op o s g) as [[r s1] g1] eqn:X.
  pose proof (settings_exec E c fuel op o s g) as KS. rewrite X in KS. injection KS as KS _ _.
  eapply IH; [exact Hc|rewrite KS; exact Ht| |exact H].
  destruct op as [y ig warm meth|y k warm tol meth]; simpl in X.
  2: { apply c58_never_fits_proof in X as [_ X]; [congruence|exact Hc|right; exact Ht]. }
  set (R := fun a b : ms => s_vfit a = false -> s_vfit b = false).
  assert (RT : forall a b d, R a b -> R b d -> R a d) by (unfold R; auto).
  assert (RK : forall A (m : M ms A), keeps s_vfit m -> mono R m) by (intros A m K o' s0 g0; specialize (K o' s0 g0); unfold R; congruence).
  assert (KW : keeps s_vfit (sweep E c fuel)) by (apply keeps_sweep; reflexivity).
  assert (M : mono R (fit_gibbs E c fuel y ig warm meth)); [|specialize (M o s g); rewrite X in M; exact (M Hv)].
  unfold fit_gibbs. apply mono_bind; [exact RT|apply RK, keeps_init_common; reflexivity|intros _]. apply mono_bind; [exact RT| |intros _].
  - destruct warm; [apply RK, keeps_ret|]. apply mono_bind; [exact RT| |intros _; apply RK, keeps_update_map; reflexivity].
    unfold init_gibbs. do 7 (apply mono_bind; [exact RT|apply RK; keep; reflexivity|intros ?]).
    apply mono_bind; [exact RT| |intros ?].
    { apply RK. destruct (is_snone ig); [apply keeps_tail_to_slice; reflexivity|keep; reflexivity]. }
    destruct meth; try (apply RK; keep; reflexivity).
    apply mono_bind; [exact RT|apply RK, keeps_get|intros ?].
    apply mono_bind; [exact RT| |intros ?; apply RK; keep; reflexivity].
    intros o' s0 g0. match goal with |- R _ (snd (fst ?t)) => destruct t as [[q t1] t2] eqn:V end.
    apply c58_never_fits_proof in V as (_ & V); [unfold R; simpl; congruence|exact Hc|left; reflexivity].
  - apply RK. keep; try reflexivity; try (apply keeps_burn; exact KW); apply keeps_train; [exact KW|apply keeps_save; reflexivity].
Qed.
Lemma class_n_run E c fuel ops : forall o s g s' g', run_mops E c fuel ops o s g = (s', g') -> s_n s' = s_n s.
Proof.
  induction ops as [|op ops IH]; intros o s g s' g' H; simpl in H; [injection H as <- <-; reflexivity|].
  assert (K : keeps s_n (exec_mop E c fuel op)).
  { destruct op; simpl; [|apply keeps_fit_variational; reflexivity].
    assert (KW : keeps s_n (sweep E c fuel)) by (apply keeps_sweep; reflexivity).
    unfold fit_gibbs, init_gibbs. keep; try reflexivity; try (apply keeps_burn; exact KW); try (apply keeps_train; [exact KW|apply keeps_save; reflexivity]);
      try (apply keeps_init_common; reflexivity); try (apply keeps_update_map; reflexivity); try (apply keeps_tail_to_slice; reflexivity); apply keeps_fit_variational; reflexivity. }
  specialize (K o s g). destruct (exec_mop E c fuel op o s g) as [[r s1] g1]. simpl in K. rewrite <- K. eapply IH, H.
Qed.
Lemma c58_no_groups_proof : forall E c fuel parg narg mu lam psi nu t b k o s0 g0 ops s g y tol meth,
  supports_var c = false -> new_mix c parg narg mu lam psi nu t b k o = Ok (s0, g0) -> run_mops E c fuel ops o s0 g0 = (s, g) ->
  is_data y = true -> has_nu s y -> fst (fst (fit_variational E c y SNone false tol meth o s g)) = Err AttributeError.
Proof.
  intros E c fuel parg narg mu lam psi nu t b k o s0 g0 ops s g y tol meth Hc Hn Hr D N.
  assert (Sn : s_n s = None).
  { rewrite (class_n_run _ _ _ _ _ _ _ _ _ Hr). unfold new_mix in Hn. destruct (new_ws c parg narg o) as [[s1 g1]|e|]; try discriminate Hn.
    destruct (qltb b t); [|discriminate Hn]. injection Hn as <- _. simpl. destruct c; try discriminate Hc; reflexivity. }
  destruct (c48_no_groups_proof E c y tol meth o s g D N Sn) as (s' & H & _). rewrite H. reflexivity.
Qed.
Lemma c58_groups_proof : forall E c y k tol o s g, argsorts (e_argsort E) -> supports_var c = false ->
  is_data y = true -> (forall l, y <> YSeries l) -> (1 <= k <= Z.of_nat (length (rows_of y)))%Z ->
  fst (fst (fit_variational E c y (SInt k) false tol IKmeans o s g)) = Err NotImplementedError.
Proof.
  intros E c y k tol o s g Ha Hc D NS Hk. destruct (init_common_ok y o s g D (or_intror NS)) as (s1 & I).
  pose proof (wp_run o _ _ s g _ _ _ (init_common_rows y o s g D) I) as Y; simpl in Y.
  assert (Y1 : s_1d s1 = false).
  { destruct y; try discriminate D; try (exfalso; eapply NS; reflexivity); unfold init_common, bind, upd, get in I; simpl in I; destruct (s_nu s); injection I as <-; reflexivity. }
  unfold fit_variational. rewrite (ok_bind _ _ _ _ _ _ _ _ I).
  set (sv := upd_var (VST (Some k) (vresp (s_var s1)) [] (vwd (s_var s1))) s1).
  destruct (c45_relabel_proof (e_argsort E) ms sv (s_y s1) k o g Ha) as (l & K & _); [rewrite Y; exact Hk|].
  assert (J : exists s2 g2, init_variational E c k true IKmeans o s1 g = (Err NotImplementedError, s2, g2)).
  { destruct (init_variational E c k true IKmeans o s1 g) as [[r s2] g2] eqn:J. exists s2, g2. 
    unfold init_variational in J. unfold bind at 1, upd at 1 in J. fold sv in J.
    unfold bind at 1 2, get at 1 in J. simpl s_1d in J. rewrite Y1 in J. unfold bind at 1, ret at 1 in J.
    unfold bind at 1 in J. change (s_y sv) with (s_y s1) in J. rewrite K in J. unfold bind at 1, upd at 1 in J. unfold bind at 1 in J.
    match type of J with context [fit_var_weights c k ?D o ?s ?g] => destruct (fit_var_weights c k D o s g) as [[q s3] g3] eqn:F end.
    apply no_fit_var_weights in F; [|exact Hc]. subst q. injection J as <- _ _. reflexivity. }
  destruct J as (s2 & g2 & J). unfold bind at 1 2, get at 1. rewrite J. reflexivity.
Qed.
Lemma c58_marked_refuted_proof : exists E c o s0 g0 s g, valid_oracle o /\ finite_env E /\ supports_var c = false /\
  new_mix c 0 0 None 1 None None 0 (-1) 1 o = Ok (s0, g0) /\
  fit_variational E c (YList1 [-1; 2; 3]) SNone true 1 IKmeans o s0 g0 = (Ok tt, s, g) /\ s_vfit s = true.
Proof.
  exists flat_env, (CBB 1 1), o_half. eexists _, _, _, _. split; [apply o_half_valid|]. split; [apply flat_finite|]. split; [reflexivity|].
  split; [vm_compute; reflexivity|]. split; [vm_compute; reflexivity|]. reflexivity.
Qed.
Definition sorted_env : env := {| e_logpdf := e_logpdf flat_env; e_log := e_log flat_env; e_argsort := stable_argsort; e_inv := e_inv flat_env;
  e_vd := e_vd flat_env; e_vtheta := e_vtheta flat_env; e_elbo := e_elbo flat_env |}.
