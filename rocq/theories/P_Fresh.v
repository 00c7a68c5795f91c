(* A fresh Gibbs fit (C36). *)
From Verif Require Import Prelude Numpy Rng M_Weights M_Niw M_Utils M_Mix M_Query S_Oracle S_Niw S_Mix S_Fresh S_MixEx P_Lists P_Wp P_Mix P_Mix33 P_Mix37 P_Resp P_Map P_MixEx P_Niw.
Open Scope Q_scope.
Open Scope m_scope.

Lemma resp_run {A} (v : ms -> ms) (m : M ms A) o s1 s2 g r t g' : resp v m -> m o s1 g = (r, t, g') -> v s1 = v s2 ->
  exists t2, m o s2 g = (r, t2, g') /\ v t = v t2.
Proof. intros H Hm Hv. specialize (H o s1 s2 g Hv). rewrite Hm in H. destruct (m o s2 g) as [[r2 t2] g2]. destruct H as (-> & -> & H). eauto. Qed.

(* without_run, but with the data *)
Definition keep_data (s : ms) : ms :=
  upd_flags false (s_vfit s) (s_vconv s) (upd_d None (upd_theta [] (upd_gen false (upd_u [] (upd_aff [] (upd_sims 0 [] [] [] s)))))).
Lemma without_obs y o s1 s2 g s' g' : without_run s1 = without_run s2 -> set_obs y o s1 g = (Ok tt, s', g') ->
  exists t, set_obs y o s2 g = (Ok tt, t, g') /\ keep_data s' = keep_data t.
Proof.
  intros H. assert (K : forall l k b, keep_data (upd_y l k b s1) = keep_data (upd_y l k b s2)).
  { intros l k b. change (upd_y l k b (without_run s1) = upd_y l k b (without_run s2)). rewrite H. reflexivity. }
  destruct y; simpl; intros [= <- <-]; eexists; (split; [reflexivity|apply K]).
Qed.
Lemma without_common y o s1 s2 g s' g' : without_run s1 = without_run s2 -> init_common y o s1 g = (Ok tt, s', g') ->
  exists t, init_common y o s2 g = (Ok tt, t, g') /\ keep_data s' = keep_data t.
Proof.
  unfold init_common. intros H Hc. apply bind_ok in Hc as ([] & a & h & H1 & H2).
  destruct (without_obs _ _ _ _ _ _ _ H H1) as (t & G1 & G2). rewrite (ok_bind _ _ _ _ _ _ _ _ G1).
  eapply resp_run; [|exact H2|exact G2].
  apply resp_bind; [apply resp_upd; reflexivity|]. intros _. apply resp_get; [reflexivity|]. intros u.
  destruct (s_nu u); [apply resp_ret|]. destruct (s_1d u); [apply resp_raise|]. apply resp_upd; reflexivity.
Qed.

Lemma init_gibbs_split E c fuel ig meth o s g s' g' : init_gibbs E c fuel ig meth o s g = (Ok tt, s', g') ->
  forall t, keep_data s = keep_data t -> exists t', init_gibbs E c fuel ig meth o t g = (Ok tt, t', g') /\
    upd_flags false (s_vfit s') (s_vconv s') s' = upd_flags false (s_vfit t') (s_vconv t') t'.
Proof.
  intros H t Ht. unfold init_gibbs in *.
  apply bind_ok in H as ([] & a1 & h1 & [= <- <-] & H). apply bind_ok in H as ([] & a1 & h1 & [= <- <-] & H).
  apply bind_ok in H as ([] & a1 & h1 & [= <- <-] & H). apply bind_ok in H as (a0 & a1 & h1 & [= <- <- <-] & H).
  apply bind_ok in H as ([] & a1 & h1 & [= <- <-] & H). apply bind_ok in H as (u & a1 & h1 & Hu & H).
  apply bind_ok in H as ([] & a2 & h2 & [= <- <-] & H).
  cbn [s_y upd_gen upd_theta upd_sims] in Hu. simpl in H.
  rewrite (ok_bind (upd _) _ _ _ _ tt _ _ eq_refl), (ok_bind (upd _) _ _ _ _ tt _ _ eq_refl), (ok_bind (upd _) _ _ _ _ tt _ _ eq_refl),
    (ok_bind get _ _ _ _ _ _ _ eq_refl), (ok_bind (upd _) _ _ _ _ tt _ _ eq_refl).
  assert (Ey : s_y t = s_y s) by (change (s_y (keep_data t) = s_y (keep_data s)); rewrite Ht; reflexivity).
  simpl. rewrite Ey. 
  assert (Hu' : forall z : ms, exists z', unif_many (repeat (eps, 1) (length (s_y s))) o z g = (Ok u, z', h1) /\ z' = z).
  { intros z. injection Hu as <- _ <-. eexists; split; reflexivity. }
  assert (Ha1 : a1 = upd_aff (repeat (repeat 0%nat (length (s_y s))) (length (s_y s))) (upd_gen true (upd_theta [] (upd_sims 0 [] [] [] s)))) by (injection Hu; auto).
  subst a1.
  match goal with |- context [bind (unif_many _) _ _ ?z _] => destruct (Hu' z) as (z' & Z1 & ->); rewrite (ok_bind _ _ _ _ _ _ _ _ Z1) end.
  rewrite (ok_bind (upd _) _ _ _ _ tt _ _ eq_refl).
  match type of H with _ _ ?x _ = _ => match goal with |- context [(_ <- (if is_snone _ then _ else _) ;; _) _ ?z _] => assert (V : wipe false x = wipe false z) end end.
  { unfold wipe. change (upd_u u (upd_aff (repeat (repeat 0%nat (length (s_y s))) (length (s_y s))) (upd_gen true (keep_data s))) =
                         upd_u u (upd_aff (repeat (repeat 0%nat (length (s_y s))) (length (s_y s))) (upd_gen true (keep_data t)))). rewrite Ht. reflexivity. }
  assert (En : s_n t = s_n s) by (change (s_n (keep_data t) = s_n (keep_data s)); rewrite Ht; reflexivity).
  assert (E1 : s_1d t = s_1d s) by (change (s_1d (keep_data t) = s_1d (keep_data s)); rewrite Ht; reflexivity).
  rewrite En, E1. 
  revert H V. generalize (upd_u u (upd_aff (repeat (repeat 0%nat (length (s_y s))) (length (s_y s))) (upd_gen true (upd_theta [] (upd_sims 0 [] [] [] s))))).
  match goal with |- forall m, _ -> wipe false m = wipe false ?z -> _ => generalize z end.
  intros z x H V. clear Hu Hu' Z1 Ht. generalize (s_n s) (s_1d s) (length (s_y s)) H V. clear. intros sn s1 n H V.
  apply bind_ok in H as ([] & a & h & H1 & H).
  assert (R1 : resp (wipe false) (if is_snone ig then tail_to_slice c fuel else onw (wm_complete c ig) ;; ret tt)).
  { destruct (is_snone ig); [apply resp_tail|rsp]. }
  destruct (resp_run _ _ _ _ _ _ _ _ _ R1 H1 V) as (b & B1 & B2). rewrite (ok_bind _ _ _ _ _ _ _ _ B1).
  assert (F : forall l x1 y1, wipe false x1 = wipe false y1 ->
     upd_flags false (s_vfit (upd_d (Some l) x1)) (s_vconv (upd_d (Some l) x1)) (upd_d (Some l) x1) =
     upd_flags false (s_vfit (upd_d (Some l) y1)) (s_vconv (upd_d (Some l) y1)) (upd_d (Some l) y1)).
  { intros l x1 y1 X. change (upd_d (Some l) (wipe false x1) = upd_d (Some l) (wipe false y1)). rewrite X. reflexivity. }
  destruct meth.
  - apply bind_ok in H as ([] & a2 & h2 & H2 & H). destruct s1; [discriminate H2|]. injection H2 as <- <-.
    apply bind_ok in H as (l & a2 & h2 & H2 & H). injection H as <- <-.
    rewrite (ok_bind (ret tt) _ _ _ _ tt _ _ eq_refl).
    assert (Ea : s_y b = s_y a) by (change (s_y (wipe false b) = s_y (wipe false a)); rewrite B2; reflexivity).
    destruct (resp_run _ _ _ _ b _ _ _ _ (resp_km _ _ _ _) H2 B2) as (b2 & C1 & C2).
    rewrite (ok_bind _ _ _ _ _ _ _ _ C1). eexists. split; [reflexivity|]. apply F, C2.
  - apply bind_ok in H as (l & a2 & h2 & H2 & H). injection H as <- <-.
    assert (R2 : resp (wipe false) (onw (wm_random_assignment (SInt (Z.of_nat n))))) by rsp.
    destruct (resp_run _ _ _ _ b _ _ _ _ R2 H2 B2) as (b2 & C1 & C2).
    rewrite (ok_bind _ _ _ _ _ _ _ _ C1). eexists. split; [reflexivity|]. apply F, C2.
  - apply bind_ok in H as (a' & a2 & h2 & [= <- <- <-] & H). apply bind_ok in H as ([] & a2 & h2 & H2 & H).
    apply bind_ok in H as (a3 & a4 & h3 & [= <- <- <-] & H). injection H as <- <-.
    rewrite (ok_bind get _ _ _ _ _ _ _ eq_refl).
    assert (Ea : (if s_1d b then YArr1 (map (fun r => vat r 0) (s_y b)) else YArr2 (s_y b) (s_dim b), SInt (Z.of_nat (length (w (s_wm b))))) =
                 (if s_1d a then YArr1 (map (fun r => vat r 0) (s_y a)) else YArr2 (s_y a) (s_dim a), SInt (Z.of_nat (length (w (s_wm a)))))).
    { change ((fun q => (if s_1d q then YArr1 (map (fun r => vat r 0) (s_y q)) else YArr2 (s_y q) (s_dim q), SInt (Z.of_nat (length (w (s_wm q)))))) (wipe false b) =
              (fun q => (if s_1d q then YArr1 (map (fun r => vat r 0) (s_y q)) else YArr2 (s_y q) (s_dim q), SInt (Z.of_nat (length (w (s_wm q)))))) (wipe false a)).
      rewrite B2. reflexivity. }
    injection Ea as Ea1 Ea2. rewrite Ea1, Ea2.
    destruct (resp_run _ _ _ _ b _ _ _ _ (resp_fit_variational E c false _ _ _ _ _) H2 B2) as (b2 & C1 & C2).
    rewrite (ok_bind _ _ _ _ _ _ _ _ C1), (ok_bind get _ _ _ _ _ _ _ eq_refl). eexists. split; [reflexivity|].
    assert (Eb : argmax0 (vresp (s_var b2)) (length (s_y b2)) = argmax0 (vresp (s_var a2)) (length (s_y a2))).
    { change (argmax0 (vresp (s_var (wipe false b2))) (length (s_y (wipe false b2))) = argmax0 (vresp (s_var (wipe false a2))) (length (s_y (wipe false a2)))).
      rewrite C2. reflexivity. }
    rewrite Eb. apply F, C2.
  - discriminate H.
Qed.

Lemma c36_fresh_proof : forall E c fuel y ig meth o s1 s2 g s' g', without_run s1 = without_run s2 ->
  fit_gibbs E c fuel y ig false meth o s1 g = (Ok tt, s', g') -> fit_gibbs E c fuel y ig false meth o s2 g = (Ok tt, s', g').
Proof.
  intros E c fuel y ig meth o s1 s2 g s' g' Hs H. unfold fit_gibbs in *.
  apply bind_ok in H as ([] & a & h & H1 & H). destruct (without_common _ _ _ _ _ _ _ Hs H1) as (b & B1 & B2).
  rewrite (ok_bind _ _ _ _ _ _ _ _ B1).
  apply bind_ok in H as ([] & a2 & h2 & H2 & H). apply bind_ok in H2 as ([] & a1 & h1 & H2 & H3).
  destruct (init_gibbs_split _ _ _ _ _ _ _ _ _ _ H2 _ B2) as (b1 & C1 & C2). fold (nog a1) (nog b1) in C2.
  destruct (resp_run _ _ _ _ _ _ _ _ _ (nog_update_map E c) H3 C2) as (b2 & D1 & D2).
  assert (X : (init_gibbs E c fuel ig meth ;; update_map E c) o b h = (Ok tt, b2, h2)) by (rewrite (ok_bind _ _ _ _ _ _ _ _ C1); exact D1).
  rewrite (ok_bind _ _ _ _ _ _ _ _ X). clear X.
  apply bind_ok in H as (a3 & a4 & h3 & [= <- <- <-] & H). rewrite (ok_bind get _ _ _ _ _ _ _ eq_refl).
  assert (Es : (s_burn b2, s_total b2) = (s_burn a2, s_total a2))
    by (change ((fun q => (s_burn q, s_total q)) (nog b2) = (fun q => (s_burn q, s_total q)) (nog a2)); rewrite D2; reflexivity).
  injection Es as -> ->.
  apply bind_ok in H as ([] & a4 & h4 & H4 & H). destruct (resp_run _ _ _ _ _ _ _ _ _ (nog_burn E c fuel _) H4 D2) as (b4 & F1 & F2).
  rewrite (ok_bind _ _ _ _ _ _ _ _ F1).
  apply bind_ok in H as ([] & a5 & h5 & H5 & H). destruct (resp_run _ _ _ _ _ _ _ _ _ (nog_train E c fuel _ _) H5 F2) as (b5 & G1 & G2).
  rewrite (ok_bind _ _ _ _ _ _ _ _ G1). injection H as <- <-. unfold upd. f_equal. f_equal.
  change (upd_flags true (s_vfit (nog b5)) (s_vconv (nog b5)) (nog b5) = upd_flags true (s_vfit (nog a5)) (s_vconv (nog a5)) (nog a5)).
  rewrite G2. reflexivity.
Qed.

(* priors *)
Definition pri (s s' : ms) : Prop :=
  (s_mu s <> PNone -> s_mu s' = s_mu s) /\ (s_psi s <> PNone -> s_psi s' = s_psi s) /\ (s_nu s <> None -> s_nu s' = s_nu s) /\ s_lam s' = s_lam s.
Lemma pri_refl s : pri s s. Proof. repeat split. Qed.
Lemma pri_trans a b d : pri a b -> pri b d -> pri a d.
Proof. intros (A1 & A2 & A3 & A4) (B1 & B2 & B3 & B4). repeat split; intros; try congruence; [rewrite B1, A1|rewrite B2, A2|rewrite B3, A3]; try rewrite ?A1, ?A2, ?A3; auto. Qed.
Definition pf (s : ms) := (s_mu s, s_psi s, s_nu s, s_lam s).
Lemma pri_keeps {A} (m : M ms A) : keeps pf m -> mono pri m.
Proof. intros H o s g. specialize (H o s g). injection H as H1 H2 H3 H4. repeat split; auto. Qed.
Lemma init_common_cases y o s g : is_data y = true -> exists l k b, l = rows_of y /\
  let t := upd_y l k b s in let u := upd_prior (mu_default t) (psi_default t) (s_nu t) t in
  init_common y o s g = match s_nu s with
    | Some _ => (Ok tt, u, g)
    | None => if b then (Err IndexError, u, g) else (Ok tt, upd_prior (s_mu u) (s_psi u) (Some (nq k)) u, g) end.
Proof. intros H. destruct y; try discriminate H; do 3 eexists; (split; [reflexivity|]); unfold init_common, bind, upd, get; simpl; destruct (s_nu s); reflexivity. Qed.
Lemma init_common_bad y o s g : is_data y = false -> init_common y o s g = (Err TypeError, s, g).
Proof. intros H. destruct y; try discriminate H; reflexivity. Qed.
Lemma pri_init_common y : mono pri (init_common y).
Proof.
  intros o s g. destruct (is_data y) eqn:D; [|rewrite init_common_bad by exact D; apply pri_refl].
  destruct (init_common_cases y o s g D) as (l & k & b & _ & ->). cbv zeta.
  destruct (s_nu s) eqn:N; [|destruct b]; unfold pri, mu_default, psi_default; simpl;
    (split; [destruct (s_mu s); congruence|split; [destruct (s_psi s); congruence|split; congruence]]).
Qed.
Lemma set_init_common y o s g r s' g' : is_data y = true -> init_common y o s g = (r, s', g') -> s_mu s' <> PNone /\ s_psi s' <> PNone.
Proof.
  intros D. destruct (init_common_cases y o s g D) as (l & k & b & _ & ->). cbv zeta.
  assert (K : forall t, mu_default t <> PNone /\ psi_default t <> PNone).
  { intros t. unfold mu_default, psi_default. split; [destruct (s_mu t); try discriminate; destruct (is_nil _); discriminate|destruct (s_psi t); try discriminate; destruct (_ <=? _)%nat; discriminate]. }
  destruct (s_nu s); [|destruct b]; intros [= <- <- <-]; simpl; apply K.
Qed.
Lemma pri_fit_variational E c y k warm tol meth : mono pri (fit_variational E c y k warm tol meth).
Proof.
  unfold fit_variational. apply mono_bind; [exact pri_trans|apply pri_init_common|intros _]. apply pri_keeps.
  keep; try reflexivity; try (apply keeps_init_variational; reflexivity). apply keeps_var_loop; reflexivity.
Qed.
Ltac pstep := first [apply mono_bind; [exact pri_trans| |intros ?]|apply pri_keeps; keep; reflexivity].
Lemma pri_init_gibbs E c fuel ig meth : mono pri (init_gibbs E c fuel ig meth).
Proof.
  unfold init_gibbs. do 7 (apply mono_bind; [exact pri_trans|apply pri_keeps; keep; reflexivity|intros ?]).
  apply mono_bind; [exact pri_trans| |intros ?].
  { apply pri_keeps. destruct (is_snone ig); [apply keeps_tail_to_slice; reflexivity|keep; reflexivity]. }
  destruct meth.
  - apply pri_keeps; keep; reflexivity.
  - apply pri_keeps; keep; reflexivity.
  - apply mono_bind; [exact pri_trans|apply pri_keeps, keeps_get|intros ?].
    apply mono_bind; [exact pri_trans|apply pri_fit_variational|intros ?]. apply pri_keeps; keep; reflexivity.
  - apply pri_keeps, keeps_raise.
Qed.
Lemma pri_exec E c fuel op : mono pri (exec_mop E c fuel op).
Proof.
  destruct op as [y ig warm meth|y k warm tol meth]; simpl; [|apply pri_fit_variational].
  assert (KS : keeps pf (sweep E c fuel)) by (apply keeps_sweep; reflexivity).
  unfold fit_gibbs. apply mono_bind; [exact pri_trans|apply pri_init_common|intros _].
  apply mono_bind; [exact pri_trans| |intros _].
  { destruct warm; [apply pri_keeps, keeps_ret|]. apply mono_bind; [exact pri_trans|apply pri_init_gibbs|intros _].
    apply pri_keeps, keeps_update_map; reflexivity. }
  apply pri_keeps. keep; try reflexivity; try (apply keeps_burn; exact KS); apply keeps_train; [exact KS|apply keeps_save; reflexivity].
Qed.
Lemma pri_run E c fuel ops : forall o s g s' g', run_mops E c fuel ops o s g = (s', g') -> pri s s'.
Proof.
  induction ops as [|op ops IH]; intros o s g s' g' H; simpl in H; [injection H as <- <-; apply pri_refl|].
  pose proof (pri_exec E c fuel op o s g) as K. destruct (exec_mop E c fuel op o s g) as [[r s1] g1]. simpl in K.
  eapply pri_trans; [exact K|eapply IH, H].
Qed.
(* a fit begins with init_common and the rest keeps what it set *)
Lemma exec_first E c fuel op o s g r s' g' : is_data (mop_data op) = true -> exec_mop E c fuel op o s g = (r, s', g') ->
  exists r1 s1 g1, init_common (mop_data op) o s g = (r1, s1, g1) /\ pri s1 s'.
Proof.
  intros D H. destruct (init_common (mop_data op) o s g) as [[r1 s1] g1] eqn:I. exists r1, s1, g1. split; [reflexivity|].
  destruct op as [y ig warm meth|y k warm tol meth]; simpl in *; [unfold fit_gibbs in H|unfold fit_variational in H]; unfold bind at 1 in H; rewrite I in H;
    (destruct r1 as [[]|e|]; [|injection H as <- <- <-; apply pri_refl|injection H as <- <- <-; apply pri_refl]).
  - match type of H with ?m o s1 g1 = _ => assert (K : mono pri m); [|specialize (K o s1 g1); rewrite H in K; exact K] end.
    assert (KS : keeps pf (sweep E c fuel)) by (apply keeps_sweep; reflexivity).
    apply mono_bind; [exact pri_trans| |intros _].
    { destruct warm; [apply pri_keeps, keeps_ret|]. apply mono_bind; [exact pri_trans|apply pri_init_gibbs|intros _].
      apply pri_keeps, keeps_update_map; reflexivity. }
    apply pri_keeps. keep; try reflexivity; try (apply keeps_burn; exact KS); apply keeps_train; [exact KS|apply keeps_save; reflexivity].
  - match type of H with ?m o s1 g1 = _ => assert (K : mono pri m); [|specialize (K o s1 g1); rewrite H in K; exact K] end.
    apply pri_keeps. keep; try reflexivity; try (apply keeps_init_variational; reflexivity). apply keeps_var_loop; reflexivity.
Qed.

Lemma c36_priors_frozen_proof : forall E c fuel op ops o s g r s1 g1 s2 g2, is_data (mop_data op) = true ->
  exec_mop E c fuel op o s g = (r, s1, g1) -> run_mops E c fuel ops o s1 g1 = (s2, g2) ->
  s_mu s2 = s_mu s1 /\ s_psi s2 = s_psi s1 /\ s_lam s2 = s_lam s1 /\ (s_nu s1 <> None -> s_nu s2 = s_nu s1).
Proof.
  intros E c fuel op ops o s g r s1 g1 s2 g2 D H R. destruct (exec_first _ _ _ _ _ _ _ _ _ _ D H) as (r0 & s0 & g0 & I & (P1 & P2 & _)).
  destruct (set_init_common _ _ _ _ _ _ _ D I) as [N1 N2]. destruct (pri_run _ _ _ _ _ _ _ _ _ R) as (Q1 & Q2 & Q3 & Q4).
  repeat split; auto; [apply Q1; rewrite P1|apply Q2; rewrite P2]; auto.
Qed.
Lemma c36_prior_mean_proof : forall E c fuel op o s g r s' g', is_data (mop_data op) = true -> rows_of (mop_data op) <> [] -> s_mu s = PNone ->
  exec_mop E c fuel op o s g = (r, s', g') -> exists m, s_mu s' = PVal m /\
    forall i, (i < length m)%nat -> coord i m == sum_over (coord i) (rows_of (mop_data op)) / nq (length (rows_of (mop_data op))).
Proof.
  intros E c fuel op o s g r s' g' D NE Hm H. destruct (exec_first _ _ _ _ _ _ _ _ _ _ D H) as (r0 & s0 & g0 & I & (P1 & _)).
  destruct (set_init_common _ _ _ _ _ _ _ D I) as [N1 _].
  destruct (init_common_cases (mop_data op) o s g D) as (l & k & b & -> & X). cbv zeta in X. rewrite I in X.
  assert (M : s_mu s0 = PVal (mk_vec k (mean_at (rows_of (mop_data op))))).
  { assert (Y : s_mu s0 = mu_default (upd_y (rows_of (mop_data op)) k b s)) by (destruct (s_nu s); [|destruct b]; injection X as _ -> _; reflexivity).
    rewrite Y. unfold mu_default. simpl. rewrite Hm. destruct (rows_of (mop_data op)); [congruence|reflexivity]. }
  exists (mk_vec k (mean_at (rows_of (mop_data op)))). rewrite (P1 N1). split; [exact M|].
  unfold mk_vec. rewrite map_length, seq_length. intros i Hi. unfold coord at 1.
  rewrite (nth_indep _ 0 (mean_at (rows_of (mop_data op)) 0)) by (rewrite map_length, seq_length; exact Hi).
  rewrite map_nth, seq_nth by exact Hi. simpl. unfold mean_at. rewrite row_sum_over. reflexivity.
Qed.

(* log densities that are the larger the larger the data *)
Definition steep_env : env := ex_env (fun r _ => LQ (vat r 0)).
Lemma steep_finite : finite_env steep_env.
Proof.
  intros rows a l [= <-]. split; [apply map_length|]. apply Forall_forall. intros x Hx. apply in_map_iff in Hx as (r & <- & _). eauto.
Qed.
(* the MAP state of the first data set, with three labels, survives the fit to a
   data set of two *)
Lemma c36_map_survives_refuted_proof : exists E c fuel o s0 g0 s1 g1 s2 g2 r,
  valid_oracle o /\ finite_env E /\ new_mix c 0 0 None 1 None None 2 1 1 o = Ok (s0, g0) /\
  fit_gibbs E c fuel (YList1 [5; -6; 7]) SNone false IKmeans o s0 g0 = (Ok tt, s1, g1) /\
  fit_gibbs E c fuel (YList1 [-1; 1]) SNone false IKmeans o s1 g1 = (Ok tt, s2, g2) /\
  s_map s2 = Some r /\ s_map s1 = Some r /\ length (r_d r) = 3%nat /\ s_y s2 = [[-1]; [1]] /\ s_mapll s2 = s_mapll s1.
Proof.
  exists steep_env, (CDP 1), 60%nat, o_half. eexists _, _, _, _, _, _, _.
  split; [apply o_half_valid|]. split; [apply steep_finite|]. split; [vm_compute; reflexivity|]. split; [vm_compute; reflexivity|].
  split; [vm_compute; reflexivity|]. split; [vm_compute; reflexivity|]. split; vm_compute; auto.
Qed.
