(* Shapes of the data argument (C54). *)
From Verif Require Import Prelude Numpy Rng M_Weights M_Niw M_Utils M_Mix M_Query S_Oracle S_Weights S_Niw S_Mix S_Flags S_Fresh S_Query S_VarFit P_Lists P_Wp P_Mix P_Mix33 P_Mix37 P_Map P_Flags P_Fresh P_Fail P_VarQ.
Open Scope Q_scope.

(* ---- what a fit stores ---- *)
Definition flat_ok (s : ms) : Prop := s_1d s = true -> s_dim s = 1%nat /\ exists l, s_y s = column l.
Lemma init_common_shape y o s g s' g' : init_common y o s g = (Ok tt, s', g') ->
  is_data y = true /\ s_y s' = rows_of y /\ s_dim s' = cols_of y /\ (s_1d s' = true <-> exists l, y = YSeries l).
Proof.
  intros H. assert (F : forall (x : ms) a b c, (s_y (upd_prior a b c x), s_dim (upd_prior a b c x), s_1d (upd_prior a b c x)) = (s_y x, s_dim x, s_1d x)) by reflexivity.
  destruct y; unfold init_common, bind, upd, get, set_obs, raise, ret in H; simpl in H; try discriminate H; destruct (s_nu s); try discriminate H; injection H as <- _; simpl;
    (split; [reflexivity|]); (split; [reflexivity|]); (split; [reflexivity|]); split; try discriminate; try (intros [l' X]; discriminate X); eauto.
Qed.
Lemma fit_var_shape E c y k warm tol meth o s g s' g' : fit_variational E c y k warm tol meth o s g = (Ok tt, s', g') ->
  is_data y = true /\ s_y s' = rows_of y /\ s_dim s' = cols_of y /\ (s_1d s' = true <-> exists l, y = YSeries l).
Proof.
  intros H. unfold fit_variational in H. apply bind_ok in H as ([] & s1 & g1 & H1 & H). apply init_common_shape in H1.
  assert (K : (s_y s', s_dim s', s_1d s') = (s_y s1, s_dim s1, s_1d s1)).
  { revert H. match goal with |- ?m o s1 g1 = _ -> _ => intros H; refine (keeps_ok (fun s => (s_y s, s_dim s, s_1d s)) m o s1 g1 _ _ _ _ H) end.
    keep; try reflexivity; try (apply keeps_init_variational; reflexivity); apply keeps_var_loop; reflexivity. }
  injection K as -> -> ->. exact H1.
Qed.
Lemma column_first l : column (map (fun r => vat r 0) (column l)) = column l.
Proof. unfold column. rewrite !map_map. reflexivity. Qed.
Lemma init_gibbs_shape E c fuel ig meth o s g s' g' : flat_ok s -> init_gibbs E c fuel ig meth o s g = (Ok tt, s', g') -> s_y s' = s_y s /\ s_dim s' = s_dim s.
Proof.
  intros F H. set (f := fun s : ms => (s_y s, s_dim s, s_1d s)).
  unfold init_gibbs in H. repeat (apply bind_ok in H as (?u & ?t & ?gt & ?Ht & H)).
  assert (P : forall {A} (m : M ms A) o s g r s' g', keeps f m -> m o s g = (r, s', g') -> f s' = f s) by (intros; eapply keeps_ok; eauto).
  injection Ht as _ <- <-. injection Ht0 as _ <- <-. injection Ht1 as _ <- <-. injection Ht2 as <- <- <-. injection Ht3 as _ <- <-.
  apply P in Ht4; [|keep]. injection Ht5 as _ <- <-.
  apply P in Ht6; [|destruct (is_snone ig); [apply keeps_tail_to_slice; reflexivity|keep; reflexivity]].
  change (f (upd_u u4 t4)) with (f t4) in Ht6. rewrite Ht4 in Ht6. change (f _) with (f s) in Ht6 at 2. clear Ht4.
  destruct meth.
  - assert (X : f s' = f t6) by (eapply P; [|exact H]; keep; reflexivity). rewrite Ht6 in X. injection X as -> -> _. auto.
  - assert (X : f s' = f t6) by (eapply P; [|exact H]; keep; reflexivity). rewrite Ht6 in X. injection X as -> -> _. auto.
  - apply bind_ok in H as (u7 & s7 & g7 & H7 & H). injection H7 as <- <- <-. apply bind_ok in H as (u7 & s7 & g7 & H7 & H). apply bind_ok in H as (u8 & s8 & g8 & H8 & H). injection H8 as <- <- <-. injection H as <- _.
    destruct u7. apply fit_var_shape in H7 as (_ & Y & D & _). simpl. rewrite Y, D. injection Ht6 as E1 E2 E3. rewrite E1, E2, E3. destruct (s_1d s) eqn:X; simpl.
    + destruct (F X) as (D1 & l & El). rewrite El, D1, column_first. auto.
    + auto.
  - discriminate H.
Qed.
Lemma fit_gibbs_shape E c fuel y ig warm meth o s g s' g' : fit_gibbs E c fuel y ig warm meth o s g = (Ok tt, s', g') ->
  is_data y = true /\ s_y s' = rows_of y /\ s_dim s' = cols_of y.
Proof.
  intros H. unfold fit_gibbs in H. apply bind_ok in H as ([] & s1 & g1 & H1 & H). apply init_common_shape in H1 as (D & Y & C & F).
  apply bind_ok in H as ([] & s2 & g2 & H2 & H).
  assert (K2 : s_y s2 = s_y s1 /\ s_dim s2 = s_dim s1).
  { destruct warm; [injection H2 as <- _; auto|]. apply bind_ok in H2 as ([] & s3 & g3 & H3 & H2). apply init_gibbs_shape in H3.
    - pose proof (keeps_ok (fun s => (s_y s, s_dim s)) _ _ _ _ _ _ _ (keeps_update_map (fun s => (s_y s, s_dim s)) E c ltac:(reflexivity) ltac:(reflexivity) ltac:(reflexivity)) H2) as K. injection K as -> ->. exact H3.
    - intros X. apply F in X as (l & ->). rewrite Y, C. simpl. eauto. }
  assert (K : (s_y s', s_dim s') = (s_y s2, s_dim s2)).
  { revert H. match goal with |- ?m o s2 g2 = _ -> _ => intros H; refine (keeps_ok (fun s => (s_y s, s_dim s)) m o s2 g2 _ _ _ _ H) end.
    assert (KS : keeps (fun s => (s_y s, s_dim s)) (sweep E c fuel)) by (apply keeps_sweep; reflexivity).
    keep; try reflexivity; [apply keeps_burn; exact KS|apply keeps_train; [exact KS|apply keeps_save; reflexivity]]. }
  injection K as -> ->. destruct K2 as [-> ->]. auto.
Qed.
Lemma c54_stored_proof : forall E c fuel op o s g s' g', exec_mop E c fuel op o s g = (Ok tt, s', g') ->
  is_data (mop_data op) = true /\ s_y s' = rows_of (mop_data op) /\ s_dim s' = cols_of (mop_data op).
Proof.
  intros E c fuel [y ig warm meth|y k warm tol meth] o s g s' g' H; simpl in *; [eapply fit_gibbs_shape, H|]. apply fit_var_shape in H. tauto.
Qed.
(* ---- data of another type ---- *)
Lemma c54_rejected_proof : forall E c fuel op o s g r s' g', is_data (mop_data op) = false -> exec_mop E c fuel op o s g = (r, s', g') ->
  r = Err TypeError /\ s' = s.
Proof.
  intros E c fuel op o s g r s' g' D H. destruct op as [y ig warm meth|y k warm tol meth]; simpl in *; unfold fit_gibbs, fit_variational in H; unfold bind in H at 1;
    (destruct y; try discriminate D); unfold init_common, bind, set_obs, raise in H; injection H as <- <- _; auto.
Qed.
(* ---- a Series ---- *)
Lemma c54_series_nu_proof : forall E c fuel op l o s g r s' g', mop_data op = YSeries l -> s_nu s = None -> exec_mop E c fuel op o s g = (r, s', g') -> r = Err IndexError.
Proof.
  intros E c fuel op l o s g r s' g' D N H.
  assert (I : exists s1 g1, init_common (YSeries l) o s g = (Err IndexError, s1, g1)) by (unfold init_common, bind, upd, get, set_obs, raise; simpl; rewrite N; eauto).
  destruct I as (s1 & g1 & I). destruct op as [y ig warm meth|y k warm tol meth]; simpl in *; subst y; unfold fit_gibbs, fit_variational in H; unfold bind in H at 1; rewrite I in H; injection H as <- _ _; reflexivity.
Qed.
Lemma c54_series_variational_proof : forall E c l k warm tol meth o s g s' g', (1 <= s_total s)%Z ->
  fit_variational E c (YSeries l) k warm tol meth o s g <> (Ok tt, s', g').
Proof.
  intros E c l k warm tol meth o s g s' g' T H. pose proof (fit_var_shape _ _ _ _ _ _ _ _ _ _ _ _ H) as (_ & _ & _ & F).
  destruct (c49_loop_proof _ _ _ _ _ _ _ _ _ _ _ _ H) as (s1 & g1 & es & s2 & _ & R & Es & _ & NE & _).
  destruct (run_last _ _ _ _ _ _ _ _ R (NE T)) as (s3 & g3 & M).
  assert (X : s_1d s2 = true) by (rewrite Es in F; apply F; eauto).
  pose proof (keeps_ok s_1d _ _ _ _ _ _ _ (keeps_maximize s_1d E c ltac:(reflexivity) ltac:(reflexivity)) M) as K. rewrite X in K.
  unfold maximize_variational in M. apply bind_ok in M as ([] & s4 & g4 & M1 & _). unfold update_var_d in M1. apply bind_ok in M1 as (u & t & gt & Ht & M1). injection Ht as <- <- <-. rewrite <- K in M1. discriminate M1.
Qed.
Lemma c54_query_proof : forall QE s y, (exists l, y = YSeries l) \/ y = YOther -> all_queries QE s y TypeError.
Proof.
  intros QE s y H. split; intros F; (destruct H as [[l ->]| ->]);
    unfold gibbs_eap_density, gibbs_map_density, gibbs_map_cluster, gibbs_spectral, gibbs_eap_affinity_matrix, var_eap_density, var_map_density, var_map_cluster, var_spectral, var_eap_affinity_matrix; rewrite F; cbn [negb cast_obs rbind]; repeat split; reflexivity.
Qed.
(* ---- one observation ---- *)
Lemma sweep_single E c fuel o s g s' g' : length (s_y s) = 1%nat -> sweep E c fuel o s g <> (Ok tt, s', g').
Proof.
  intros L H. unfold sweep, gibbs_step in H. apply bind_ok in H as ([] & s1 & g1 & H & _). apply bind_ok in H as ([] & s2 & g2 & H2 & H). apply bind_ok in H as ([] & s3 & g3 & H3 & H).
  assert (K : s_y s3 = s_y s).
  { pose proof (keeps_ok s_y _ _ _ _ _ _ _ (keeps_update_weights s_y c fuel ltac:(reflexivity) ltac:(reflexivity)) H3) as K3. rewrite K3.
    eapply (keeps_ok s_y); [|exact H2]. unfold update_all_atoms; keep; apply keeps_update_atoms; reflexivity. }
  unfold update_d in H. apply bind_ok in H as (u & t & gt & Ht & H). injection Ht as <- <- <-. apply bind_ok in H as (ll & s4 & g4 & H4 & H).
  rewrite K, L in H. cbn [Nat.eqb] in H. rewrite orb_true_r in H. cbn [orb] in H. discriminate H.
Qed.
Lemma c54_single_proof : forall E c fuel y ig warm meth o s g s' g', length (rows_of y) = 1%nat -> (s_burn s < s_total s)%Z ->
  fit_gibbs E c fuel y ig warm meth o s g <> (Ok tt, s', g').
Proof.
  intros E c fuel y ig warm meth o s g s' g' L T H. pose proof (fit_gibbs_settings E c fuel y ig warm meth o s g) as St. 
  unfold fit_gibbs in H. apply bind_ok in H as ([] & s1 & g1 & H1 & H).
  assert (T1 : settings s1 = settings s) by (eapply (keeps_ok settings); [|exact H1]; apply keeps_init_common; reflexivity).
  apply init_common_shape in H1 as (D & Y & C & F).
  apply bind_ok in H as ([] & s2 & g2 & H2 & H).
  assert (K2 : s_y s2 = s_y s1 /\ settings s2 = settings s1).
  { destruct warm; [injection H2 as <- _; auto|]. apply bind_ok in H2 as ([] & s3 & g3 & H3 & H2).
    pose proof (keeps_ok settings _ _ _ _ _ _ _ (keeps_settings_init_gibbs E c fuel ig meth) H3) as S3.
    apply init_gibbs_shape in H3 as (H3 & _).
    - pose proof (keeps_ok (fun s => (s_y s, settings s)) _ _ _ _ _ _ _ (keeps_update_map (fun s => (s_y s, settings s)) E c ltac:(reflexivity) ltac:(reflexivity) ltac:(reflexivity)) H2) as K. injection K as K1 K2. unfold settings in *. split; congruence.
    - intros X. apply F in X as (l & ->). rewrite Y, C. simpl. eauto. }
  destruct K2 as [Y2 S2]. rewrite Y in Y2. rewrite T1 in S2. injection S2 as E1 E2 E3. rewrite <- Y2 in L.
  apply bind_ok in H as (u & t & gt & Ht & H). injection Ht as <- <- <-. apply bind_ok in H as ([] & s3 & g3 & H3 & H).
  assert (B : (0 < Z.to_nat (s_burn s2))%nat \/ Z.to_nat (s_burn s2) = 0%nat) by lia. destruct B as [B|B].
  - destruct (Z.to_nat (s_burn s2)) as [|m]; [lia|]. cbn [burn_loop] in H3. apply bind_ok in H3 as ([] & s4 & g4 & H4 & _). apply sweep_single in H4; [exact H4|exact L].
  - rewrite B in H3. cbn [burn_loop] in H3. injection H3 as <- <-. apply bind_ok in H as ([] & s4 & g4 & H4 & _).
    destruct (Z.to_nat (s_total s2 - s_burn s2)) as [|m] eqn:Em; [lia|]. cbn [train_loop] in H4. apply bind_ok in H4 as ([] & s5 & g5 & H5 & _). apply sweep_single in H5; [exact H5|exact L].
Qed.
