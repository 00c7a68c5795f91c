(* Fitted flags, failing fits, settings, unsupported models (C47, C48, C57, C58). *)
From Coq Require Import Lqa.
From Verif Require Import Prelude Numpy Rng M_Weights M_Niw M_Utils M_Mix M_Query S_Oracle S_Niw S_Mix S_Fresh S_Flags S_MixEx P_Lists P_Wp P_Mix P_Mix33 P_Mix34 P_Mix37 P_Map P_MixEx P_Fresh.
Open Scope Q_scope.
Open Scope m_scope.

Definition flags (s : ms) := (s_gfit s, s_vfit s, s_vconv s).
Lemma bind_run {S A B} (m : M S A) (k : A -> M S B) o s g r s' g' : bind m k o s g = (r, s', g') ->
  (exists a s1 g1, m o s g = (Ok a, s1, g1) /\ k a o s1 g1 = (r, s', g')) \/
  (m o s g = (match r with Ok _ => Diverge | Err e => Err e | Diverge => Diverge end, s', g') /\ is_ok r = false).
Proof. unfold bind. destruct (m o s g) as [[[a|e|] s1] g1]; intros H; [left; eauto| |]; injection H as <- <- <-; auto. Qed.

Lemma var_flags E c y k warm tol meth o s g r s' g' : fit_variational E c y k warm tol meth o s g = (r, s', g') ->
  s_gfit s' = s_gfit s /\ s_vfit s' = s_vfit s || is_ok r /\ (s_vconv s = true -> s_vconv s' = true).
Proof.
  unfold fit_variational. intros H.
  assert (N : forall {A} (m : M ms A) o s g r s' g', keeps flags m -> m o s g = (r, s', g') -> flags s' = flags s) by (intros; eapply keeps_ok; eauto).
  assert (D : forall (s s' : ms) (r : res unit), flags s' = flags s -> is_ok r = false -> s_gfit s' = s_gfit s /\ s_vfit s' = s_vfit s || is_ok r /\ (s_vconv s = true -> s_vconv s' = true)).
  { intros u u' q F Hr. injection F as -> -> ->. rewrite Hr, orb_false_r. auto. }
  apply bind_run in H as [([] & s1 & g1 & H1 & H)|[H1 Hr]]; [|apply D; [eapply N; [|exact H1]; apply keeps_init_common; reflexivity|exact Hr]].
  apply (N unit) in H1; [|apply keeps_init_common; reflexivity].
  apply bind_run in H as [([] & s2 & g2 & H2 & H)|[H2 Hr]].
  2: { apply D; [|exact Hr]. rewrite <- H1. eapply N; [|exact H2]. keep; try reflexivity; apply keeps_init_variational; reflexivity. }
  apply (N unit) in H2; [|keep; try reflexivity; apply keeps_init_variational; reflexivity].
  apply bind_run in H as [(u & s3 & g3 & H3 & H)|[H3 Hr]]; [|destruct r; discriminate H3]. injection H3 as <- <- <-.
  apply bind_run in H as [(i & s3 & g3 & H3 & H)|[H3 Hr]].
  2: { apply D; [|exact Hr]. rewrite <- H1, <- H2. eapply N; [|exact H3]. apply keeps_var_loop; reflexivity. }
  apply (N nat) in H3; [|apply keeps_var_loop; reflexivity].
  assert (F : flags s3 = flags s) by congruence. injection F as F1 F2 F3.
  unfold bind, upd, ret in H. destruct (_ <? _)%Z; injection H as <- <- <-; simpl; rewrite F1, ?F3, orb_true_r; auto.
Qed.
Lemma gibbs_flags E c fuel y ig warm meth o s g r s' g' : fit_gibbs E c fuel y ig warm meth o s g = (r, s', g') ->
  s_gfit s' = s_gfit s || is_ok r /\ (s_vfit s = true -> s_vfit s' = true) /\ (s_vfit s' = true -> s_vfit s = true \/ warm = false /\ meth = IVariational).
Proof.
  set (R := fun s s' : ms => s_gfit s' = s_gfit s /\ (s_vfit s = true -> s_vfit s' = true) /\ (s_vfit s' = true -> s_vfit s = true \/ warm = false /\ meth = IVariational)).
  assert (RT : forall a b d, R a b -> R b d -> R a d) by (unfold R; intros a b d (A1 & A2 & A3) (B1 & B2 & B3); rewrite B1; intuition).
  assert (RK : forall A (m : M ms A), keeps flags m -> mono R m).
  { intros A m K o' s0 g0. specialize (K o' s0 g0). injection K as K1 K2 K3. unfold R. rewrite K1, K2. intuition. }
  unfold fit_gibbs. 
  assert (KS : keeps flags (sweep E c fuel)) by (apply keeps_sweep; reflexivity).
  assert (R1 : mono R (init_common y)) by (apply RK, keeps_init_common; reflexivity).
  assert (R2 : mono R (if warm then ret tt else init_gibbs E c fuel ig meth ;; update_map E c)).
  { destruct warm eqn:W; [apply RK, keeps_ret|]. apply mono_bind; [exact RT| |intros _; apply RK, keeps_update_map; reflexivity].
    unfold init_gibbs. do 7 (apply mono_bind; [exact RT|apply RK; keep; reflexivity|intros ?]).
    apply mono_bind; [exact RT| |intros ?].
    { apply RK. destruct (is_snone ig); [apply keeps_tail_to_slice; reflexivity|keep; reflexivity]. }
    destruct meth eqn:Mt; try (apply RK; keep; reflexivity).
    apply mono_bind; [exact RT|apply RK, keeps_get|intros ?].
    apply mono_bind; [exact RT| |intros ?; apply RK; keep; reflexivity].
    intros o' s0 g0. match goal with |- R _ (snd (fst ?t)) => destruct t as [[q t1] t2] eqn:V end.
    apply var_flags in V as (V1 & V2 & _). unfold R. simpl. rewrite V1, V2. intuition. }
  intros H.
  assert (D : R s s' -> is_ok r = false -> s_gfit s' = s_gfit s || is_ok r /\ (s_vfit s = true -> s_vfit s' = true) /\ (s_vfit s' = true -> s_vfit s = true \/ warm = false /\ meth = IVariational)).
  { intros (A & B) ->. rewrite orb_false_r. auto. }
  assert (N : forall {A} (m : M ms A) o s g r s' g', mono R m -> m o s g = (r, s', g') -> R s s').
  { intros A m o' s0 g0 q t h K Hm. specialize (K o' s0 g0). rewrite Hm in K. exact K. }
  apply bind_run in H as [([] & s1 & g1 & H1 & H)|[H1 Hr]]; [|apply D; [eapply N; [exact R1|exact H1]|exact Hr]]. apply (N unit) in H1; [|exact R1].
  apply bind_run in H as [([] & s2 & g2 & H2 & H)|[H2 Hr]]; [|apply D; [eapply RT; [exact H1|eapply N; [exact R2|exact H2]]|exact Hr]]. apply (N unit) in H2; [|exact R2].
  pose proof (RT _ _ _ H1 H2) as H12.
  apply bind_run in H as [(u & s3 & g3 & H3 & H)|[H3 Hr]]; [|destruct r; discriminate H3]. injection H3 as <- <- <-.
  apply bind_run in H as [([] & s3 & g3 & H3 & H)|[H3 Hr]].
  2: { apply D; [|exact Hr]. eapply RT; [exact H12|]. eapply N; [|exact H3]. apply RK, keeps_burn, KS. }
  apply (N unit) in H3; [|apply RK, keeps_burn, KS]. pose proof (RT _ _ _ H12 H3) as H13.
  apply bind_run in H as [([] & s4 & g4 & H4 & H)|[H4 Hr]].
  2: { apply D; [|exact Hr]. eapply RT; [exact H13|]. eapply N; [|exact H4]. apply RK, keeps_train; [exact KS|apply keeps_save; reflexivity]. }
  apply (N unit) in H4; [|apply RK, keeps_train; [exact KS|apply keeps_save; reflexivity]]. pose proof (RT _ _ _ H13 H4) as (A1 & A2).
  injection H as <- <- <-. simpl. rewrite orb_true_r. auto.
Qed.

Lemma c47_history_proof : forall E c fuel ops o s g s' g', run_mops E c fuel ops o s g = (s', g') ->
  s_gfit s' = s_gfit s || existsb gibbs_ok (outcomes E c fuel ops o s g) /\
  (s_vfit s || existsb var_ok (outcomes E c fuel ops o s g) = true -> s_vfit s' = true) /\
  (s_vfit s' = true -> s_vfit s || existsb var_ok (outcomes E c fuel ops o s g) || existsb nested_var (outcomes E c fuel ops o s g) = true).
Proof.
  intros E c fuel ops; induction ops as [|op ops IH]; intros o s g s' g' H; simpl in H.
  { injection H as <- <-. simpl. rewrite !orb_false_r. auto. }
  simpl outcomes. destruct (exec_mop E c fuel op o s g) as [[r s1] g1] eqn:X.
  destruct (IH _ _ _ _ _ H) as (I1 & I2 & I3). simpl. rewrite I1.
  destruct op as [y ig warm meth|y k warm tol meth]; simpl in X; unfold gibbs_ok at 1, var_ok at 1 3, nested_var at 1; simpl.
  - apply gibbs_flags in X as (X1 & X2 & X3). rewrite X1. split; [rewrite orb_assoc; reflexivity|]. split.
    + intros K. apply I2. apply orb_true_iff in K as [K|K]; [rewrite (X2 K); reflexivity|rewrite K, orb_true_r; reflexivity].
    + intros K. specialize (I3 K). rewrite !orb_true_iff in *. destruct I3 as [[I3|I3]|I3]; auto.
      destruct (X3 I3) as [X4|[-> ->]]; auto.
  - apply var_flags in X as (X1 & X2 & _). rewrite X1, X2 in *. split; [reflexivity|]. split.
    + intros K. apply I2. rewrite <- orb_assoc. exact K.
    + intros K. specialize (I3 K). rewrite !orb_true_iff in *. tauto.
Qed.
Lemma c47_gibbs_guard_proof : forall QE s, (s_gfit s = false -> gibbs_guarded QE s) /\ (s_gfit s = true -> quiet QE -> gibbs_open QE s).
Proof.
  intros QE s. split; intros F; [|intros Q]; unfold gibbs_guarded, gibbs_open, gibbs_eap_density, gibbs_map_density, gibbs_map_cluster, gibbs_spectral, gibbs_eap_affinity_matrix; rewrite F; simpl; auto 10.
  assert (P : forall A (l : list A) z, py_nth l z <> Err NotFittedError) by (intros; unfold py_nth; destruct (py_index _ z); [destruct (nth_error l n)|]; discriminate).
  assert (C : forall y, cast_obs s y <> Err NotFittedError) by (intros [[]|]; discriminate).
  assert (G : forall A (t : list (nat * A)) j, dict_get t j <> Err NotFittedError) by (intros; unfold dict_get; destruct (j <? 0)%Z; [discriminate|]; destruct (lookup _ t); discriminate).
  assert (SV : forall l x, sub_vec l x <> Err NotFittedError) by (intros; apply rmap_no; auto).
  assert (SM : forall l m, sub_mat l m <> Err NotFittedError) by (intros; apply rbind_no; [apply rmap_no; auto|intros; apply rmap_no; auto]).
  assert (MD : forall x fl ww th dim comp, mixture_density QE x fl ww th dim comp <> Err NotFittedError).
  { intros. apply rbind_no; [|discriminate]. apply rmap_no. intros z _. destruct Q. destruct dim; simpl; [| |destruct fl; [discriminate|]|discriminate];
      repeat (apply rbind_no; [solve [auto]|intros ?]); discriminate. }
  assert (GM : get_map s <> Err NotFittedError) by (unfold get_map; destruct (s_map s); discriminate).
  assert (CL : forall x ww th, cluster QE x ww th <> Err NotFittedError).
  { intros. destruct Q. unfold cluster, prob_rows. apply rbind_no; [apply rbind_no; [|discriminate]|intros ?; destruct (_ || _); discriminate].
    apply rmap_no. intros z _. apply rbind_no; auto. }
  assert (AF : forall y, match y with None => Ok (div_count (s_saved s) (s_aff s)) | Some _ => x <~ cast_obs s y ;; gs <~ rmap (fun r => cluster QE (fst x) (r_w r) (r_theta r)) (s_sims s) ;;
      Ok (div_count (length (s_sims s)) (fold_left (fun m g => add_matrix m (equal_matrix (fst g))) gs (repeat (repeat 0%nat (length (fst x))) (length (fst x))))) end <> Err NotFittedError).
  { intros [y|]; [|discriminate]. apply rbind_no; [apply C|intros x]. apply rbind_no; [|discriminate]. apply rmap_no. auto. }
  split; [|split; [|split; [|split]]].
  - intros. apply rbind_no; [apply C|intros x]. apply rbind_no; [apply rmap_no; auto|]. intros rows. unfold mean_rows. destruct rows; [discriminate|]. destruct (forallb _ _); discriminate.
  - intros. apply rbind_no; [apply C|intros x]. apply rbind_no; auto.
  - intros. apply rbind_no; [apply C|intros x]. apply rbind_no; auto.
  - exact AF.
  - intros. apply rbind_no; [apply AF|intros x]. apply Q.
Qed.
Lemma v_sum_no e f : forall l acc, (forall x, f x <> Err e) -> v_sum f acc l <> Err e.
Proof. induction l; intros acc H; simpl; [discriminate|]. apply rbind_no; auto. Qed.
Lemma c47_var_guard_proof : forall QE s, (s_vfit s = false -> var_guarded QE s) /\ (s_vfit s = true -> quiet QE -> var_open QE s).
Proof.
  intros QE s. split; intros F; [|intros Q]; unfold var_guarded, var_open, var_eap_density, var_map_density, var_map_cluster, var_spectral, var_eap_affinity_matrix; rewrite F; simpl; auto 10.
  assert (P : forall A (l : list A) z, py_nth l z <> Err NotFittedError) by (intros; unfold py_nth; destruct (py_index _ z); [destruct (nth_error l n)|]; discriminate).
  assert (C : forall y, cast_obs s y <> Err NotFittedError) by (intros [[]|]; discriminate).
  assert (SV : forall l x, sub_vec l x <> Err NotFittedError) by (intros; apply rmap_no; auto).
  assert (SM : forall l m, sub_mat l m <> Err NotFittedError) by (intros; apply rbind_no; [apply rmap_no; auto|intros; apply rmap_no; auto]).
  assert (LD : forall d, len_dim d <> Err NotFittedError) by (intros []; discriminate).
  assert (VT : get_vtheta s <> Err NotFittedError) by (unfold get_vtheta; destruct (vk (s_var s)); discriminate).
  assert (VI : forall comp, v_iter s comp <> Err NotFittedError) by (intros [j|]; (apply rbind_no; [exact VT|intros t]); [apply rbind_no; [apply P|discriminate]|discriminate]).
  assert (VS : forall d a, v_sub d a <> Err NotFittedError).
  { intros d [[[mu lam] prec] sc]. destruct d; simpl; try discriminate; [apply rbind_no; [apply SV|intros m]; apply rbind_no; [apply SM|discriminate]|apply rbind_no; [apply P|discriminate]]. }
  assert (AF : forall y, match y with
     | Some ya => _ <~ cast_obs s y ;; match ya with YArr2 l _ | YFrame l _ => t <~ get_vtheta s ;; D <~ q_resp QE ya (s_var s) (s_wm s) ;; Ok (gram D (length l)) | YArr1 _ => Err IndexError | _ => Err AttributeError end
     | None => match vk (s_var s) with Some _ => Ok (gram (vresp (s_var s)) (ncols (vresp (s_var s)))) | None => Err AttributeError end end <> Err NotFittedError).
  { intros [y|]; [|destruct (vk (s_var s)); discriminate]. apply rbind_no; [apply C|intros _].
    destruct y; try discriminate; (apply rbind_no; [exact VT|intros t]; apply rbind_no; [apply Q|discriminate]). }
  split; [|split; [|split; [|split]]].
  - intros. apply rbind_no; [apply C|intros x]. apply rbind_no; [destruct dim; try discriminate; destruct (snd x); discriminate|intros d].
    apply rbind_no; [apply LD|intros ld]. apply rbind_no; [apply VI|intros it]. apply v_sum_no. intros [j [[[mu lam] prec] sc]].
    apply rbind_no; [apply VS|intros p]. simpl. apply rbind_no; [apply Q|intros l]. apply rbind_no; [apply Q|discriminate].
  - intros. apply rbind_no; [apply C|intros x]. 
    apply rbind_no; [apply LD|intros ld]. apply rbind_no; [apply VI|intros it]. apply v_sum_no. intros [j [[[mu lam] prec] sc]].
    apply rbind_no; [apply VS|intros p]. simpl. apply rbind_no; [apply Q|intros l]. apply rbind_no; [apply Q|discriminate].
  - intros [y|] full.
    + apply rbind_no; [apply C|intros x]. apply rbind_no; [exact VT|intros t]. apply rbind_no; [apply Q|intros D]. destruct (is_nil D); [discriminate|].
      destruct full; [|discriminate]. apply rbind_no; [|discriminate]. apply rmap_no. intros j _. destruct (nth_error D j); discriminate.
    + destruct (vk (s_var s)); [|discriminate]. destruct (is_nil _); discriminate.
  - exact AF.
  - intros. apply rbind_no; [apply AF|intros x]. apply Q.
Qed.
