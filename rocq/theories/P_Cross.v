(* Fits of the two kinds on one mixture object (C69). *)
From Verif Require Import Prelude Numpy Rng M_Weights M_Niw M_Utils M_Mix M_Query S_Oracle S_Mix S_Fresh S_VarFit S_MixEx S_Cross P_Lists P_Wp P_Mix P_Map P_Fresh P_VarQ P_Shape P_MixEx.
Open Scope Q_scope.
Open Scope m_scope.

(* ---- fit_variational leaves the Gibbs results ---- *)
Definition gpart (s : ms) := ((s_gfit s, s_d s, s_theta s, s_gen s, s_u s), (s_aff s, s_map s, s_mapll s, s_saved s), (s_sims s, s_groups s, s_atoms s)).
Lemma gpart_same a b : gpart a = gpart b -> same_gibbs a b.
Proof. unfold gpart. intros [= ]. constructor; assumption. Qed.
(* the weight model, up to n *)
Definition wpart (s : ms) := set_wn 0 (s_wm s).
Section V.
Context {B : Type} (f : ms -> B) (E : env) (c : cls).
Hypothesis HW : forall k, keeps f (onw (wm_fit_var c k)).
Hypothesis HV : forall x s, f (upd_var x s) = f s.
Lemma k_fvw k D : keeps f (fit_var_weights c k D).
Proof. unfold fit_var_weights. apply keeps_bind; [apply HW|intros _]. apply keeps_upd. auto. Qed.
Lemma k_max : keeps f (maximize_variational E c).
Proof. unfold maximize_variational. apply keeps_bind; [apply keeps_update_var_d, HV|intros _]. apply keeps_bind; [apply keeps_get|intros ?]. apply keeps_bind; [apply k_fvw|intros _]. apply keeps_update_var_theta, HV. Qed.
Lemma k_init k b meth : keeps f (init_variational E c k b meth).
Proof.
  unfold init_variational. apply keeps_bind; [apply keeps_upd; auto|intros _]. apply keeps_bind; [|intros _; apply keeps_bind; [apply keeps_get|intros ?; apply k_fvw]].
  destruct meth.
  - apply keeps_bind; [apply keeps_get|intros ?]. apply keeps_bind; [keep|intros _]. apply keeps_bind; [auto|intros ?]. apply keeps_bind; [apply keeps_upd; auto|intros _].
    apply keeps_bind; [apply k_fvw|intros _]. apply keeps_bind; [apply keeps_update_var_theta, HV|intros _; apply keeps_update_var_d, HV].
  - apply keeps_bind; [apply keeps_prior_vatoms, HV|intros _]. keep.
  - keep.
  - keep.
Qed.
Lemma k_loop tol n : forall e d i, keeps f (var_loop E c tol n e d i).
Proof. induction n; intros e d i; cbn [var_loop]; destruct (lx_ltb (LQ tol) d); try apply keeps_ret. apply keeps_bind; [apply k_max|intros _]. keep. Qed.
Lemma k_fitvar y k warm tol meth : (forall a b d s, f (upd_y a b d s) = f s) -> (forall a b d s, f (upd_prior a b d s) = f s) ->
  (forall b d s, f (upd_flags (s_gfit s) b d s) = f s) -> keeps f (fit_variational E c y k warm tol meth).
Proof.
  intros H1 H2 H3. unfold fit_variational. apply keeps_bind; [apply keeps_init_common; assumption|intros _].
  apply keeps_bind; [destruct warm; [apply keeps_ret|]; apply keeps_bind; [apply keeps_get|intros u]; destruct k; [destruct (s_n u)| | |apply keeps_bind; [apply keeps_upd; auto|intros _; destruct meth; apply keeps_raise]]; try apply keeps_raise; apply k_init|intros _].
  apply keeps_bind; [apply keeps_get|intros ?]. apply keeps_bind; [apply k_loop|intros ?]. keep.
Qed.
End V.
Lemma fitvar_wn c k : keeps wpart (onw (wm_fit_var c k)).
Proof.
  intros o s g. unfold onw, wpart. destruct c; cbn -[Z.eqb]; try reflexivity.
  - destruct (k =? n)%Z; [destruct (_ || _ || _)%bool|]; destruct (s_wm s); reflexivity.
  - destruct (k =? 0)%Z; destruct (s_wm s); reflexivity.
Qed.
Lemma fitvar_wm c k : c <> CEqual -> keeps s_wm (onw (wm_fit_var c k)).
Proof.
  intros N o s g. unfold onw. destruct c; cbn -[Z.eqb]; try reflexivity; try congruence.
  - destruct (k =? n)%Z; [destruct (_ || _ || _)%bool|]; reflexivity.
  - destruct (k =? 0)%Z; reflexivity.
Qed.
Lemma c69_var_keeps_proof : forall E c y k warm tol meth o s g r s' g', fit_variational E c y k warm tol meth o s g = (r, s', g') ->
  same_gibbs s' s /\ (c <> CEqual -> s_wm s' = s_wm s) /\ set_wn 0 (s_wm s') = set_wn 0 (s_wm s).
Proof.
  intros E c y k warm tol meth o s g r s' g' H. split; [|split].
  - apply gpart_same. eapply keeps_ok; [|exact H]. apply keeps_fit_variational; reflexivity.
  - intros N. eapply keeps_ok; [|exact H]. apply k_fitvar; try reflexivity. intros; apply fitvar_wm, N.
  - eapply (keeps_ok wpart); [|exact H]. apply k_fitvar; try reflexivity. intros; apply fitvar_wn.
Qed.
Lemma gibbs_answers QE a b : same_gibbs a b -> same_gibbs_answers QE a b.
Proof.
  intros [H1 H2 H3 H4 H5 H6 H7 H8 H9 H10 H11 H12].
  assert (C : forall y, cast_obs a (Some y) = cast_obs b (Some y)) by (intros []; reflexivity).
  assert (A : forall y, gibbs_eap_affinity_matrix QE a y = gibbs_eap_affinity_matrix QE b y).
  { intros [y|]; unfold gibbs_eap_affinity_matrix; rewrite ?C, H1, ?H6, ?H9, ?H10; reflexivity. }
  unfold same_gibbs_answers, gibbs_eap_density, gibbs_map_density, gibbs_map_cluster, gibbs_spectral, get_map, get_n_groups, get_n_theta, get_sim_params.
  split; [intros; rewrite C, H1, H10; reflexivity|]. split; [intros; rewrite C, H1, H7; reflexivity|]. split; [intros; rewrite C, H1, H7; reflexivity|].
  split; [exact A|]. split; [intros; rewrite A, H1; reflexivity|]. auto.
Qed.
Lemma c69_gibbs_answers_proof : forall QE E c y k warm tol meth o s g r s' g', fit_variational E c y k warm tol meth o s g = (r, s', g') -> same_gibbs_answers QE s' s.
Proof. intros. apply gibbs_answers. eapply c69_var_keeps_proof; eassumption. Qed.

(* ---- the data ---- *)
Lemma c69_default_data_proof : forall QE E c y k warm tol meth o s g s' g', fit_variational E c y k warm tol meth o s g = (Ok tt, s', g') -> plain_data y = true ->
  gibbs_default_data QE s' y.
Proof.
  intros QE E c y k warm tol meth o s g s' g' H P. destruct (fit_var_shape _ _ _ _ _ _ _ _ _ _ _ _ H) as (_ & Y & _ & F).
  assert (C : cast_obs s' None = cast_obs s' (Some y)).
  { assert (X : s_1d s' = false) by (destruct (s_1d s'); [destruct (proj1 F eq_refl) as [l ->]; discriminate P|reflexivity]).
    unfold cast_obs. rewrite Y, X. destruct y; try discriminate P; reflexivity. }
  unfold gibbs_default_data, gibbs_eap_density, gibbs_map_density, gibbs_map_cluster. rewrite C. auto.
Qed.

(* ---- fit_gibbs leaves the variational results ---- *)
Section G.
Context {B : Type} (F : ms -> B) (E : env) (c : cls) (fuel : nat).
Hypothesis EQ : c = CEqual.
Let f (s : ms) := (F s, wn (s_wm s)).
Hypothesis FW : forall x s, F (upd_wm x s) = F s.
Lemma k_onw {A} (m : M ws A) : keeps wn m -> keeps f (onw m).
Proof. intros H o s g. unfold onw. specialize (H o (s_wm s) g). destruct (m o (s_wm s) g) as [[r x] g']. unfold f. simpl in *. rewrite FW, H. reflexivity. Qed.
Lemma wn_random z : keeps wn (wm_random c z).
Proof. subst c. simpl. unfold eq_random, repeat_inv. keep. Qed.
Lemma wn_complete z : keeps wn (wm_complete c z).
Proof. subst c. simpl. unfold eq_random, repeat_inv. keep. Qed.
Lemma wn_loop n x : keeps wn (tail_loop c n x).
Proof. induction n; cbn [tail_loop]; (apply keeps_bind; [apply keeps_get|intros ?]); destruct (qltb _ _); try apply keeps_ret; [intros o s g; reflexivity|]. apply keeps_bind; [apply wn_complete|intros _; exact IHn]. Qed.
Lemma wn_tail x : keeps wn (wm_tail c fuel x).
Proof.
  assert (K : keeps wn (base_tail c fuel x)) by (unfold base_tail; keep; [apply wn_random|apply wn_loop]).
  unfold wm_tail. rewrite EQ in *. exact K.
Qed.
Lemma wn_assign dd : keeps wn (wm_assign_weights c dd).
Proof. unfold wm_assign_weights. keep. apply wn_complete. Qed.
Lemma wn_ra z : keeps wn (wm_random_assignment z).
Proof. unfold wm_random_assignment. destruct z; keep; intros o s g; reflexivity. Qed.
Lemma wn_fit l : keeps wn (wm_fit l).
Proof. unfold wm_fit. apply keeps_upd. reflexivity. Qed.
Hypotheses (FT : forall x s, F (upd_theta x s) = F s) (FU : forall x s, F (upd_u x s) = F s) (FD : forall x s, F (upd_d x s) = F s) (FM : forall x l s, F (upd_map x l s) = F s)
  (FS : forall a b d e s, F (upd_sims a b d e s) = F s) (FA : forall x s, F (upd_aff x s) = F s) (FG : forall x s, F (upd_gen x s) = F s)
  (FY : forall a b d s, F (upd_y a b d s) = F s) (FP : forall a b d s, F (upd_prior a b d s) = F s) (FF : forall s, F (upd_flags true (s_vfit s) (s_vconv s) s) = F s).
Ltac fu := intros; unfold f; rewrite ?FT, ?FU, ?FD, ?FM, ?FS, ?FA, ?FG, ?FY, ?FP, ?FF; reflexivity.
Lemma k_slice : keeps f (tail_to_slice c fuel).
Proof. unfold tail_to_slice. apply keeps_bind; [apply keeps_get|intros ?]. destruct (is_nil _); [apply keeps_raise|]. apply keeps_bind; [apply k_onw, wn_tail|intros _; apply keeps_ret]. Qed.
Lemma k_weights : keeps f (update_weights c fuel).
Proof.
  unfold update_weights. apply keeps_bind; [apply keeps_get|intros ?]. apply keeps_bind; [apply k_onw, wn_fit|intros _]. apply keeps_bind; [apply k_onw, wn_random|intros ?].
  destruct (s_d a); [|apply keeps_raise]. destruct (gather a0 l); [|apply keeps_raise]. apply keeps_bind; [apply keeps_unif|intros ?]. apply keeps_bind; [apply keeps_upd; fu|intros _; apply k_slice].
Qed.
Lemma k_sweep : keeps f (sweep E c fuel).
Proof.
  unfold sweep, gibbs_step, update_all_atoms. apply keeps_bind; [|intros _].
  - apply keeps_bind; [keep; apply keeps_update_atoms; fu|intros _]. apply keeps_bind; [apply k_weights|intros _]. apply keeps_update_d; fu.
  - unfold update_map, run_loglik. apply keeps_bind; [|intros ?].
    + apply keeps_bind; [apply keeps_get|intros ?]. apply keeps_bind; [apply keeps_y_loglik; fu|intros ?]. apply keeps_bind; [apply k_onw, wn_assign|intros ?; apply keeps_ret].
    + apply keeps_bind; [apply keeps_get|intros ?]. destruct (lx_ltb _ _); [apply keeps_upd; fu|]. destruct (lx_is_neg _); [apply keeps_upd; fu|apply keeps_ret].
Qed.
Lemma k_update_map : keeps f (update_map E c).
Proof.
  unfold update_map, run_loglik. apply keeps_bind; [|intros ?].
    + apply keeps_bind; [apply keeps_get|intros ?]. apply keeps_bind; [apply keeps_y_loglik; fu|intros ?]. apply keeps_bind; [apply k_onw, wn_assign|intros ?; apply keeps_ret].
    + apply keeps_bind; [apply keeps_get|intros ?]. destruct (lx_ltb _ _); [apply keeps_upd; fu|]. destruct (lx_is_neg _); [apply keeps_upd; fu|apply keeps_ret].
Qed.
Lemma k_init_gibbs ig meth : meth <> IVariational -> keeps f (init_gibbs E c fuel ig meth).
Proof.
  intros NV. unfold init_gibbs. do 3 (apply keeps_bind; [apply keeps_upd; fu|intros _]). apply keeps_bind; [apply keeps_get|intros ?]. apply keeps_bind; [apply keeps_upd; fu|intros _].
  apply keeps_bind; [apply keeps_unif|intros ?]. apply keeps_bind; [apply keeps_upd; fu|intros _].
  apply keeps_bind; [destruct (is_snone ig); [apply k_slice|apply keeps_bind; [apply k_onw, wn_complete|intros _; apply keeps_ret]]|intros _].
  destruct meth; [| |congruence|apply keeps_raise].
  - apply keeps_bind; [keep|intros _]. apply keeps_bind; [auto|intros ?]. apply keeps_upd; fu.
  - apply keeps_bind; [apply k_onw, wn_ra|intros ?]. apply keeps_upd; fu.
Qed.
Lemma k_fitgibbs y ig warm meth : warm = true \/ meth <> IVariational -> keeps f (fit_gibbs E c fuel y ig warm meth).
Proof.
  intros W. unfold fit_gibbs. apply keeps_bind; [apply keeps_init_common; fu|intros _].
  apply keeps_bind; [destruct warm; [apply keeps_ret|]; destruct W as [W|W]; [discriminate W|]; apply keeps_bind; [apply k_init_gibbs, W|intros _; apply k_update_map]|intros _].
  apply keeps_bind; [apply keeps_get|intros ?]. apply keeps_bind; [apply keeps_burn, k_sweep|intros _].
  apply keeps_bind; [apply keeps_train; [apply k_sweep|apply keeps_save; fu]|intros _]. apply keeps_upd; fu.
Qed.
End G.
Definition vpart (s : ms) := (s_vfit s, s_vconv s, s_var s).
Lemma keeps_vpart E c fuel y ig warm meth : warm = true \/ meth <> IVariational -> keeps vpart (fit_gibbs E c fuel y ig warm meth).
Proof.
  intros W. assert (KS : keeps vpart (sweep E c fuel)) by (apply keeps_sweep; reflexivity).
  unfold fit_gibbs. apply keeps_bind; [apply keeps_init_common; reflexivity|intros _].
  apply keeps_bind.
  { destruct warm; [apply keeps_ret|]. destruct W as [W|W]; [discriminate W|]. apply keeps_bind; [|intros _; apply keeps_update_map; reflexivity].
    unfold init_gibbs. destruct meth; [| |congruence|]; keep; try reflexivity; apply keeps_tail_to_slice; reflexivity. }
  intros _. keep; try reflexivity; [apply keeps_burn; exact KS|apply keeps_train; [exact KS|apply keeps_save; reflexivity]].
Qed.
Lemma c69_gibbs_keeps_proof : forall E c fuel y ig warm meth o s g r s' g', warm = true \/ meth <> IVariational ->
  fit_gibbs E c fuel y ig warm meth o s g = (r, s', g') -> same_variational s' s.
Proof.
  intros E c fuel y ig warm meth o s g r s' g' W H. pose proof (keeps_ok _ _ _ _ _ _ _ _ (keeps_vpart E c fuel y ig warm meth W) H) as K. injection K as K1 K2 K3. constructor; assumption.
Qed.
Lemma c69_var_answers_proof : forall QE E c fuel y ig warm meth o s g r s' g', reads_var_only c QE -> warm = true \/ meth <> IVariational ->
  fit_gibbs E c fuel y ig warm meth o s g = (r, s', g') -> same_var_answers QE s' s.
Proof.
  intros QE E c fuel y ig warm meth o s g r s' g' R W H. destruct (c69_gibbs_keeps_proof _ _ _ _ _ _ _ _ _ _ _ _ _ W H) as [V1 V2 V3].
  assert (N : c = CEqual -> wn (s_wm s') = wn (s_wm s)).
  { intros EQ. assert (K : keeps (fun s => (0%nat, wn (s_wm s))) (fit_gibbs E c fuel y ig warm meth)) by (apply (k_fitgibbs (fun _ => 0%nat)); auto).
    pose proof (keeps_ok _ _ _ _ _ _ _ _ K H) as X. injection X as X. exact X. }
  destruct (R (s_var s) _ _ N) as (R1 & R2 & R3).
  assert (C : forall y, cast_obs s' (Some y) = cast_obs s (Some y)) by (intros []; reflexivity).
  assert (GT : get_vtheta s' = get_vtheta s) by (unfold get_vtheta; rewrite V3; reflexivity).
  assert (IT : forall comp, v_iter s' comp = v_iter s comp) by (intros; unfold v_iter; rewrite GT; reflexivity).
  assert (VE : forall f1 f2 l acc, (forall x, f1 x = f2 x) -> v_sum f1 acc l = v_sum f2 acc l).
  { intros f1 f2 l acc Hf. revert acc. induction l as [|x l IH]; intros acc; simpl; [reflexivity|]. rewrite Hf. destruct (f2 x); simpl; auto. }
  assert (A : forall y, var_eap_affinity_matrix QE s' y = var_eap_affinity_matrix QE s y).
  { intros [z|]; unfold var_eap_affinity_matrix; rewrite V1, ?V3, ?C, ?GT; [|reflexivity]. destruct z; rewrite ?R3; reflexivity. }
  split; [|split; [|split; [|split]]].
  - intros z dim comp. unfold var_eap_density. rewrite V1, V3, C. destruct (negb (s_vfit s)); [reflexivity|]. destruct (cast_obs s (Some z)); simpl; [|reflexivity|reflexivity].
    assert (X : forall dd ld, (it <~ v_iter s' comp ;; v_sum (fun ja => p <~ v_sub dd (snd ja) ;; match snd ja with (_, lam, _, scale) =>
        l <~ q_student QE (fst a) (fst p) (scale_mat ((scale + 1 - ld) * lam / (1 + lam)) (snd p)) (scale + 1 - ld) ;;
        q <~ q_mean_w QE (s_var s) (s_wm s') (fst ja) ;; Ok (map (fun v => v * q) l) end) (repeat 0 (length (fst a))) it) =
      (it <~ v_iter s comp ;; v_sum (fun ja => p <~ v_sub dd (snd ja) ;; match snd ja with (_, lam, _, scale) =>
        l <~ q_student QE (fst a) (fst p) (scale_mat ((scale + 1 - ld) * lam / (1 + lam)) (snd p)) (scale + 1 - ld) ;;
        q <~ q_mean_w QE (s_var s) (s_wm s) (fst ja) ;; Ok (map (fun v => v * q) l) end) (repeat 0 (length (fst a))) it)).
    { intros dd ld. rewrite IT. destruct (v_iter s comp); simpl; try reflexivity. apply VE. intros [j [[[m lam] pr] sc]]. simpl. rewrite R1. reflexivity. }
    destruct dim; simpl; try apply X; try reflexivity. destruct (snd a); [reflexivity|]. apply X.
  - intros z dim comp. unfold var_map_density. rewrite V1, V3, C. destruct (negb (s_vfit s)); [reflexivity|]. destruct (cast_obs s (Some z)); simpl; [|reflexivity|reflexivity].
    destruct (len_dim dim); simpl; try reflexivity. rewrite IT. destruct (v_iter s comp); simpl; try reflexivity. apply VE. intros [j [[[m lam] pr] sc]]. simpl. rewrite R2. reflexivity.
  - intros [z|] full; unfold var_map_cluster; rewrite V1, ?V3, ?C, ?GT, ?R3; reflexivity.
  - exact A.
  - intros z k. unfold var_spectral. rewrite V1, A. reflexivity.
Qed.

(* ---- the exceptions ---- *)
(* EqualWeighting takes the number of variational groups as its n *)
Lemma c69_equal_proof : forall E y k warm tol meth o s g s' g', (1 <= s_total s)%Z -> fit_variational E CEqual y k warm tol meth o s g = (Ok tt, s', g') ->
  wn (s_wm s') = Z.of_nat (length (vresp (s_var s'))).
Proof.
  intros E y k warm tol meth o s g s' g' T H. destruct (c49_loop_proof _ _ _ _ _ _ _ _ _ _ _ _ H) as (s1 & g1 & es & s2 & _ & R & Es & _ & NE & _).
  destruct (run_last _ _ _ _ _ _ _ _ R (NE T)) as (s3 & g3 & M). rewrite Es. simpl. clear - M.
  unfold maximize_variational in M. apply bind_ok in M as ([] & a & ga & _ & M). apply bind_ok in M as (u & a' & ga' & [= <- <- <-] & M).
  apply bind_ok in M as ([] & b & gb & Hb & M).
  assert (X : wn (s_wm b) = Z.of_nat (length (vresp (s_var b)))).
  { unfold fit_var_weights, onw, bind, upd in Hb. simpl in Hb. injection Hb as <- _. reflexivity. }
  unfold update_var_theta in M. apply bind_ok in M as (u & t & gt & [= <- <- <-] & M).
  apply bind_ok in M as (h & t & gt & Ht & M). unfold of_res in Ht. injection Ht as Ht <- <-. apply bind_ok in M as (th & t & gt & Ht2 & M). unfold of_res in Ht2. injection Ht2 as Ht2 <- <-.
  injection M as <- _. exact X.
Qed.
Lemma c69_equal_refuted_proof : exists E o s0 g0 s1 g1 s2 g2 a b x y ga gb,
  valid_oracle o /\ new_mix CEqual 0 4 None 1 None None 2 1 1 o = Ok (s0, g0) /\
  fit_gibbs E CEqual 60 y4 SNone false IKmeans o s0 g0 = (Ok tt, s1, g1) /\
  fit_variational E CEqual y4 (SInt 2) false 1 IKmeans o s1 g1 = (Ok tt, s2, g2) /\
  wm_random CEqual SNone o (s_wm s1) g1 = (Ok a, x, ga) /\ wm_random CEqual SNone o (s_wm s2) g2 = (Ok b, y, gb) /\
  length a = 4%nat /\ length b = 2%nat.
Proof.
  exists flat_env, o_zero. eexists _, _, _, _, _, _, _, _, _, _, _, _.
  split; [apply o_zero_valid|]. split; [vm_compute; reflexivity|]. split; [vm_compute; reflexivity|]. split; [vm_compute; reflexivity|]. split; [vm_compute; reflexivity|]. split; [vm_compute; reflexivity|]. split; [vm_compute; reflexivity|vm_compute; reflexivity].
Qed.
Lemma c69_nested_refuted_proof : exists E o s0 g0 s1 g1 s2 g2,
  valid_oracle o /\ new_mix (CDP 1) 0 0 None 1 None None 2 1 1 o = Ok (s0, g0) /\
  fit_variational E (CDP 1) y3 (SInt 3) false 1 IKmeans o s0 g0 = (Ok tt, s1, g1) /\
  fit_gibbs E (CDP 1) 60 y4 SNone false IVariational o s1 g1 = (Ok tt, s2, g2) /\
  length (vtheta (s_var s1)) = 3%nat /\ length (vtheta (s_var s2)) <> 3%nat.
Proof.
  exists flat_env, o_half. eexists _, _, _, _, _, _.
  split; [apply o_half_valid|]. split; [vm_compute; reflexivity|]. split; [vm_compute; reflexivity|]. split; [vm_compute; reflexivity|]. split; vm_compute; [reflexivity|discriminate].
Qed.

(* ---- examples ---- *)
Definition cross_ex := ex_run flat_env (CDP 1) 0 3 1 1 o_half [cold y3].
Definition cross_ex2 := fit_variational flat_env (CDP 1) y4 (SInt 2) false 1 IKmeans o_half (fst cross_ex) (snd cross_ex).
Lemma cross_ex_ok : fst (fst cross_ex2) = Ok tt /\ s_gfit (fst cross_ex) = true /\ length (s_sims (fst cross_ex)) = 2%nat /\ s_y (fst cross_ex) = rows_of y3 /\ s_y (snd (fst cross_ex2)) = rows_of y4 /\
  s_vfit (fst cross_ex) = false /\ s_vfit (snd (fst cross_ex2)) = true.
Proof. vm_compute. repeat split; reflexivity. Qed.
Definition cross_ex3 := fit_gibbs flat_env (CDP 1) 60 y3 SNone true IKmeans o_half (snd (fst cross_ex2)) (snd cross_ex2).
Definition cross_ex4 := fit_gibbs flat_env (CDP 1) 60 y3 SNone false IRandom o_half (snd (fst cross_ex2)) (snd cross_ex2).
Lemma cross_ex4_ok : fst (fst cross_ex4) = Ok tt /\ s_vfit (snd (fst cross_ex4)) = true /\ length (vtheta (s_var (snd (fst cross_ex4)))) = 2%nat.
Proof. vm_compute. repeat split; reflexivity. Qed.
Lemma flat_reads c : reads_var_only c flat_qenv.
Proof. intros v x x' _. repeat split; reflexivity. Qed.
