(* The theorems of C93: the whole fit, new models and the queries. *)
From Coq Require Import Lqa.
From Verif Require Import Prelude Numpy Rng M_Weights M_Niw M_Utils M_Mix M_Query S_Oracle S_Niw S_Mix S_Query S_GAffine P_Lists P_Niw P_Wp P_GSim P_GLin P_Mix P_Map P_GAffine.
Open Scope Q_scope.

Lemma init_sim C q o o' y y' s s' g g' : arg_moved C y y' -> mix_moved C q s s' -> exists t t',
  init_common y o s g = (Ok tt, t, g) /\ init_common y' o' s' g' = (Ok tt, t', g') /\
  mix_moved C q t t' /\ s_dim t = co_dim C /\ s_1d t = false /\ length (s_y t) = length (rows_of y).
Proof.
  intros (D & D' & N1 & N2 & C1 & C2 & HR) [M1 M2 M3 M4 M5 M6 M7 M8 M9].
  set (f := fun y s => let s1 := upd_y (rows_of y) (co_dim C) false s in let s2 := upd_prior (mu_default s1) (psi_default s1) (s_nu s1) s1 in
    match s_nu s with Some _ => s2 | None => upd_prior (s_mu s2) (s_psi s2) (Some (nq (co_dim C))) s2 end).
  assert (F : forall y s o g, is_data y = true -> (forall l, y <> YSeries l) -> cols_of y = co_dim C -> init_common y o s g = (Ok tt, f y s, g)).
  { clear. intros y s o g D N1 C1. unfold f. cbv zeta. destruct y; try discriminate; try (exfalso; eapply N1; reflexivity); cbn [cols_of] in C1; rewrite <- C1;
      unfold init_common, bind, upd, get, set_obs; simpl; destruct (s_nu s) eqn:En; simpl; rewrite ?En; reflexivity. }
  exists (f y s), (f y' s'). split; [apply F; assumption|]. split; [apply F; assumption|].
  assert (Nu : s_nu s' = s_nu s) by (injection M1; auto). assert (Ln : length (rows_of y') = length (rows_of y)) by (exact (rows_len C _ _ HR)).
  set (s1 := upd_y (rows_of y) (co_dim C) false s). set (s1' := upd_y (rows_of y') (co_dim C) false s').
  assert (Pm : prior_moved (point_moved C) (mu_default s1) (mu_default s1')).
  { unfold mu_default. simpl. destruct (s_mu s) eqn:E1, (s_mu s') eqn:E2; simpl in M3; try contradiction; auto.
    destruct (rows_of y) as [|x l] eqn:Ey, (rows_of y') as [|x' l'] eqn:Ey'; try discriminate Ln; [exact I|]. cbn [is_nil]. simpl. apply mean_default; [exact HR|discriminate]. }
  assert (Pp : prior_moved (cov_moved C) (psi_default s1) (psi_default s1')).
  { unfold psi_default, s1, s1'. cbn [upd_y s_psi s_y s_dim]. destruct (s_psi s) eqn:E1, (s_psi s') eqn:E2; simpl in M4; try contradiction; auto.
    assert (Lb : (length (rows_of y') <=? 1)%nat = (length (rows_of y) <=? 1)%nat) by (rewrite Ln; reflexivity). rewrite Lb. destruct (Nat.leb (length (rows_of y)) 1); [exact I|]. simpl. apply cov_default. exact HR. }
  injection M1 as T1 T2 T3 T4 T5 T6 T7.
  unfold f. cbv zeta. rewrite Nu. fold s1 s1'. destruct (s_nu s) eqn:En; (split; [constructor; simpl; auto; try (rewrite T1, T2, T3, T4, T5, T7; simpl; rewrite ?Nu, ?En; reflexivity)|auto]).
Qed.

Theorem c93_fit_proof C r o o' E E' c fuel y y' ig warm meth s s' g g' :
  valid_oracle o -> draws_moved C o o' -> env_moved C r E E' -> arg_moved C y y' -> meth <> IVariational \/ warm = true ->
  mix_moved C (nq (length (rows_of y)) * r) s s' -> log_moved C g g' ->
  match fit_gibbs E c fuel y ig warm meth o s g with (x, t, h) => exists t' h',
    fit_gibbs E' c fuel y' ig warm meth o' s' g' = (x, t', h') /\ mix_moved C (nq (length (rows_of y)) * r) t t' /\ log_moved C h h' end.
Proof.
  intros HV HO HE HA Hm HM HL. destruct (init_sim C _ o o' y y' s s' g g' HA HM) as (t & t' & I1 & I2 & K1 & K2 & K3 & K4).
  pose proof (fitting_sim C o o' E E' r c fuel (length (rows_of y)) HO HE HV ig warm meth Hm t t' g g' (conj K1 (conj K2 (conj K3 K4))) HL) as F.
  assert (X : fit_gibbs E c fuel y ig warm meth o s g = fitting c fuel ig warm meth E o t g) by (unfold fit_gibbs; rewrite bind_run, I1; reflexivity).
  assert (X' : fit_gibbs E' c fuel y' ig warm meth o' s' g' = fitting c fuel ig warm meth E' o' t' g') by (unfold fit_gibbs; rewrite bind_run, I2; reflexivity).
  rewrite X, X'. destruct (fitting c fuel ig warm meth E o t g) as [[x v] h]. destruct F as (x' & v' & h' & -> & Hx & [Hv _] & Hh).
  exists v', h'. split; [|auto]. destruct x as [[]|e|], x' as [[]|e'|]; simpl in Hx; try contradiction; subst; reflexivity.
Qed.

Theorem c93_new_proof C q o o' c parg narg mu mu' lam psi psi' nu total burn sub :
  draws_moved C o o' -> opt_moved (point_moved C) mu mu' -> opt_moved (cov_moved C) psi psi' ->
  res_moved (fun x x' => mix_moved C q (fst x) (fst x') /\ log_moved C (snd x) (snd x'))
    (new_mix c parg narg mu lam psi nu total burn sub o) (new_mix c parg narg mu' lam psi' nu total burn sub o').
Proof.
  intros HO Hmu Hpsi. unfold new_mix.
  assert (K : new_ws c parg narg o' = new_ws c parg narg o) by (destruct c; simpl; try reflexivity; rewrite (dm_beta C o o' HO [] []) by constructor; reflexivity).
  rewrite K. assert (L : match new_ws c parg narg o with Ok (_, g0) => log_moved C g0 g0 | _ => True end).
  { destruct c; simpl; try exact (Forall2_nil _); match goal with |- context [if ?x then _ else _] => destruct x end; try exact I; repeat (constructor; try exact I). }
  destruct (new_ws c parg narg o) as [[s0 g0]|e|]; simpl; auto. destruct (qltb burn total); simpl; [|reflexivity]. split; [|exact L].
  constructor; simpl; auto; try (constructor; auto; fail).
  - destruct mu, mu'; simpl in *; auto.
  - destruct psi, psi'; simpl in *; auto.
  - split; [constructor|auto].
Qed.

Lemma rbind_moved {A B} (RA : A -> A -> Prop) (RB : B -> B -> Prop) x x' k k' : res_moved RA x x' -> (forall a a', RA a a' -> res_moved RB (k a) (k' a')) -> res_moved RB (rbind x k) (rbind x' k').
Proof. destruct x, x'; simpl; try contradiction; auto. Qed.
Lemma rmap_moved {A A' B} (RB : B -> B -> Prop) (RA : A -> A' -> Prop) f f' l l' : Forall2 RA l l' -> (forall a a', RA a a' -> res_moved RB (f a) (f' a')) -> res_moved (Forall2 RB) (rmap f l) (rmap f' l').
Proof.
  intros H F. induction H as [|a a' l l' Ha H IH]; [constructor|]. cbn [rmap]. apply (rbind_moved RB); [apply F; exact Ha|]. intros b b' Hb. apply (rbind_moved (Forall2 RB)); [exact IH|]. intros c c' Hc. simpl. constructor; assumption.
Qed.
Lemma Forall2_same {A} (l : list A) : Forall2 eq l l. Proof. induction l; constructor; auto. Qed.
Lemma res_eq {A} (x : res A) : res_moved eq x x. Proof. destruct x; simpl; auto. Qed.
Lemma scaled_nth rho l l' i : scaled rho l l' -> nth i l' 0 == rho * nth i l 0.
Proof. intros H. revert i. induction H; intros [|i]; simpl; auto; ring. Qed.
Lemma scaled_len rho l l' : scaled rho l l' -> length l' = length l.
Proof. induction 1; simpl; congruence. Qed.
Lemma scaled_sum rho l l' : scaled rho l l' -> qsum l' == rho * qsum l.
Proof. induction 1 as [|x x' l l' Hx H IH]; [simpl; ring|]. change (qsum (x' :: l')) with (x' + qsum l'). change (qsum (x :: l)) with (x + qsum l). rewrite Hx, IH. ring. Qed.
Lemma map_scaled {A} rho (f f' : A -> Q) l : (forall x, f' x == rho * f x) -> scaled rho (map f l) (map f' l).
Proof. intros H. induction l; constructor; auto. Qed.
Lemma rows_scaled rho i (l l' : list (list Q)) : Forall2 (scaled rho) l l' -> scaled rho (map (fun c => nth i c 0) l) (map (fun c => nth i c 0) l').
Proof. induction 1; constructor; auto. apply scaled_nth. assumption. Qed.
Lemma scaled_mul rho l l' : scaled rho l l' -> forall ww, scaled rho (qmul2 l ww) (qmul2 l' ww).
Proof. unfold qmul2. induction 1 as [|x x' l l' Hx H IH]; intros [|b ww]; simpl; try (constructor; fail). constructor; [simpl; rewrite Hx; ring|apply IH]. Qed.

Section Q.
Variables (C : coords) (rho : Q) (Q1 Q2 : qenv).
Hypothesis HQ : qenv_moved C rho Q1 Q2.

Lemma get_moved t t' j : atoms_moved C t t' -> res_moved (atom_moved C) (dict_get t j) (dict_get t' j).
Proof. intros H. unfold dict_get. destruct (j <? 0)%Z; [reflexivity|]. pose proof (lookup_moved C (Z.to_nat j) t t' H) as K. destruct (lookup _ t), (lookup _ t'); simpl in *; auto; contradiction. Qed.
Lemma comp_moved x x' fl ww t t' j : rows_moved C x x' -> atoms_moved C t t' -> res_moved (opt_moved (scaled rho)) (component_density Q1 x fl ww t DNone j) (component_density Q2 x' fl ww t' DNone j).
Proof.
  intros Hx Ht. cbn [component_density]. apply (rbind_moved (atom_moved C)); [apply get_moved; exact Ht|]. intros a a' Ha. apply (rbind_moved (scaled rho)); [apply (qm_pdf C rho Q1 Q2 HQ); assumption|]. intros l l' Hl.
  apply (rbind_moved eq); [apply res_eq|]. intros q _ <-. simpl. induction Hl; constructor; auto. rewrite H. ring.
Qed.
Lemma density_moved x x' fl ww t t' comp : rows_moved C x x' -> atoms_moved C t t' -> res_moved (scaled rho) (mixture_density Q1 x fl ww t DNone comp) (mixture_density Q2 x' fl ww t' DNone comp).
Proof.
  intros Hx Ht. unfold mixture_density. apply (rbind_moved (Forall2 (opt_moved (scaled rho)))).
  - apply (rmap_moved _ eq); [apply Forall2_same|]. intros j _ <-. apply comp_moved; assumption.
  - intros l l' Hl. assert (K : Forall2 (scaled rho) (somes l) (somes l')).
    { induction Hl as [|a a' l l' Ha H IH]; [constructor|]. destruct a, a'; simpl in *; try contradiction; [constructor; assumption|exact IH]. }
    simpl. rewrite (rows_len C _ _ Hx). unfold sum_columns. destruct K as [|b b' r r' Hb Hr]; [constructor; [ring|constructor]|].
    apply map_scaled. intros i. apply scaled_sum. apply (rows_scaled rho i (b :: r) (b' :: r')). constructor; assumption.
Qed.
Lemma cast_moved q s s' y y' : mix_moved C q s s' -> query_moved C y y' -> res_moved (fun x x' => rows_moved C (fst x) (fst x') /\ snd x' = snd x) (cast_obs s y) (cast_obs s' y').
Proof.
  intros [_ _ _ _ (M5 & _ & M6) _ _ _ _] H. destruct y as [y|], y' as [y'|]; simpl in H; try contradiction; [|simpl; auto].
  destruct H as (D & D' & N1 & N2 & _ & _ & HR).
  assert (K : forall y s, is_data y = true -> (forall l, y <> YSeries l) -> cast_obs s (Some y) = Ok (rows_of y, false)).
  { clear. intros y s D N. destruct y; try discriminate; try reflexivity. exfalso. eapply N. reflexivity. }
  rewrite !K by assumption. simpl. auto.
Qed.
Lemma gfit_moved q s s' : mix_moved C q s s' -> s_gfit s' = s_gfit s. Proof. intros [_ M2 _ _ _ _ _ _ _]. injection M2; auto. Qed.
Lemma map_moved q s s' : mix_moved C q s s' -> res_moved (state_moved C) (get_map s) (get_map s').
Proof. intros [_ _ _ _ _ _ M7 _ _]. unfold get_map. destruct (s_map s), (s_map s'); simpl in *; auto; contradiction. Qed.

Theorem c93_map_density_proof q s s' y y' comp : mix_moved C q s s' -> query_moved C y y' ->
  res_moved (scaled rho) (gibbs_map_density Q1 s y DNone comp) (gibbs_map_density Q2 s' y' DNone comp).
Proof.
  intros HM HY. unfold gibbs_map_density. rewrite (gfit_moved q s s' HM). destruct (negb _); [reflexivity|]. apply (rbind_moved _ _ _ _ _ _ (cast_moved q s s' y y' HM HY)). intros x x' [Hx Hf].
  apply (rbind_moved _ _ _ _ _ _ (map_moved q s s' HM)). intros p p' (W & _ & _ & T). rewrite Hf, W. apply density_moved; assumption.
Qed.
Lemma skipn_moved {A} (P : A -> A -> Prop) n l l' : Forall2 P l l' -> Forall2 P (skipn n l) (skipn n l').
Proof. intros H. revert n. induction H; intros [|n]; simpl; auto. Qed.
Lemma F2_len {A B} (P : A -> B -> Prop) l l' : Forall2 P l l' -> length l' = length l. Proof. induction 1; simpl; congruence. Qed.
Theorem c93_eap_density_proof q s s' y y' comp periods : mix_moved C q s s' -> query_moved C y y' ->
  res_moved (opt_moved (scaled rho)) (gibbs_eap_density Q1 s y DNone comp periods) (gibbs_eap_density Q2 s' y' DNone comp periods).
Proof.
  intros HM HY. unfold gibbs_eap_density. rewrite (gfit_moved q s s' HM). destruct (negb _); [reflexivity|]. apply (rbind_moved _ _ _ _ _ _ (cast_moved q s s' y y' HM HY)). intros x x' [Hx Hf].
  assert (L : Forall2 (state_moved C) (last_periods (s_sims s) periods) (last_periods (s_sims s') periods)).
  { pose proof (mm_sims C q s s' HM) as K. unfold last_periods. rewrite (F2_len _ _ _ K). destruct periods; [|exact K]. destruct (_ <=? 0)%Z; apply skipn_moved; exact K. }
  apply (rbind_moved (Forall2 (scaled rho))). { apply (rmap_moved _ _ _ _ _ _ L). intros p p' (W & _ & _ & T). rewrite Hf, W. apply density_moved; assumption. }
  intros rows rows' Hr. unfold mean_rows. pose proof Hr as Hr0. destruct Hr as [|b b' t t' Hb Ht]; [simpl; auto|].
  assert (Lb : length b' = length b) by (apply (scaled_len rho); exact Hb).
  assert (K : forallb (fun x => Nat.eqb (length x) (length b')) (b' :: t') = forallb (fun x => Nat.eqb (length x) (length b)) (b :: t)).
  { rewrite Lb. generalize (length b). intros n. clear -Hr0. induction Hr0; [reflexivity|]. cbn [forallb]. rewrite (scaled_len rho _ _ H), IHHr0. reflexivity. }
  rewrite K. destruct (forallb _ (b :: t)); [|exact eq_refl]. cbn [res_moved opt_moved]. rewrite Lb. apply map_scaled. intros i.
  rewrite (scaled_sum rho _ _ (rows_scaled rho i _ _ Hr0)). rewrite (F2_len _ _ _ Hr0). unfold Qdiv. ring.
Qed.

Hypothesis Hrho : ~ rho == 0.
Lemma argmax_from_eq l l' : Forall2 Qeq l l' -> forall b b' i j, b == b' -> argmax_from b i j l = argmax_from b' i j l'.
Proof.
  induction 1 as [|x x' l l' Hx H IH]; intros b b' i j Hb; [reflexivity|]. cbn [argmax_from].
  assert (K : qltb b x = qltb b' x') by (unfold qltb; f_equal; destruct (Qle_bool x b) eqn:X1, (Qle_bool x' b') eqn:X2; auto; [apply Qle_bool_iff in X1; assert (Y : x' <= b') by lra; apply Qle_bool_iff in Y; congruence|apply Qle_bool_iff in X2; assert (Y : x <= b) by lra; apply Qle_bool_iff in Y; congruence]).
  rewrite K. destruct (qltb b' x'); apply IH; assumption.
Qed.
Lemma argmax_eq l l' : Forall2 Qeq l l' -> argmax l = argmax l'.
Proof. destruct 1; [reflexivity|]. apply argmax_from_eq; assumption. Qed.
Lemma zero_scaled r r' : scaled rho r r' -> Qeq_bool (qsum r') 0 = Qeq_bool (qsum r) 0.
Proof.
  intros H. pose proof (scaled_sum rho r r' H) as K. destruct (Qeq_bool (qsum r) 0) eqn:X.
  - apply Qeq_bool_iff in X. apply Qeq_bool_iff. rewrite K, X. ring.
  - apply Qeq_bool_neq in X. destruct (Qeq_bool (qsum r') 0) eqn:Y; [|reflexivity]. apply Qeq_bool_iff in Y. rewrite K in Y. apply Qmult_integral in Y as [Y|Y]; contradiction.
Qed.
Lemma row_moved r r' : scaled rho r r' -> row_group r' = row_group r /\ opt_moved Qeq (row_uncertainty r) (row_uncertainty r').
Proof.
  intros H. pose proof (zero_scaled r r' H) as Z0. pose proof (scaled_sum rho r r' H) as K.
  assert (G : row_group r' = row_group r).
  { unfold row_group. rewrite Z0. destruct (Qeq_bool (qsum r) 0) eqn:X; [reflexivity|]. apply Qeq_bool_neq in X. symmetry. apply argmax_eq.
    set (a := qsum r) in *. set (b := qsum r') in *. clearbody a b. induction H as [|x x' l l' Hx H IH]; simpl; constructor; auto. rewrite Hx, K. field. auto. }
  split; [exact G|]. unfold row_uncertainty. rewrite Z0, G. destruct (Qeq_bool (qsum r) 0) eqn:X; [exact I|]. apply Qeq_bool_neq in X. simpl. rewrite (scaled_nth rho r r' _ H), K. field. auto.
Qed.
Lemma cluster_moved x x' ww t t' : rows_moved C x x' -> atoms_moved C t t' -> res_moved same_clusters (cluster Q1 x ww t) (cluster Q2 x' ww t').
Proof.
  intros Hx Ht. unfold cluster. apply (rbind_moved (Forall2 (scaled rho))).
  - unfold prob_rows. apply (rbind_moved (Forall2 (scaled rho))).
    + apply (rmap_moved _ eq); [apply Forall2_same|]. intros j _ <-. apply (rbind_moved (atom_moved C)); [apply get_moved; exact Ht|]. intros a a' Ha. apply (qm_pdf C rho Q1 Q2 HQ); assumption.
    + intros l l' Hl. simpl. rewrite (rows_len C _ _ Hx). induction (seq 0 (length x)); simpl; constructor; auto. apply scaled_mul, rows_scaled, Hl.
  - intros l l' Hl. rewrite (rows_len C _ _ Hx). destruct (_ || _); [reflexivity|]. simpl. split; simpl.
    + f_equal. induction Hl; [reflexivity|]. simpl. rewrite IHHl. f_equal. apply row_moved. assumption.
    + induction Hl; constructor; auto. apply row_moved. assumption.
Qed.
Theorem c93_clusters_proof q s s' y y' : mix_moved C q s s' -> query_moved C y y' ->
  res_moved same_clusters (gibbs_map_cluster Q1 s y) (gibbs_map_cluster Q2 s' y') /\
  gibbs_eap_affinity_matrix Q2 s' y' = gibbs_eap_affinity_matrix Q1 s y /\
  forall k, gibbs_spectral Q2 s' y' k = gibbs_spectral Q1 s y k.
Proof.
  intros HM HY.
  assert (Aff : gibbs_eap_affinity_matrix Q2 s' y' = gibbs_eap_affinity_matrix Q1 s y).
  { unfold gibbs_eap_affinity_matrix. rewrite (gfit_moved q s s' HM). destruct (negb _); [reflexivity|]. pose proof (cast_moved q s s' y y' HM HY) as CM.
    destruct y as [y|], y' as [y'|]; simpl in HY; try contradiction.
    2:{ pose proof HM as [_ M2 _ _ _ _ _ _ _]. injection M2 as _ _ _ -> -> _ _ _. reflexivity. }
    destruct (cast_obs s (Some y)) as [x|e|], (cast_obs s' (Some y')) as [x'|e'|]; simpl in CM; try contradiction; [|subst; reflexivity|reflexivity]. destruct CM as [Hx _]. simpl.
    pose proof (mm_sims C q s s' HM) as K. pose proof (F2_len _ _ _ K) as Kl.
    assert (R0 : res_moved (Forall2 same_clusters) (rmap (fun p => cluster Q1 (fst x) (r_w p) (r_theta p)) (s_sims s)) (rmap (fun p => cluster Q2 (fst x') (r_w p) (r_theta p)) (s_sims s'))).
    { apply (rmap_moved _ _ _ _ _ _ K). intros p p' (W & _ & _ & T). rewrite W. apply cluster_moved; assumption. }
    rewrite (rows_len C _ _ Hx), Kl. destruct (rmap _ (s_sims s)) as [a|e|], (rmap _ (s_sims s')) as [a'|e'|]; simpl in R0; try contradiction; [|subst; reflexivity|reflexivity]. simpl. f_equal. f_equal.
    generalize (repeat (repeat 0%nat (length (fst x))) (length (fst x))). clear -R0. induction R0 as [|u u' v v' [Hu _] H IH]; intros m; [reflexivity|]. simpl. rewrite Hu. apply IH. }
  split; [|split; [exact Aff|]].
  - unfold gibbs_map_cluster. rewrite (gfit_moved q s s' HM). destruct (negb _); [reflexivity|]. apply (rbind_moved _ _ _ _ _ _ (cast_moved q s s' y y' HM HY)). intros x x' [Hx Hf].
    apply (rbind_moved _ _ _ _ _ _ (map_moved q s s' HM)). intros p p' (W & _ & _ & T). rewrite W. apply cluster_moved; assumption.
  - intros k. unfold gibbs_spectral. rewrite (gfit_moved q s s' HM), Aff. destruct (negb _); [reflexivity|]. destruct (gibbs_eap_affinity_matrix Q1 s y); simpl; auto. apply (qm_spectral C rho Q1 Q2 HQ).
Qed.
End Q.
