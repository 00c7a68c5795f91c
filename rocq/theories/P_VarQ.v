(* Variational fits: the loop (C49), affinity (C51), clustering (C52). *)
From Coq Require Import Lqa.
From Verif Require Import Prelude Numpy Rng M_Weights M_Niw M_Utils M_Mix M_Query S_Oracle S_Weights S_Niw S_Mix S_Sort S_Query S_VarFit P_Lists P_Niw P_Mix P_Mix33 P_Mix34 P_MixOk P_Map P_Flags P_Dens P_Clu.
Open Scope Q_scope.

(* ---- the loop ---- *)
Lemma lx_moves tol a b : lx_ltb (LQ tol) (lx_abs (lx_add a (lx_opp b))) = true <-> moves tol a b.
Proof.
  destruct a as [p| | |], b as [q| | |]; cbn [lx_opp lx_add lx_abs lx_ltb moves]; try (split; [discriminate|intros []]); try (split; [intros _; exact I|reflexivity]).
  rewrite qltb_spec'. apply (Qabs.Qabs_case (p + - q) (fun z => tol < z <-> tol < q - p \/ tol < p - q)); intros H; (split; [intros K|intros [K|K]]); try lra; (left; lra) || (right; lra).
Qed.
Lemma var_loop_ok E c tol o : forall n elbo diff i s g r s' g', var_loop E c tol n elbo diff i o s g = (Ok r, s', g') ->
  exists es, var_run E c o s g es s' g' /\ r = (i + length es)%nat /\ (length es <= n)%nat /\
    (lx_ltb (LQ tol) diff = true -> (0 < n)%nat -> es <> []) /\
    (es <> [] -> lx_ltb (LQ tol) diff = true) /\
    (forall j, (S j < length es)%nat -> moves tol (match j with O => elbo | S q => nth q es LNan end) (nth j es LNan)) /\
    ((length es < n)%nat -> match length es with O => lx_ltb (LQ tol) diff = false | S q => ~ moves tol (match q with O => elbo | S p => nth p es LNan end) (nth q es LNan) end).
Proof.
  induction n as [|n IH]; intros elbo diff i s g r s' g' H; cbn [var_loop] in H.
  - exists []. destruct (lx_ltb (LQ tol) diff); injection H as <- <- <-; (split; [constructor|]); simpl; repeat split; try lia; try congruence; intros; lia.
  - destruct (lx_ltb (LQ tol) diff) eqn:D.
    2: { injection H as <- <- <-. exists []. split; [constructor|]. simpl; repeat split; try lia; try congruence; intros; lia. }
    apply bind_ok in H as ([] & s1 & g1 & H1 & H). apply bind_ok in H as (s2 & s3 & g3 & H2 & H). injection H2 as <- <- <-.
    apply bind_ok in H as (h & s4 & g4 & H2 & H). unfold of_res in H2. injection H2 as H2 <- <-.
    apply bind_ok in H as (e & s5 & g5 & H3 & H). unfold of_res in H3. injection H3 as H3 <- <-.
    destruct (IH _ _ _ _ _ _ _ _ H) as (es & R & Er & L & A & B & C & F). exists (e :: es). split; [econstructor; eassumption|].
    split; [simpl; lia|]. split; [simpl; lia|]. split; [discriminate|]. split; [reflexivity|]. split.
    + intros [|j] Hj; cbn [nth] in *.
      * apply lx_moves, B. intros Z. rewrite Z in Hj. simpl in Hj. lia.
      * specialize (C j ltac:(simpl in Hj; lia)). destruct j; exact C.
    + intros Hl. cbn [length] in *. specialize (F ltac:(lia)). destruct (length es) as [|q] eqn:Le.
      * cbn [nth]. rewrite <- lx_moves. rewrite F. discriminate.
      * cbn [nth]. destruct q; exact F.
Qed.

Definition flagst (s : ms) := (s_gfit s, s_vfit s, s_vconv s, s_total s).
Lemma c49_loop_proof : forall E c y k warm tol meth o s g s' g', fit_variational E c y k warm tol meth o s g = (Ok tt, s', g') ->
  exists s1 g1 es s2, (warm = true -> init_common y o s g = (Ok tt, s1, g1)) /\
    var_run E c o s1 g1 es s2 g' /\ s' = upd_flags (s_gfit s2) true (s_vconv s') s2 /\
    (length es <= Z.to_nat (s_total s))%nat /\ ((1 <= s_total s)%Z -> es <> []) /\
    (forall i, (S i < length es)%nat -> moves tol (elbo_before es i) (nth i es LNan)) /\
    (forall i, S i = length es -> (length es < Z.to_nat (s_total s))%nat -> ~ moves tol (elbo_before es i) (nth i es LNan)) /\
    (s_vconv s' = true <-> s_vconv s = true \/ (Z.of_nat (length es) < s_total s)%Z).
Proof.
  intros E c y k warm tol meth o s g s' g' H. unfold fit_variational in H.
  assert (N : forall {A} (m : M ms A) o s g r s' g', keeps flagst m -> m o s g = (r, s', g') -> flagst s' = flagst s) by (intros; eapply keeps_ok; eauto).
  apply bind_ok in H as ([] & s1 & g1 & H1 & H). apply bind_ok in H as ([] & s2 & g2 & H2 & H). apply bind_ok in H as (u & s3 & g3 & H3 & H). injection H3 as <- <- <-.
  apply bind_ok in H as (i & s3 & g3 & H3 & H).
  assert (F1 : flagst s1 = flagst s) by (eapply N; [|exact H1]; apply keeps_init_common; reflexivity).
  assert (F2 : flagst s2 = flagst s1) by (eapply N; [|exact H2]; keep; try reflexivity; apply keeps_init_variational; reflexivity).
  assert (F3 : flagst s3 = flagst s2) by (eapply N; [|exact H3]; apply keeps_var_loop; reflexivity).
  destruct (var_loop_ok _ _ _ _ _ _ _ _ _ _ _ _ _ H3) as (es & R & Ei & L & A & B & C & D).
  assert (F : flagst s3 = flagst s) by congruence. injection F as G1 G2 G3 G4. assert (T : s_total s2 = s_total s) by (injection F3; congruence). rewrite T in *.
  exists s2, g2, es, s3. split; [intros ->; injection H2 as -> ->; exact H1|].
  assert (Z0 : (1 <= s_total s)%Z -> es <> []) by (intros K; apply A; [reflexivity|lia]).
  assert (I : (Z.of_nat i <? s_total s3)%Z = (Z.of_nat (length es) <? s_total s)%Z) by (rewrite Ei, G4; reflexivity).
  unfold bind, upd in H. cbn beta iota in H.
  assert (X : exists b, s' = upd_flags (s_gfit s3) true b s3 /\ g' = g3 /\ (b = true <-> s_vconv s = true \/ (Z.of_nat (length es) < s_total s)%Z)).
  { change (s_total (upd_flags (s_gfit s3) true (s_vconv s3) s3)) with (s_total s3) in H. rewrite ?G4, ?T in H. 
    rewrite Ei in H. cbn [plus] in H. destruct (Z.ltb_spec (Z.of_nat (length es)) (s_total s)) as [Lt|Ge]; injection H as <- <-.
    - exists true. repeat split; auto.
    - exists (s_vconv s3). rewrite G3. split; [reflexivity|]. split; [reflexivity|]. split; [auto|]. intros [K|K]; [exact K|lia]. }
  destruct X as (b & -> & -> & Hb). split; [exact R|]. split; [reflexivity|]. split; [exact L|]. split; [exact Z0|]. split; [|split; [|exact Hb]].
  - intros j Hj. apply (C j Hj).
  - intros j Hj Hl. specialize (D Hl). rewrite <- Hj in D. exact D.
Qed.
(* nan stops the loop and counts as convergence *)
Lemma c49_nan_proof : forall E c y k warm tol meth o s g s' g', fit_variational E c y k warm tol meth o s g = (Ok tt, s', g') ->
  (2 <= s_total s)%Z -> (forall y h v, e_elbo E y h v = Ok LNan) -> s_vconv s' = true.
Proof.
  intros E c y k warm tol meth o s g s' g' H T N. destruct (c49_loop_proof _ _ _ _ _ _ _ _ _ _ _ _ H) as (s1 & g1 & es & s2 & _ & R & _ & L & _ & C & _ & F).
  apply F. right. destruct es as [|e1 [|e2 es]]; simpl; try lia. specialize (C 0%nat ltac:(simpl; lia)). simpl in C.
  inversion R; subst. match goal with X : e_elbo E _ _ _ = Ok e1 |- _ => rewrite N in X; injection X as <- end. destruct C.
Qed.
(* ---- the responsibilities after a fit ---- *)
Lemma run_last E c o s g es s' g' : var_run E c o s g es s' g' -> es <> [] -> exists s1 g1, maximize_variational E c o s1 g1 = (Ok tt, s', g').
Proof.
  induction 1; intros NE; [congruence|]. destruct es as [|e2 es]; [inversion H2; subst; eauto|]. apply IHvar_run. discriminate.
Qed.
Lemma maximize_resp E c o s g s' g' : resp_env E -> maximize_variational E c o s g = (Ok tt, s', g') ->
  s_1d s' = false /\ exists k, vk (s_var s') = Some k /\ (0 <= k)%Z /\ ((0 < k)%Z -> responsibilities (Z.to_nat k) (length (s_y s')) (vresp (s_var s'))).
Proof.
  intros RE H. unfold maximize_variational in H. apply bind_ok in H as ([] & s1 & g1 & H1 & H). apply bind_ok in H as (u & s2 & g2 & H2 & H). injection H2 as <- <- <-.
  apply bind_ok in H as ([] & s2 & g2 & H2 & H).
  assert (P : s_1d s1 = false /\ exists k, vk (s_var s1) = Some k /\ (0 <= k)%Z /\ ((0 < k)%Z -> responsibilities (Z.to_nat k) (length (s_y s1)) (vresp (s_var s1)))).
  { unfold update_var_d in H1. apply bind_ok in H1 as (u & t & gt & Ht & H1). injection Ht as <- <- <-. destruct (s_1d s) eqn:D1; [discriminate H1|].
    destruct (vk (s_var s)) as [k|] eqn:K; [|discriminate H1]. destruct (Z.ltb_spec k 0); [discriminate H1|]. destruct (supports_var c); [|discriminate H1]. cbn [negb] in H1.
    apply bind_ok in H1 as (D & t & gt & Ht & H1). unfold of_res in Ht. injection Ht as Ht <- <-. injection H1 as <- <-. simpl. split; [exact D1|]. exists k. split; [exact K|]. split; [lia|].
    intros Hk. eapply RE; eassumption. }
  destruct P as (D1 & k & K & K0 & P).
  assert (P2 : s_1d s2 = false /\ vk (s_var s2) = Some k /\ vresp (s_var s2) = vresp (s_var s1) /\ s_y s2 = s_y s1).
  { unfold fit_var_weights in H2. apply bind_ok in H2 as ([] & t & gt & Ht & H2). injection H2 as <- _.
    unfold onw in Ht. destruct (wm_fit_var c _ o (s_wm s1) g1) as [[q x] gx]. injection Ht as _ <- _. simpl. auto. }
  destruct P2 as (D2 & K2 & V2 & Y2). unfold update_var_theta in H. apply bind_ok in H as (u & t & gt & Ht & H). injection Ht as <- <- <-.
  apply bind_ok in H as (h & t & gt & Ht & H). unfold of_res in Ht. injection Ht as Ht <- <-. apply bind_ok in H as (th & t & gt & Ht2 & H). unfold of_res in Ht2. injection Ht2 as Ht2 <- <-.
  injection H as <- _. simpl. split; [exact D2|]. exists k. rewrite V2, Y2. auto.
Qed.
Lemma fit_resp E c y k warm tol meth o s g s' g' : resp_env E -> (1 <= s_total s)%Z -> fit_variational E c y k warm tol meth o s g = (Ok tt, s', g') ->
  s_vfit s' = true /\ s_1d s' = false /\ exists k, vk (s_var s') = Some k /\ (0 <= k)%Z /\ ((0 < k)%Z -> responsibilities (Z.to_nat k) (length (s_y s')) (vresp (s_var s'))).
Proof.
  intros RE T H. destruct (c49_loop_proof _ _ _ _ _ _ _ _ _ _ _ _ H) as (s1 & g1 & es & s2 & _ & R & Es & _ & NE & _).
  destruct (run_last _ _ _ _ _ _ _ _ R (NE T)) as (s3 & g3 & M). apply maximize_resp in M; [|exact RE]. rewrite Es. simpl. split; [reflexivity|exact M].
Qed.

(* ---- affinity ---- *)
Lemma entry_gram D n i j : (i < n)%nat -> (j < n)%nat -> entry (gram D n) i j = sum_over (fun r => nth i r 0 * nth j r 0) D.
Proof. intros Hi Hj. unfold entry, gram. rewrite (nth_map_seq (fun i => map _ (seq 0 n))) by exact Hi. rewrite nth_map_seq by exact Hj. apply qsum_map. Qed.
Lemma sq_nonneg (x : Q) : 0 <= x * x.
Proof. destruct (Qlt_le_dec x 0) as [H|H]; [setoid_replace (x * x) with ((- x) * (- x)) by ring; apply Qmult_le_0_compat; lra|apply Qmult_le_0_compat; lra]. Qed.
Lemma gram_psd D n x : quad n (gram D n) x == sum_over (fun r => (let z := sum_over (fun i => coord i x * nth i r 0) (seq 0 n) in z * z)) D.
Proof.
  unfold quad. rewrite (sum_ext _ (fun i => sum_over (fun j => sum_over (fun r => coord i x * nth i r 0 * (coord j x * nth j r 0)) D) (seq 0 n))).
  2: { intros i Hi. apply in_seq in Hi. apply sum_ext. intros j Hj. apply in_seq in Hj. rewrite entry_gram by lia.
       rewrite (sum_ext (fun r => coord i x * nth i r 0 * (coord j x * nth j r 0)) (fun r => (coord i x * coord j x) * (nth i r 0 * nth j r 0))) by (intros; ring). rewrite sum_scale. ring. }
  rewrite (sum_ext _ (fun i => sum_over (fun r => (coord i x * nth i r 0) * sum_over (fun j => coord j x * nth j r 0) (seq 0 n)) D)).
  2: { intros i _. rewrite sum_swap'. apply sum_ext. intros r _. rewrite <- sum_scale. apply sum_ext. intros; ring. }
  rewrite sum_swap'. apply sum_ext. intros r _. cbv zeta.
  rewrite (sum_ext _ (fun i => sum_over (fun j => coord j x * nth j r 0) (seq 0 n) * (coord i x * nth i r 0))) by (intros; ring). rewrite sum_scale. ring.
Qed.
Lemma resp_rows k n D i : responsibilities k n D -> (i < n)%nat ->
  (forall r, In r D -> 0 < nth i r 0) /\ sum_over (fun r => nth i r 0) D == 1 /\ (forall r, In r D -> nth i r 0 <= 1) /\ (0 < k)%nat.
Proof.
  intros (L & _ & H) Hi. destruct (H i Hi) as [P S1].
  assert (S2 : sum_over (fun r => nth i r 0) D == 1) by (rewrite (sum_nth _ D []), L; exact S1).
  assert (P2 : forall r, In r D -> 0 < nth i r 0) by (intros r Hr; destruct (In_nth D r [] Hr) as (j & Hj & <-); apply P; lia).
  split; [exact P2|]. split; [exact S2|]. split.
  - intros r Hr. assert (In (nth i r 0) (map (fun r => nth i r 0) D)) by (apply in_map_iff; eauto). destruct (In_nth _ _ 0 H0) as (j & Hj & Ej). rewrite <- Ej.
    assert (N : nonneg (map (fun r => nth i r 0) D)) by (apply Forall_forall; intros z Hz; apply in_map_iff in Hz as (r' & <- & Hr'); specialize (P2 r' Hr'); lra).
    pose proof (elem_le_sum _ j N) as B. rewrite sum_map in B. rewrite S2 in B. exact B.
  - destruct k; [|lia]. destruct D; [simpl in S2; lra|discriminate L].
Qed.
Lemma gram_affinity k n D : responsibilities k n D -> affinity_like k n (gram D n).
Proof.
  intros R. split; [unfold gram; rewrite map_length, seq_length; reflexivity|].
  split; [apply Forall_forall; intros r Hr; apply in_map_iff in Hr as (i & <- & _); rewrite map_length, seq_length; reflexivity|].
  split; [|split].
  - intros i j Hi Hj. rewrite !entry_gram by assumption. destruct (resp_rows _ _ _ _ R Hi) as (Pi & Si & Ui & Kp). destruct (resp_rows _ _ _ _ R Hj) as (Pj & Sj & Uj & _).
    split; [apply sum_ext; intros; ring|]. split.
    + destruct D as [|r D]; [simpl in Si; lra|]. cbn [sum_over]. assert (0 < nth i r 0 * nth j r 0) by (apply Qmult_lt_0_compat; [apply Pi|apply Pj]; left; reflexivity).
      assert (0 <= sum_over (fun r => nth i r 0 * nth j r 0) D); [|lra]. apply sum_nonneg. intros r' Hr'. apply Qmult_le_0_compat; apply Qlt_le_weak; [apply Pi|apply Pj]; right; exact Hr'.
    + rewrite <- Si. apply sum_le. intros r Hr. specialize (Pi r Hr). specialize (Uj r Hr). setoid_replace (nth i r 0) with (nth i r 0 * 1) at 2 by ring. rewrite !(Qmult_comm (nth i r 0)). apply Qmult_le_compat_r; lra.
  - intros i Hi. rewrite entry_gram by assumption. destruct (resp_rows _ _ _ _ R Hi) as (Pi & Si & Ui & Kp). destruct R as (L & _ & _).
    assert (Nk : 0 < nq k) by (unfold nq, Qlt; simpl; lia). set (t := 1 / nq k).
    assert (0 <= sum_over (fun r => (nth i r 0 - t) * (nth i r 0 - t)) D) by (apply sum_nonneg; intros; apply sq_nonneg).
    rewrite (sum_ext _ (fun r => nth i r 0 * nth i r 0 + ((- (2) * t) * nth i r 0 + t * t))) in H by (intros; ring).
    rewrite !sum_add, sum_scale, sum_const, Si, L in H. assert (nq k * (t * t) == t) by (unfold t; field; lra). rewrite H0 in H. lra.
  - intros x. rewrite gram_psd. apply sum_nonneg. intros; apply sq_nonneg.
Qed.
Lemma c51_affinity_proof : forall E QE c y k warm tol meth o s g s' g', resp_env E -> (1 <= s_total s)%Z ->
  fit_variational E c y k warm tol meth o s g = (Ok tt, s', g') ->
  exists kk, vk (s_var s') = Some kk /\ (0 <= kk)%Z /\ ((0 < kk)%Z -> exists m, var_eap_affinity_matrix QE s' None = Ok m /\ affinity_like (Z.to_nat kk) (length (s_y s')) m).
Proof.
  intros E QE c y k warm tol meth o s g s' g' RE T H. destruct (fit_resp _ _ _ _ _ _ _ _ _ _ _ _ RE T H) as (V & _ & kk & K & K0 & R).
  exists kk. split; [exact K|]. split; [exact K0|]. intros Kp. specialize (R Kp). unfold var_eap_affinity_matrix. rewrite V, K. cbn [negb]. eexists. split; [reflexivity|].
  assert (Nc : ncols (vresp (s_var s')) = length (s_y s')). { destruct R as (L & F & _). destruct (vresp (s_var s')) as [|r D]; [simpl in L; lia|]. inversion F; subst. assumption. }
  rewrite Nc. apply gram_affinity, R.
Qed.
Lemma c51_explicit_proof : forall QE s ya D, s_vfit s = true -> vk (s_var s) <> None -> q_resp QE ya (s_var s) (s_wm s) = Ok D ->
  match ya with
  | YArr2 l _ | YFrame l _ => forall k, responsibilities k (length l) D -> exists m, var_eap_affinity_matrix QE s (Some ya) = Ok m /\ affinity_like k (length l) m
  | _ => exists e, var_eap_affinity_matrix QE s (Some ya) = Err e
  end.
Proof.
  intros QE s ya D V K H. unfold var_eap_affinity_matrix. rewrite V. cbn [negb]. unfold get_vtheta. destruct (vk (s_var s)); [|congruence]. 
  destruct ya; cbn [rbind cast_obs]; try (eexists; reflexivity); rewrite H; cbn [rbind]; intros k' R; eexists; (split; [reflexivity|apply gram_affinity, R]).
Qed.

(* ---- clustering ---- *)
Lemma argmax0_first_max D n i : D <> [] -> (i < n)%nat -> first_max (column_of D i) (nth i (argmax0 D n) 0%nat).
Proof. intros H Hi. unfold argmax0. rewrite nth_map_seq by exact Hi. apply argmax_spec. unfold col. destruct D; [congruence|discriminate]. Qed.
Lemma c52_training_proof : forall E QE c y k warm tol meth o s g s' g', resp_env E -> (1 <= s_total s)%Z ->
  fit_variational E c y k warm tol meth o s g = (Ok tt, s', g') ->
  exists kk, vk (s_var s') = Some kk /\ (0 <= kk)%Z /\ ((0 < kk)%Z -> exists D lab unc, responsibilities (Z.to_nat kk) (length (s_y s')) D /\
    var_map_cluster QE s' None false = Ok (VCPlain lab) /\ var_map_cluster QE s' None true = Ok (VCVec lab unc) /\
    length lab = length (s_y s') /\ length unc = length (s_y s') /\
    forall i, (i < length (s_y s'))%nat -> first_max (column_of D i) (nth i lab 0%nat) /\
      nth i unc 0 == 1 - entry D (nth i lab 0%nat) i /\ 0 <= nth i unc 0 /\ nth i unc 0 <= 1 - 1 / nq (Z.to_nat kk)).
Proof.
  intros E QE c y k warm tol meth o s g s' g' RE T H. destruct (fit_resp _ _ _ _ _ _ _ _ _ _ _ _ RE T H) as (V & _ & kk & K & K0 & R).
  exists kk. split; [exact K|]. split; [exact K0|]. intros Kp. specialize (R Kp). set (D := vresp (s_var s')) in *. set (n := length (s_y s')) in *.
  assert (Dn : D <> []) by (destruct R as (L & _); destruct D; [simpl in L; lia|discriminate]).
  assert (Nc : ncols D = n). { destruct R as (L & F & _). destruct D as [|r D']; [congruence|]. inversion F; subst. assumption. }
  assert (Nl : is_nil D = false) by (destruct D; [congruence|reflexivity]).
  exists D, (argmax0 D n), (map (fun ij => 1 - mat_at D (snd ij) (fst ij)) (combine (seq 0 (length (argmax0 D n))) (argmax0 D n))).
  split; [exact R|]. unfold var_map_cluster. rewrite V, K. cbn [negb]. fold D. rewrite Nl, Nc. split; [reflexivity|]. split; [reflexivity|].
  assert (La : length (argmax0 D n) = n) by (unfold argmax0; rewrite map_length, seq_length; reflexivity).
  split; [exact La|]. split; [rewrite map_length, combine_length, seq_length, La; lia|]. intros i Hi. 
  pose proof (argmax0_first_max D n i Dn Hi) as F. split; [exact F|].
  assert (Eu : nth i (map (fun ij => 1 - mat_at D (snd ij) (fst ij)) (combine (seq 0 (length (argmax0 D n))) (argmax0 D n))) 0 = 1 - entry D (nth i (argmax0 D n) 0%nat) i).
  { rewrite (nth_map_lt _ _ _ _ (0%nat, 0%nat)) by (rewrite combine_length, seq_length, La; lia). rewrite combine_nth by apply seq_length. rewrite seq_nth by lia. reflexivity. }
  rewrite Eu. split; [reflexivity|]. destruct (resp_rows _ _ _ _ R Hi) as (Pi & Si & Ui & Kn).
  assert (Lc : length (column_of D i) = Z.to_nat kk) by (unfold column_of; rewrite map_length; apply R).
  assert (Ec : entry D (nth i (argmax0 D n) 0%nat) i = nth (nth i (argmax0 D n) 0%nat) (column_of D i) 0).
  { unfold column_of. destruct F as (F & _). unfold column_of in F. rewrite map_length in F. rewrite (nth_map_lt _ _ _ _ []) by exact F. reflexivity. }
  pose proof (max_average _ _ F) as M. rewrite <- Ec, Lc in M. unfold column_of in M. rewrite sum_map, Si in M.
  assert (Nk : 0 < nq (Z.to_nat kk)) by (unfold nq, Qlt; simpl; lia).
  assert (entry D (nth i (argmax0 D n) 0%nat) i <= 1). { unfold entry. apply Ui, nth_In. destruct F as (F & _). unfold column_of in F. rewrite map_length in F. exact F. }
  split; [lra|]. assert (1 / nq (Z.to_nat kk) <= entry D (nth i (argmax0 D n) 0%nat) i); [|lra]. apply Qle_shift_div_r; [exact Nk|]. rewrite Qmult_comm. exact M.
Qed.
(* for explicit data the second result is the matrix of the rows D[d] *)
Lemma c52_explicit_proof : forall QE s ya x fl D, s_vfit s = true -> vk (s_var s) <> None -> cast_obs s (Some ya) = Ok (x, fl) ->
  q_resp QE ya (s_var s) (s_wm s) = Ok D -> D <> [] ->
  exists lab, var_map_cluster QE s (Some ya) false = Ok (VCPlain lab) /\ length lab = length x /\
    (forall i, (i < length x)%nat -> first_max (column_of D i) (nth i lab 0%nat)) /\
    exists rows, var_map_cluster QE s (Some ya) true = Ok (VCMat lab rows) /\ length rows = length x /\
      forall i j, (i < length x)%nat -> entry rows i j = entry D (nth i lab 0%nat) j.
Proof.
  intros QE s ya x fl D V K Hx H Dn. unfold var_map_cluster. rewrite V. cbn [negb]. unfold get_vtheta. destruct (vk (s_var s)); [|congruence]. rewrite Hx. cbn [rbind fst]. rewrite H. cbn [rbind].
  assert (Nl : is_nil D = false) by (destruct D; [congruence|reflexivity]). rewrite Nl. exists (argmax0 D (length x)). split; [reflexivity|].
  assert (La : length (argmax0 D (length x)) = length x) by (unfold argmax0; rewrite map_length, seq_length; reflexivity).
  split; [exact La|]. assert (F : forall i, (i < length x)%nat -> first_max (column_of D i) (nth i (argmax0 D (length x)) 0%nat)) by (intros i Hi; apply argmax0_first_max; assumption).
  split; [exact F|]. rewrite (rmap_all _ (fun j => nth j D [])).
  - cbn [rbind]. eexists. split; [reflexivity|]. split; [rewrite map_length; exact La|]. intros i j Hi. unfold entry. rewrite (nth_map_lt _ _ _ _ 0%nat) by lia. reflexivity.
  - intros j Hj. destruct (In_nth _ _ 0%nat Hj) as (i & Hi & <-). rewrite La in Hi. destruct (F i Hi) as (B & _). unfold column_of in B. rewrite map_length in B. rewrite (nth_error_nth' D [] B). reflexivity.
Qed.
