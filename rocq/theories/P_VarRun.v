From Coq Require Import Reals Lra Permutation.
From Verif Require Import Prelude Numpy Rng M_Weights M_Ext M_Var M_VarNeg M_VarNum M_VarLoop S_Var S_VarNum S_Affine S_VarFin S_VarRun P_Var P_Var27 P_Var30 P_Affine P_Affine2 P_VarFin P_VarNeg.
Open Scope R_scope.

Lemma tot_wsum f : forall r y, length r = length y -> wsum r f y = tot r f y.
Proof.
  induction r as [|a r IH]; intros [|x y] L; try discriminate; [reflexivity|]. unfold wsum, tot. cbn [combine map length seq rsum fold_right fst snd nth].
  rewrite <- seq_shift, map_map. cbn [nth]. f_equal. apply IH. simpl in L. lia.
Qed.
Lemma share_wsum n r f : n <> 0 -> forall y, length r = length y -> n * wsum (map (fun q => q / n) r) f y = tot r f y.
Proof.
  intros N y L. rewrite <- tot_wsum by exact L. unfold wsum. revert y L. induction r as [|a r IH]; intros [|x y] L; try discriminate; simpl; [lra|].
  simpl in L. specialize (IH y ltac:(lia)). simpl in IH. rewrite Rmult_plus_distr_l, IH. field. exact N.
Qed.
Lemma tot_ext r f g y : (forall x, f x = g x) -> tot r f y = tot r g y.
Proof. intro H. unfold tot. apply rsum_ext. intros t _. rewrite H. reflexivity. Qed.

Lemma theta_row_posterior d inv y h r a : length (p_mu h) = d -> inverts d inv -> length r = length y -> theta_row inv y h r = Fin a -> posterior d y h r a.
Proof.
  intros Hm Hi L H. unfold theta_row in H. cbv zeta in H. unfold reqb in H. destruct (Req_EM_T (rsum r) 0) as [E|N]; [discriminate|]. destruct (Req_EM_T (p_lam h + rsum r) 0) as [E|N2]; [discriminate|]. cbn [orb] in H.
  destruct (inv (theta_matrix y h r)) as [p|] eqn:I; [|discriminate]. injection H as <-. rewrite Hm.
  apply (Hi _ _ (square_theta d y h r Hm)) in I. destruct I as (Sp & P1 & _).
  assert (X : forall i, rsum r * xbar r y i = tot r (fun x => nth i x 0) y) by (intro i; unfold xbar; apply share_wsum; assumption).
  unfold posterior. cbv zeta. cbn [ra_mu ra_lam ra_prec ra_scale]. split; [rewrite map_length; apply seq_length|]. split; [reflexivity|]. split; [reflexivity|]. split.
  - intros i Hlt. rewrite nth_tab by exact Hlt. rewrite <- X. field. exact N2.
  - exists (fun i => xbar r y i). split; [exact X|]. intros i j Hlt Hj. specialize (P1 i j Hlt Hj). rewrite <- P1. apply rsum_ext. intros l Hl. apply in_seq in Hl. f_equal.
    change (nth l (nth i (theta_matrix y h r) []) 0) with (mentry (theta_matrix y h r) i l). unfold theta_matrix. rewrite Hm. rewrite mentry_tab by lia.
    rewrite tot_wsum by exact L. f_equal. rewrite <- rsum_mult. apply rsum_ext. intros q _. unfold Rdiv. lra.
Qed.
Lemma collect_forall2 {A B} (f : A -> outcome B) (P : A -> B -> Prop) l : forall r, (forall a b, In a l -> f a = Fin b -> P a b) -> collect (map f l) = Fin r -> Forall2 P l r.
Proof.
  induction l as [|a l IH]; intros r H E; simpl in E; [injection E as <-; constructor|]. destruct (f a) as [b|e|] eqn:F; [|discriminate|destruct (collect (map f l)); discriminate].
  destruct (collect (map f l)) as [q|e|]; try discriminate. injection E as <-. constructor; [apply H; [left; reflexivity|exact F]|]. apply IH; [|reflexivity]. intros; apply H; [right; assumption|assumption].
Qed.
Lemma maximize_posterior dg eps ovf inv c d y h s s1 : length (p_mu h) = d -> inverts d inv -> maximize dg eps ovf inv c y h s = Fin s1 ->
  Forall2 (posterior d y h) (rows (f_d s1)) (f_theta s1).
Proof.
  intros Hm Hi H. unfold maximize in H. destruct (new_d dg eps ovf c y (f_w s) (f_theta s)) as [D|e|] eqn:ED; try discriminate. cbn [obind] in H.
  destruct (new_w c D (f_w s)) as [w1|e|]; try discriminate. cbn [obind] in H. destruct (new_theta inv y h D) as [th|e|] eqn:ET; try discriminate. cbn [obind] in H. injection H as <-. cbn [f_d f_theta].
  assert (W : Forall (fun r => length r = length y) (rows D)).
  { unfold new_d in ED. destruct (collect _) as [mlw|e|]; try discriminate. cbn [obind] in ED. destruct (finite_cols (update_d dg eps ovf mlw (f_theta s) y)) as [cs|] eqn:EC; [|discriminate]. injection ED as <-.
    destruct (finite_cols_in (p_mu h) d h Hm Hm _ _ EC) as [Lc _]. apply (of_cols_wide y). rewrite Lc. apply update_len. }
  apply (collect_forall2 (theta_row inv y h)); [|exact ET]. intros a b Ha Hb. apply (theta_row_posterior d inv); try assumption. rewrite Forall_forall in W. apply W. exact Ha.
Qed.

(* ---- the loop ---- *)
Lemma diff_spec tol a b : ext_ltb (EF tol) (ext_abs (ext_add a (ext_opp b))) = true <-> moved_more tol a b.
Proof.
  destruct a as [x| | |], b as [z| | |]; simpl; try tauto; try (split; intro; [exact I|reflexivity]); try (split; [discriminate|contradiction]).
  unfold rltb. destruct (Rlt_dec tol (Rabs (x + - z))) as [l|l]; unfold Rminus; split; intro H; try reflexivity; try discriminate; try assumption; contradiction.
Qed.
Lemma loop_trace dg lg eps ovf inv c d y h tol m : forall it el df s s1 it1 e1, loop dg lg eps ovf inv c d y h tol m it el df s = Fin (s1, it1, e1) ->
  exists ss es, ss it = s /\ es it = el /\ ss it1 = s1 /\ es it1 = e1 /\ (it <= it1 <= it + m)%nat /\
  (forall i, (it <= i < it1)%nat -> iteration dg lg eps ovf inv c d y h (ss i) (ss (S i)) (es (S i))) /\
  (forall i, (it < i < it1)%nat -> moved_more tol (es (i - 1)%nat) (es i)) /\
  ((it < it1)%nat -> ext_ltb (EF tol) df = true) /\
  ((it1 < it + m)%nat -> (it1 = it -> ext_ltb (EF tol) df = false) /\ ((it < it1)%nat -> ~ moved_more tol (es (it1 - 1)%nat) (es it1))).
Proof.
  induction m as [|m IH]; intros it el df s s1 it1 e1 H; cbn [loop] in H.
  - injection H as -> -> ->. exists (fun _ => s1), (fun _ => e1). do 5 (split; [first [reflexivity|lia]|]). split; [intros; lia|]. split; [intros; lia|]. split; intros; lia.
  - destruct (ext_ltb (EF tol) df) eqn:T.
    + destruct (maximize dg eps ovf inv c y h s) as [s2|e|] eqn:Mx; try discriminate. cbn [obind] in H. destruct (elbo_of dg lg inv c d y h s2) as [[e2 w2]|e|] eqn:El; try discriminate. cbn [obind fst snd] in H.
      apply IH in H. destruct H as (ss & es & A & B & C & D & F & G & I & J & K).
      exists (fun i => if Nat.eqb i it then s else ss i), (fun i => if Nat.eqb i it then el else es i).
      split; [rewrite Nat.eqb_refl; reflexivity|]. split; [rewrite Nat.eqb_refl; reflexivity|]. destruct (Nat.eqb_spec it1 it); [lia|]. split; [exact C|]. split; [exact D|]. split; [lia|].
      split; [|split; [|split]].
      * intros i Hlt. destruct (Nat.eqb_spec (S i) it); [lia|]. destruct (Nat.eqb_spec i it) as [->|N]; [|apply G; lia]. exists s2, w2. split; [exact Mx|]. split; [rewrite B; exact El|]. rewrite A. reflexivity.
      * intros i Hlt. destruct (Nat.eqb_spec i it); [lia|]. destruct (Nat.eqb_spec (i - 1) it) as [E|N].
        -- assert (i = S it) by lia. subst i. rewrite B. apply diff_spec. apply J. lia.
        -- apply I. lia.
      * reflexivity.
      * intro Lt. split; [lia|]. intros _. destruct (K ltac:(lia)) as [K1 K2]. destruct (Nat.eqb_spec (it1 - 1) it) as [E|N].
        -- assert (Ei : it1 = S it) by lia. subst it1. rewrite B. rewrite <- diff_spec. rewrite (K1 eq_refl). discriminate.
        -- apply K2. lia.
    + injection H as -> -> ->. exists (fun _ => s1), (fun _ => e1). do 5 (split; [first [reflexivity|lia]|]). split; [intros; lia|]. split; [intros; lia|]. split; [intros; lia|]. intros _. split; [reflexivity|lia].
Qed.
Lemma c85_stop_proof : forall dg lg eps ovf inv c d y h st total tol w s it e, var_fit dg lg eps ovf inv c d y h st total tol w = Fin (s, it, e) ->
  exists ss es, init dg eps ovf inv c y h st w = Fin (ss 0%nat) /\ es 0%nat = ENI /\ s = ss it /\ e = es it /\ (it <= total)%nat /\
  (forall i, (i < it)%nat -> iteration dg lg eps ovf inv c d y h (ss i) (ss (S i)) (es (S i))) /\
  (forall i, (1 <= i < it)%nat -> moved_more tol (es (i - 1)%nat) (es i)) /\
  ((it < total)%nat -> (1 <= it)%nat /\ ~ moved_more tol (es (it - 1)%nat) (es it)) /\
  (converged total (s, it, e) = true <-> exists i, (1 <= i < total)%nat /\ (i <= it)%nat /\ ~ moved_more tol (es (i - 1)%nat) (es i)).
Proof.
  intros dg lg eps ovf inv c d y h st total tol w s it e H. unfold var_fit in H. destruct (init dg eps ovf inv c y h st w) as [s0|x|] eqn:I; try discriminate. cbn [obind] in H.
  apply loop_trace in H. destruct H as (ss & es & A & B & C & D & F & G & J & _ & K). exists ss, es. rewrite A. split; [reflexivity|]. split; [exact B|]. split; [symmetry; exact C|]. split; [symmetry; exact D|]. split; [lia|].
  assert (K' : (it < total)%nat -> (1 <= it)%nat /\ ~ moved_more tol (es (it - 1)%nat) (es it)).
  { intro Lt. destruct (K Lt) as [K1 K2]. destruct it as [|it]; [specialize (K1 eq_refl); discriminate|]. split; [lia|apply K2; lia]. }
  split; [intros i Hi; apply G; lia|]. split; [intros i Hi; apply J; lia|]. split; [exact K'|]. unfold converged. cbn [fst snd]. rewrite Nat.ltb_lt. split.
  - intro Lt. destruct (K' Lt) as [K1 K2]. exists it. split; [lia|]. split; [lia|exact K2].
  - intros (i & H1 & H2 & H3). destruct (Nat.eq_dec i it) as [->|N]; [lia|]. exfalso. apply H3. apply J. lia.
Qed.
Lemma c85_atoms_proof : forall dg lg eps ovf inv c d y h st total tol w s it e, length (p_mu h) = d -> inverts d inv ->
  var_fit dg lg eps ovf inv c d y h st total tol w = Fin (s, it, e) -> (1 <= it)%nat -> Forall2 (posterior d y h) (rows (f_d s)) (f_theta s).
Proof.
  intros dg lg eps ovf inv c d y h st total tol w s it e Hm Hi H L. apply c85_stop_proof in H. destruct H as (ss & es & _ & _ & -> & _ & _ & G & _).
  destruct (G (it - 1)%nat ltac:(lia)) as (s1 & w1 & Mx & _ & E). replace (S (it - 1)) with it in E by lia. rewrite E. cbn [f_d f_theta]. eapply maximize_posterior; eassumption.
Qed.
Lemma c85_start_proof : forall dg lg eps ovf inv c d y h k l tol w s it e, length (p_mu h) = d -> inverts d inv -> length l = length y ->
  var_fit dg lg eps ovf inv c d y h (Labels k l) 0 tol w = Fin (s, it, e) ->
  it = 0%nat /\
  Forall2 (fun j a => posterior d y h (map (fun b => if Nat.eqb b j then 1 else 0) l) a) (seq 0 k) (f_theta s).
Proof.
  intros dg lg eps ovf inv c d y h k l tol w s it e Hm Hi Ll H. unfold var_fit in H. destruct (init dg eps ovf inv c y h (Labels k l) w) as [s0|x|] eqn:I; try discriminate. cbn [obind loop] in H. injection H as -> <- <-.
  split; [reflexivity|]. unfold init in I. destruct (new_w c _ w) as [w0|x|]; try discriminate. cbn [obind] in I. destruct (new_theta inv y h (hot k l)) as [t|x|] eqn:T; try discriminate. cbn [obind] in I.
  destruct (new_d dg eps ovf c y w0 t) as [D|x|]; try discriminate. cbn [obind] in I. destruct (new_w c D w0) as [w1|x|]; try discriminate. cbn [obind] in I. injection I as <-. cbn [f_theta].
  unfold new_theta, hot in T. cbn [rows] in T. rewrite map_map in T. apply (collect_forall2 (fun j => theta_row inv y h (map (fun b => if Nat.eqb b j then 1 else 0) l))); [|exact T].
  intros a b _ Hb. apply (theta_row_posterior d inv); try assumption. rewrite map_length. exact Ll.
Qed.

(* ---- totals ---- *)
Lemma rsum_rows (D : list (list R)) n : Forall (fun r => length r = n) D -> rsum (map rsum D) = rsum (map (fun i => rsum (col_at D i)) (seq 0 n)).
Proof.
  induction D as [|r D IH]; intro F.
  - simpl. symmetry. apply rsum_zero. intros i _. reflexivity.
  - inversion F as [|? ? L F2]; subst. change (rsum (map rsum (r :: D))) with (rsum r + rsum (map rsum D)). rewrite (IH F2). rewrite (rsum_ext (fun i => rsum (col_at (r :: D) i)) (fun i => nth i r 0 + rsum (col_at D i))) by reflexivity.
    rewrite rsum_add. f_equal. clear. induction r as [|x r IH]; [reflexivity|]. cbn [length seq map nth]. rewrite <- seq_shift, map_map. cbn [nth]. change (x + rsum r = x + rsum (map (fun i => nth i r 0) (seq 0 (length r)))). f_equal. exact IH.
Qed.
Lemma c85_totals_proof : forall dg lg eps ovf inv c d k y h l total tol w,
  0 < eps -> 0 <= ovf -> (0 < d)%nat -> (0 < k)%nat -> length (p_mu h) = d -> positive_definite d (p_psi h) -> 0 < p_lam h -> inverts_positive d inv -> inverts d inv ->
  labels_ok k (length y) l -> fits_groups k w c -> every_group_used k l -> (1 <= total)%nat ->
  exists s it e, var_fit dg lg eps ovf inv c d y h (Labels k l) total tol w = Fin (s, it, e) /\
  rsum (map ra_lam (f_theta s)) = INR k * p_lam h + INR (length y) /\ rsum (map ra_scale (f_theta s)) = INR k * p_nu h + INR (length y) /\ Forall (fun a => p_lam h < ra_lam a) (f_theta s).
Proof.
  intros dg lg eps ovf inv c d k y h l total tol w He Ho Hd Hk Hm Hp Hl Hip Hi Lo Fg U Ht.
  destruct (c82_finite_proof dg lg eps ovf inv c d k y h l total tol w He Ho Hd Hk Hm Hp Hl Hip Lo Fg U) as (s & it & e & E & P & Lt). exists s, it, e. split; [exact E|].
  assert (I1 : (1 <= it)%nat) by (pose proof E as E2; apply c85_stop_proof in E2; destruct E2 as (ss & es & _ & _ & _ & _ & B & _ & _ & K & _); destruct (Nat.eq_dec it total); [lia|apply K; lia]).
  pose proof (c85_atoms_proof _ _ _ _ _ _ _ _ _ _ _ _ _ _ _ _ Hm Hi E I1) as F2.
  assert (Sm : rsum (map rsum (rows (f_d s))) = INR (length y)).
  { destruct P as (P1 & P2 & P3 & P4). rewrite (rsum_rows _ (length y) P3). rewrite (rsum_ext _ (fun _ => 1 * 1)).
    - rewrite rsum_mult. rewrite (map_const 1 (seq 0 (length y))), seq_length. generalize (length y) as n. intro n. induction n as [|n IH]; [simpl; lra|]. rewrite S_INR. simpl rsum. simpl in IH. lra.
    - intros i Hin. apply in_seq in Hin. destruct (P4 i ltac:(lia)) as [_ P5]. rewrite P5. lra. }
  destruct P as (P1 & P2 & P3 & P4). rewrite <- Sm. rewrite <- P1. clear - F2 P3 P4 P1 Hk Hd Lo U. pose proof (used_count k l (length y) (proj1 Lo) U) as Hky.
  assert (Pos : Forall (fun r => 0 < rsum r) (rows (f_d s))).
  { rewrite Forall_forall. intros r Hr. rewrite Forall_forall in P3. pose proof (P3 r Hr) as Lr.
    assert (A : forall i, (i < length y)%nat -> 0 < nth i r 0) by (intros i Hlt; destruct (P4 i Hlt) as [Q _]; rewrite Forall_forall in Q; apply Q; unfold col_at; apply in_map_iff; exists r; split; [reflexivity|exact Hr]).
    destruct r as [|x r]; [simpl in Lr; lia|]. pose proof (A 0%nat ltac:(lia)) as A0. simpl in A0 |- *.
    assert (0 <= rsum r); [|lra]. apply rsum_ge0. intros z Hz. destruct (In_nth _ _ 0 Hz) as [i [Hlt <-]]. left. apply (A (S i)). simpl in Lr. lia. }
  clear P1 P3 P4 Hk Hd Lo U Hky. induction F2 as [|r a D th Hra F2 IH].
  - simpl. split; [lra|]. split; [lra|constructor].
  - inversion Pos as [|? ? R1 R2]; subst. destruct (IH R2) as (I1 & I2 & I3). destruct Hra as (_ & A & B & _). cbn [map rsum fold_right length] in *. rewrite S_INR. rewrite A, B. unfold rsum in *. split; [lra|]. split; [lra|]. constructor; [unfold rsum in *; lra|exact I3].
Qed.

(* ---- default priors ---- *)
Lemma c85_default_proof d y lam : (2 <= length y)%nat -> let h := default_prior d y lam in let n := INR (length y) in
  p_lam h = lam /\ p_nu h = INR d /\ (forall i, (i < d)%nat -> n * nth i (p_mu h) 0 = rsum (map (fun x => nth i x 0) y)) /\
  (forall i j, (i < d)%nat -> (j < d)%nat -> (n - 1) * nth j (nth i (p_psi h) []) 0 = rsum (map (fun x => (nth i x 0 - nth i (p_mu h) 0) * (nth j x 0 - nth j (p_mu h) 0)) y)).
Proof.
  intros L h n. assert (N : 2 <= n) by (unfold n; apply le_INR in L; simpl in L; lra). split; [reflexivity|]. split; [reflexivity|]. unfold h, default_prior. cbv zeta. cbn [p_mu p_psi]. fold n. split.
  - intros i Hi. rewrite nth_tab by exact Hi. field. lra.
  - intros i j Hi Hj. rewrite !nth_tab by assumption.
    match goal with |- _ * nth j (nth i ?m []) 0 = _ => change (nth j (nth i m []) 0) with (mentry m i j) end. rewrite mentry_tab by assumption. field. lra.
Qed.

(* ---- C84: the geometric mode at a negative index ---- *)
Lemma c84_geom_mode_proof a b D s sv i x y : fit_var (CGeom a b) D s = (Ok tt, sv) -> vpar sv = PPair x y -> (1 <= i)%nat ->
  (multimodal x y /\ mode_w_neg (CGeom a b) i sv = Err ValueError) \/
  (exists m v, is_beta_mode x y m /\ mode_w_neg (CGeom a b) i sv = Ok (Some (EF v)) /\ (m < 1 -> v * (1 - m) ^ i = m /\ m <= v) /\ (m = 1 -> v = 0)).
Proof.
  intros H Hv Hi. assert (Nr : rows D <> []) by (intro E; unfold fit_var in H; rewrite E in H; discriminate).
  rewrite geom_params in H by exact Nr. injection H as <-. cbn [vpar] in Hv. injection Hv as Hx Hy. unfold mode_w_neg. cbn [vk vpar]. rewrite Hx, Hy. clear Hx Hy.
  destruct (Z.ltb_spec (Z.of_nat (length (rows D))) (neg i)); [unfold neg in *; lia|]. unfold multimodal, is_beta_mode.
  destruct (rleb x 1) eqn:A; destruct (rleb y 1) eqn:B.
  1: apply rleb_true in A, B. 2: apply rleb_true in A; apply rleb_false in B. 3: apply rleb_true in B; apply rleb_false in A. 4: apply rleb_false in A, B.
  - left. split; [lra|reflexivity].
  - right. exists 0, 0. split; [left; lra|]. split; [reflexivity|]. split; [lra|lra].
  - right. exists 1, 0. split; [right; left; lra|]. split; [reflexivity|]. split; [lra|reflexivity].
  - right. set (m := (x - 1) / (x + y - 2)). assert (M1 : m * (x + y - 2) = x - 1) by (unfold m; field; lra).
    assert (M0 : 0 < m) by (unfold m; apply Rdiv_lt_0_compat; lra). assert (M2 : m < 1) by (apply (Rmult_lt_reg_r (x + y - 2)); lra).
    assert (Q1 : 0 < (1 - m) ^ i) by (apply pow_lt; lra). assert (Q2 : (1 - m) ^ i < 1) by (apply pow_lt_1_compat; [lra|lia]).
    exists m, (/ (1 - m) ^ i * m). split; [right; right; lra|]. split; [reflexivity|]. split; [|lra]. intros _. split; [field; lra|].
    assert (J : 1 < / (1 - m) ^ i). { apply (Rmult_lt_reg_r ((1 - m) ^ i)); [exact Q1|]. rewrite Rinv_l by lra. lra. }
    pose proof (Rmult_lt_compat_r m 1 (/ (1 - m) ^ i) M0 J). lra.
Qed.
