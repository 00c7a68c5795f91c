(* Variational modes of the fitted classes. *)
From Coq Require Import Reals Qreals Lra.
From Verif Require Import Prelude Numpy Rng M_Weights M_Ext M_Var S_Weights S_Draws S_Var P_Lists P_Var P_Var26 P_Var27 P_Var28.
Open Scope R_scope.

Lemma one_is a b : one_mode a b <-> is_beta_mode a b 1.
Proof.
  unfold one_mode, is_beta_mode. split; [intros [A B]; auto|]. intros [H|[H|H]]; lra.
Qed.
Definition dp_val (a b : nat -> R) (k j : nat) : R :=
  prodn (fun i => 1 - bmode (a i) (b i)) j * (if (j <? k - 1)%nat then bmode (a j) (b j) else 1).

Lemma dp_mode al D s sv j : fit_var (CDP al) D s = (Ok tt, sv) -> (j < length (rows D))%nat ->
  let a := fun j => 1 + mass D j in let b := fun j => Q2R al + mass_after D j in let k := length (rows D) in
  (mode_w (CDP al) j sv = Err ValueError /\ no_mode a b (k - 1) j) \/
  (mode_w (CDP al) j sv = Ok (Some (EF (dp_val a b k j))) /\ ~ no_mode a b (k - 1) j).
Proof.
  intros H Hj a b k. rewrite dp_params in H. injection H as <-. set (sv := VS _ _ _ _).
  assert (Hp : par_fun sv k a b) by reflexivity. cbn [mode_w vk]. change (vk sv) with (Some (Z.of_nat k)). cbv iota beta.
  destruct (Z.leb_spec (Z.of_nat k) (Z.of_nat j)) as [|_]; [lia|]. unfold dp_val.
  destruct (Z.eqb_spec (Z.of_nat j) (Z.of_nat k - 1)) as [J|J].
  - assert (J' : j = (k - 1)%nat) by lia. destruct (Nat.ltb_spec j (k - 1)); [lia|].
    destruct (mode_rest_spec sv k a b Hp j ltac:(lia)) as [(-> & i & Hi & M & F)|[(-> & i & Hi & M & F)|(-> & F)]].
    + left. split; [reflexivity|]. exists i. split; [lia|]. split; [lia|]. split; [exact M|]. intros l L. rewrite <- one_is. apply F. exact L.
    + right. rewrite (prodn_zero _ j i Hi) by (rewrite one_bmode by exact M; ring). rewrite Rmult_0_l. split; [reflexivity|].
      intros (i0 & A & B & C & E). destruct (Nat.lt_trichotomy i i0) as [L|[L|L]].
      * apply (E i L). apply one_is. exact M.
      * subst. unfold one_mode, multimodal in *. lra.
      * apply (F i0 L C).
    + right. rewrite Rmult_1_r. split; [reflexivity|]. intros (i0 & A & B & C & E). destruct (F i0 ltac:(lia)). contradiction.
  - destruct (Nat.ltb_spec j (k - 1)); [|lia].
    pose proof (open_mode_spec sv k a b j Hp Hj) as X. cbv zeta in X. unfold open_mode in X.
    destruct X as [(E & i & Hi & M & F)|(E & F)].
    + left. split; [|exists i; repeat split; try lia; try apply M; intros l L; rewrite <- one_is; apply F; exact L].
      destruct (mode_rest sv j); [congruence|discriminate|]. destruct (beta_at sv j) as [[x y]|]; [|discriminate]. rewrite E. reflexivity.
    + right. split.
      * destruct (mode_rest sv j); [discriminate|injection E as <-; reflexivity|]. destruct (beta_at sv j) as [[x y]|]; [|discriminate]. rewrite E. reflexivity.
      * intros (i0 & A & B & C & G). destruct F as [(i & Hi & M & F)|F]; [|apply (F i0 A C)].
        destruct (Nat.lt_trichotomy i i0) as [L|[L|L]].
        -- apply (G i L). apply one_is. exact M.
        -- subst. unfold one_mode, multimodal in *. lra.
        -- apply (F i0 L C).
Qed.

Lemma py_mode pyd al D s sv j : fit_var (CPY pyd al) D s = (Ok tt, sv) -> (j < length (rows D))%nat ->
  let a := fun j => 1 - Q2R pyd + mass D j in let b := fun j => Q2R al + (1 + INR j) * Q2R pyd + mass_after D j in let k := length (rows D) in
  (mode_w (CPY pyd al) j sv = Err ValueError /\ no_mode a b k j) \/
  (mode_w (CPY pyd al) j sv = Ok (Some (EF (prodn (fun i => 1 - bmode (a i) (b i)) j * bmode (a j) (b j)))) /\ ~ no_mode a b k j).
Proof.
  intros H Hj a b k. rewrite py_params in H. injection H as <-. set (sv := VS _ _ _ _).
  assert (Hp : par_fun sv k a b) by reflexivity. cbn [mode_w vk]. change (vk sv) with (Some (Z.of_nat k)). cbv iota beta.
  destruct (Z.ltb_spec (Z.of_nat k) (Z.of_nat j)) as [|_]; [lia|].
  pose proof (open_mode_spec sv k a b j Hp Hj) as X. cbv zeta in X. unfold open_mode in X.
  destruct X as [(E & i & Hi & M & F)|(E & F)].
  - left. split; [|exists i; repeat split; try lia; try apply M; intros l L; rewrite <- one_is; apply F; exact L].
    destruct (mode_rest sv j); [congruence|discriminate|]. destruct (beta_at sv j) as [[x y]|]; [|discriminate]. rewrite E. reflexivity.
  - right. split.
    + destruct (mode_rest sv j); [discriminate|injection E as <-; reflexivity|]. destruct (beta_at sv j) as [[x y]|]; [|discriminate]. rewrite E. reflexivity.
    + intros (i0 & A & B & C & G). destruct F as [(i & Hi & M & F)|F]; [|apply (F i0 A C)].
      destruct (Nat.lt_trichotomy i i0) as [L|[L|L]].
      * apply (G i L). apply one_is. exact M.
      * subst. unfold one_mode, multimodal in *. lra.
      * apply (F i0 L C).
Qed.

Lemma prodn_range f n : (forall i, 0 <= f i <= 1) -> 0 <= prodn f n <= 1.
Proof. intros H. induction n as [|n [I1 I2]]; simpl; [lra|]. specialize (H n). split; [apply Rmult_le_pos; lra|]. nra. Qed.
Lemma mul_range x y : 0 <= x <= 1 -> 0 <= y <= 1 -> 0 <= x * y <= 1.
Proof. intros. split; [apply Rmult_le_pos; lra|]. nra. Qed.
Lemma dp_val_range a b k j : 0 <= dp_val a b k j <= 1.
Proof.
  unfold dp_val. apply mul_range; [apply prodn_range; intros i; pose proof (bmode_range (a i) (b i)); lra|].
  destruct (j <? k - 1)%nat; [apply bmode_range|lra].
Qed.

Lemma c30_dp_error_proof al D s sv j : fit_var (CDP al) D s = (Ok tt, sv) -> (j < length (rows D))%nat ->
  (mode_w (CDP al) j sv = Err ValueError <-> no_mode (fun j => 1 + mass D j) (fun j => Q2R al + mass_after D j) (length (rows D) - 1) j).
Proof. intros H Hj. destruct (dp_mode al D s sv j H Hj) as [(E & N)|(E & N)]; rewrite E; split; intros; try discriminate; auto; contradiction. Qed.
Lemma c30_dp_value_proof al D s sv j m : fit_var (CDP al) D s = (Ok tt, sv) -> (j < length (rows D))%nat ->
  (forall i, (i <= j)%nat -> (i < length (rows D) - 1)%nat -> is_beta_mode (1 + mass D i) (Q2R al + mass_after D i) (m i)) ->
  mode_w (CDP al) j sv = Ok (Some (EF (prodn (fun i => 1 - m i) j * (if (j <? length (rows D) - 1)%nat then m j else 1)))).
Proof.
  intros H Hj Hm. destruct (dp_mode al D s sv j H Hj) as [(E & i & A & B & (C1 & C2) & F)|(E & N)].
  - specialize (Hm i A B). cbv beta in *. unfold is_beta_mode in Hm. lra.
  - rewrite E. do 3 f_equal. unfold dp_val.
    assert (U : forall i, (i <= j)%nat -> (i < length (rows D) - 1)%nat -> bmode (1 + mass D i) (Q2R al + mass_after D i) = m i).
    { intros i A B. specialize (Hm i A B). eapply beta_mode_unique; [apply bmode_is|exact Hm]. intros [C1 C2]. unfold is_beta_mode in Hm. lra. }
    f_equal; [apply prodn_ext; intros i Hi; rewrite U by lia; reflexivity|]. destruct (Nat.ltb_spec j (length (rows D) - 1)); [apply U; lia|reflexivity].
Qed.
Lemma c30_dp_sum_proof al D s sv x : fit_var (CDP al) D s = (Ok tt, sv) -> rows D <> [] ->
  (forall j, (j < length (rows D))%nat -> mode_w (CDP al) j sv = Ok (Some (EF (x j)))) -> sumn x (length (rows D)) = 1.
Proof.
  intros H Hr Hx. set (k := length (rows D)) in *. assert (Hk : (0 < k)%nat) by (unfold k; destruct (rows D); [congruence|simpl; lia]).
  set (a := fun j => 1 + mass D j) in *. set (b := fun j => Q2R al + mass_after D j) in *.
  rewrite (sumn_ext x (dp_val a b k)).
  - destruct k as [|n] eqn:Ek; [lia|]. rewrite sumn_S. unfold dp_val at 2. destruct (Nat.ltb_spec n (S n - 1)); [lia|].
    rewrite (sumn_ext _ (fun j => prodn (fun i => 1 - bmode (a i) (b i)) j * (1 - (1 - bmode (a j) (b j))))).
    + rewrite (telescope (fun i => 1 - bmode (a i) (b i))). lra.
    + intros j Hj. unfold dp_val. destruct (Nat.ltb_spec j (S n - 1)); [ring|lia].
  - intros j Hj. specialize (Hx j Hj). destruct (dp_mode al D s sv j H Hj) as [(E & N)|(E & N)]; rewrite E in Hx; [discriminate|]. injection Hx as <-. reflexivity.
Qed.

Lemma c30_py_error_proof pyd al D s sv j : fit_var (CPY pyd al) D s = (Ok tt, sv) -> (j < length (rows D))%nat ->
  (mode_w (CPY pyd al) j sv = Err ValueError <->
   no_mode (fun j => 1 - Q2R pyd + mass D j) (fun j => Q2R al + (1 + INR j) * Q2R pyd + mass_after D j) (length (rows D)) j).
Proof. intros H Hj. destruct (py_mode pyd al D s sv j H Hj) as [(E & N)|(E & N)]; rewrite E; split; intros; try discriminate; auto; contradiction. Qed.

Lemma geom_mode a b D s sv j x y : fit_var (CGeom a b) D s = (Ok tt, sv) -> vpar sv = PPair x y -> (j <= length (rows D))%nat ->
  (mode_w (CGeom a b) j sv = Err ValueError /\ multimodal x y) \/
  (mode_w (CGeom a b) j sv = Ok (Some (EF ((1 - bmode x y) ^ j * bmode x y))) /\ ~ multimodal x y).
Proof.
  intros H Hv L. destruct (rows D) as [|r t] eqn:E; [unfold fit_var in H; rewrite E in H; discriminate|]. rewrite <- E in *.
  rewrite geom_params in H by congruence. injection H as <-. cbn [vpar] in Hv. injection Hv as Hx Hy. cbn [mode_w vk vpar]. rewrite Hx, Hy. clear Hx Hy.
  destruct (Z.ltb_spec (Z.of_nat (length (rows D))) (Z.of_nat j)); [lia|].
  unfold bmode, multimodal. destruct (rleb x 1) eqn:A; destruct (rleb y 1) eqn:B.
  1: apply rleb_true in A, B. 2: apply rleb_true in A; apply rleb_false in B. 3: apply rleb_true in B; apply rleb_false in A. 4: apply rleb_false in A, B.
  - left; auto.
  - right; split; [unfold rmap; do 3 f_equal; ring|lra].
  - right; split; [unfold rmap; do 3 f_equal|lra]. unfold py_bool. destruct j; [simpl; ring|]. simpl. ring.
  - right; split; [reflexivity|lra].
Qed.
Lemma c30_geom_error_proof a b D s sv j x y : fit_var (CGeom a b) D s = (Ok tt, sv) -> vpar sv = PPair x y -> (j <= length (rows D))%nat ->
  (mode_w (CGeom a b) j sv = Err ValueError <-> multimodal x y).
Proof. intros H Hv Hj. destruct (geom_mode a b D s sv j x y H Hv Hj) as [(E & N)|(E & N)]; rewrite E; split; intros; try discriminate; auto; contradiction. Qed.

Lemma dir_mode n al D s sv l j a : fit_var (CDirDist n al) D s = (Ok tt, sv) -> vpar sv = PDir l -> (Z.of_nat j <= n)%Z -> nth_error l j = Some a ->
  (mode_w (CDirDist n al) j sv = Err ValueError /\ multimodal a (rsum l - a)) \/
  (mode_w (CDirDist n al) j sv = Ok (Some (EF (bmode a (rsum l - a)))) /\ ~ multimodal a (rsum l - a)).
Proof.
  intros H Hv L Hn. unfold fit_var in H. destruct (Z.eqb_spec (Z.of_nat (length (rows D))) n); [|discriminate].
  destruct (radd2 _ _); [|discriminate]. injection H as <-. cbn [vpar] in Hv. injection Hv as ->. cbn [mode_w vk vpar].
  destruct (Z.ltb_spec n (Z.of_nat j)); [lia|]. rewrite Hn. unfold bmode, multimodal. destruct (rleb a 1) eqn:A; destruct (rleb (rsum l - a) 1) eqn:B.
  1: apply rleb_true in A, B. 2: apply rleb_true in A; apply rleb_false in B. 3: apply rleb_true in B; apply rleb_false in A. 4: apply rleb_false in A, B.
  - left; auto.
  - right; split; [reflexivity|lra].
  - right; split; [reflexivity|lra].
  - right; split; [|lra]. unfold rmap. do 4 f_equal. lra.
Qed.
Lemma c30_dir_error_proof n al D s sv l j a : fit_var (CDirDist n al) D s = (Ok tt, sv) -> vpar sv = PDir l -> (Z.of_nat j <= n)%Z -> nth_error l j = Some a ->
  (mode_w (CDirDist n al) j sv = Err ValueError <-> multimodal a (rsum l - a)).
Proof. intros H Hv L Hn. destruct (dir_mode n al D s sv l j a H Hv L Hn) as [(E & N)|(E & N)]; rewrite E; split; intros; try discriminate; auto; contradiction. Qed.

(* every number returned is in [0, 1] *)
Lemma pow_range x n : 0 <= x <= 1 -> 0 <= x ^ n <= 1.
Proof. intros H. induction n; simpl; [lra|]. apply mul_range; assumption. Qed.
Lemma mass_le D j : good_mat D -> (j < length (rows D))%nat -> mass D j <= mat_sum D.
Proof.
  intros Hg. unfold mat_sum, row_sums, mass, good_mat in *. revert j. induction (rows D) as [|r t IH]; intros j Hj; [simpl in Hj; lia|].
  inversion Hg as [|? ? [? Hr] Ht]; subst. cbn [map]. rewrite rsum_cons. apply rsum_nonneg in Hr. destruct j.
  - simpl. enough (0 <= rsum (map rsum t)) by (unfold rsum in *; lra). apply rsum_nonneg, Forall_map. eapply Forall_impl; [|exact Ht]. intros a [_ Ha]. apply rsum_nonneg. exact Ha.
  - cbn [nth]. specialize (IH Ht j ltac:(simpl in Hj; lia)). lra.
Qed.
Lemma mode_rest_range s j r : mode_rest s j = MGo r -> 0 <= r <= 1.
Proof.
  revert r. induction j as [|j IH]; intros r; cbn [mode_rest]; [intros [= <-]; lra|].
  destruct (mode_rest s j) as [| |q]; try discriminate. specialize (IH q eq_refl). destruct (beta_at s j) as [[a b]|]; [|discriminate].
  destruct (rleb b 1) eqn:B; [destruct (rleb a 1); discriminate|]. destruct (rleb a 1) eqn:A; intros [= <-]; [exact IH|]. apply rleb_false in A, B.
  apply mul_range; [exact IH|]. split; [apply Rlt_le, Rdiv_lt_0_compat; lra|]. apply Rmult_le_reg_r with (a + b - 2); [lra|].
  unfold Rdiv. rewrite Rmult_assoc, Rinv_l by lra. lra.
Qed.
Lemma mode_last_range a b r x : 0 <= r <= 1 -> mode_last a b r = Ok x -> 0 <= x <= 1.
Proof.
  intros Hr E. destruct (mode_last_spec a b r) as [(E' & _)|(E' & _)]; rewrite E' in E; [discriminate|]. injection E as <-. apply mul_range; [exact Hr|apply bmode_range].
Qed.
Lemma c30_range_proof c D s sv j x : good_mat D ->
  fit_var c D s = (Ok tt, sv) -> mode_w c j sv = Ok (Some (EF x)) -> 0 <= x <= 1.
Proof.
  intros Hg H E. destruct c.
  - cbn [mode_w] in E. destruct (vk sv) as [k|]; [|discriminate]. destruct (k <? Z.of_nat j)%Z; [injection E as <-; lra|].
    destruct (vpar sv) as [| | |l]; try discriminate. destruct (nth_error l j) as [a|]; [|discriminate].
    destruct (rleb a 1) eqn:A; destruct (rleb (rsum l - a) 1) eqn:B; cbn [rmap] in E; try discriminate; injection E as <-; try lra.
    apply rleb_false in A, B. split; [apply Rlt_le, Rdiv_lt_0_compat; lra|]. apply Rmult_le_reg_r with (rsum l - 2); [lra|]. unfold Rdiv. rewrite Rmult_assoc, Rinv_l by lra. lra.
  - cbn [mode_w] in E. destruct (vk sv) as [k|]; [|discriminate]. destruct (k <=? Z.of_nat j)%Z; [injection E as <-; lra|].
    destruct (mode_rest sv j) as [| |r] eqn:M; [discriminate|injection E as <-; lra|]. apply mode_rest_range in M.
    destruct (Z.of_nat j =? k - 1)%Z; [injection E as <-; exact M|]. destruct (beta_at sv j) as [[a b]|]; [|discriminate].
    destruct (mode_last a b r) eqn:L; try discriminate. injection E as <-. eapply mode_last_range; eassumption.
  - cbn [mode_w] in E. destruct (vk sv) as [k|]; [|discriminate]. destruct (k <? Z.of_nat j)%Z; [injection E as <-; lra|].
    destruct (mode_rest sv j) as [| |r] eqn:M; [discriminate|injection E as <-; lra|]. apply mode_rest_range in M.
    destruct (beta_at sv j) as [[a b]|]; [|discriminate].
    destruct (mode_last a b r) eqn:L; try discriminate. injection E as <-. eapply mode_last_range; eassumption.
  - cbn [mode_w] in E. destruct (vk sv) as [k|]; [|discriminate]. destruct (k <? Z.of_nat j)%Z; [discriminate|].
    destruct (vpar sv) as [| |p q|]; try discriminate. destruct (rleb p 1) eqn:A; destruct (rleb q 1) eqn:B; cbn [rmap] in E; try discriminate; injection E as <-; try lra.
    + unfold py_bool. destruct (Nat.eqb j 0); lra.
    + apply rleb_false in A, B. pose proof (bmode_range p q) as R. unfold bmode in R.
      destruct (rleb p 1) eqn:A'; [apply rleb_true in A'; lra|]. destruct (rleb q 1) eqn:B'; [apply rleb_true in B'; lra|].
      apply mul_range; [apply pow_range; lra|exact R].
  - discriminate.
  - discriminate.
  - discriminate.
  - discriminate.
  - injection H as <-. cbn [mode_w vn] in E. destruct (Z.eqb_spec (Z.of_nat (length (rows D))) 0); [discriminate|]. injection E as <-.
    rewrite <- INR_IZR_INZ. apply mul_range; [|unfold py_bool; destruct (_ <? _)%Z; lra].
    assert (1 <= INR (length (rows D))) by (change 1 with (INR 1); apply le_INR; lia).
    split; [apply Rlt_le, Rdiv_lt_0_compat; lra|]. apply Rmult_le_reg_r with (INR (length (rows D))); [lra|]. unfold Rdiv. rewrite Rmult_assoc, Rinv_l by lra. lra.
  - injection H as <-. cbn [mode_w vk vd] in E. destruct (_ <? Z.of_nat j)%Z; [injection E as <-; lra|].
    destruct (Nat.lt_ge_cases j (length (rows D))) as [L|L].
    + rewrite freq_row in E by exact L. cbn [option_map opt_res] in E. injection E as E. unfold ext_div in E.
      pose proof (mass_le D j Hg L). pose proof (good_mass D j Hg).
      destruct (reqb (mat_sum D) 0) eqn:Z0; [destruct (rltb 0 (mass D j)); [|destruct (rltb (mass D j) 0)]; discriminate|].
      unfold reqb in Z0. destruct (Req_EM_T (mat_sum D) 0); [discriminate|]. injection E as <-.
      assert (0 < mat_sum D) by lra. split; [unfold Rdiv; apply Rmult_le_pos; [lra|apply Rlt_le, Rinv_0_lt_compat; lra]|].
      apply Rmult_le_reg_r with (mat_sum D); [lra|]. unfold Rdiv. rewrite Rmult_assoc, Rinv_l by lra. lra.
    + replace (nth_error (row_sums D) j) with (@None R) in E; [discriminate|]. symmetry. apply nth_error_None. unfold row_sums. rewrite map_length. exact L.
Qed.
