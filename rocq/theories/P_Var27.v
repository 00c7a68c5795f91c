(* Variational mean weights. *)
From Coq Require Import Reals Qreals Lra.
From Verif Require Import Prelude Numpy Rng M_Weights M_Ext M_Var S_Weights S_Draws S_Var P_Lists P_Var P_Var26.
Open Scope R_scope.

Lemma ext_div_pos x y : 0 < y -> ext_div x y = EF (x / y).
Proof. intros H. unfold ext_div, reqb. destruct (Req_EM_T y 0); [lra|reflexivity]. Qed.
Lemma ext_mul_F x y : ext_mul (EF x) (EF y) = EF (x * y).
Proof. reflexivity. Qed.
Lemma rleb_true x y : rleb x y = true <-> x <= y.
Proof. unfold rleb. destruct (Rle_dec x y); split; intros; auto; try discriminate; contradiction. Qed.
Lemma rleb_false x y : rleb x y = false <-> y < x.
Proof. unfold rleb. destruct (Rle_dec x y); split; intros; auto; try discriminate; lra. Qed.
Lemma rltb_true x y : rltb x y = true <-> x < y.
Proof. unfold rltb. destruct (Rlt_dec x y); split; intros; auto; try discriminate; contradiction. Qed.

Lemma good_mass D j : good_mat D -> 0 <= mass D j.
Proof.
  intros H. unfold mass. apply rsum_nonneg. destruct (Nat.lt_ge_cases j (length (rows D))) as [L|L].
  - unfold good_mat in H. rewrite Forall_forall in H. apply H. apply nth_In. exact L.
  - rewrite nth_overflow by exact L. constructor.
Qed.
Lemma Forall_skipn {A} (P : A -> Prop) l n : Forall P l -> Forall P (skipn n l).
Proof. intros H. rewrite <- (firstn_skipn n l) in H. apply Forall_app in H. apply H. Qed.
Lemma good_after D j : good_mat D -> 0 <= mass_after D j.
Proof.
  intros H. unfold mass_after. apply rsum_nonneg. apply Forall_map. apply Forall_skipn. eapply Forall_impl; [|exact H].
  intros r [_ Hr]. apply rsum_nonneg. exact Hr.
Qed.

(* parameters given by two functions of the index *)
Definition par_fun (s : vs) (k : nat) (a b : nat -> R) : Prop :=
  vpar s = PBeta (map (fun j => (a j, b j)) (seq 0 k)).
Lemma par_at s k a b j : par_fun s k a b -> (j < k)%nat -> beta_at s j = Some (a j, b j).
Proof.
  unfold par_fun, beta_at. intros -> H. rewrite nth_error_map, nth_error_nth' with (d := 0%nat) by (rewrite seq_length; exact H).
  rewrite seq_nth by exact H. reflexivity.
Qed.
Lemma par_out s k a b j : par_fun s k a b -> (k <= j)%nat -> beta_at s j = None.
Proof. unfold par_fun, beta_at. intros -> H. apply nth_error_None. rewrite map_length, seq_length. exact H. Qed.
Definition keep (a b : nat -> R) (j : nat) : R := b j / (a j + b j).
Lemma mean_rest_val s k a b : par_fun s k a b -> (forall j, 0 < a j /\ 0 < b j) -> forall j, (j <= k)%nat ->
  mean_rest s j = Some (EF (prodn (keep a b) j)).
Proof.
  intros Hp Hpos. induction j as [|j IH]; intros H; [reflexivity|]. cbn [mean_rest prodn].
  rewrite IH by lia. rewrite (par_at _ _ _ _ _ Hp) by lia. destruct (Hpos j). rewrite ext_div_pos by lra. reflexivity.
Qed.
Lemma sumn_S f n : sumn f (S n) = sumn f n + f n.
Proof. unfold sumn. rewrite seq_S, map_app, rsum_app. simpl. lra. Qed.
Lemma sumn_ext f g n : (forall j, (j < n)%nat -> f j = g j) -> sumn f n = sumn g n.
Proof. intros H. unfold sumn. f_equal. apply map_ext_in. intros j Hj. apply in_seq in Hj. apply H. lia. Qed.
Lemma sumn_scale c f n : sumn (fun j => c * f j) n = c * sumn f n.
Proof. unfold sumn. apply rsum_map_scale. Qed.
Lemma sumn_const c n : sumn (fun _ => c) n = INR n * c.
Proof. induction n as [|n IH]; [unfold sumn; simpl; lra|]. rewrite sumn_S, IH, S_INR. lra. Qed.
Lemma telescope f n : sumn (fun j => prodn f j * (1 - f j)) n = 1 - prodn f n.
Proof. induction n as [|n IH]; [unfold sumn; simpl; lra|]. rewrite sumn_S, IH. simpl. lra. Qed.
Lemma prodn_pos f n : (forall j, 0 < f j) -> 0 < prodn f n.
Proof. intros H. induction n; simpl; [lra|]. apply Rmult_lt_0_compat; auto. Qed.
Lemma prodn_le1 f n : (forall j, 0 < f j < 1) -> prodn f n <= 1 /\ ((0 < n)%nat -> prodn f n < 1).
Proof.
  intros H. assert (P : forall m, 0 < prodn f m) by (intros; apply prodn_pos; intros; apply H).
  induction n as [|n [I1 _]]; simpl; [split; [lra|lia]|]. specialize (H n). specialize (P n). split; [|intros _]; nra.
Qed.
Lemma keep_range a b j : 0 < a j -> 0 < b j -> 0 < keep a b j < 1.
Proof.
  intros Ha Hb. unfold keep. split; [apply Rdiv_lt_0_compat; lra|]. apply Rmult_lt_reg_r with (a j + b j); [lra|].
  unfold Rdiv. rewrite Rmult_assoc, Rinv_l by lra. lra.
Qed.
Lemma keep_compl a b j : 0 < a j -> 0 < b j -> a j / (a j + b j) = 1 - keep a b j.
Proof. intros. unfold keep. field. lra. Qed.

Lemma c27_dp_proof al D s : good_mat D -> rows D <> [] -> (0 < al)%Q ->
  exists sv x, fit_var (CDP al) D s = (Ok tt, sv) /\
    (forall j, (j < length (rows D))%nat -> mean_w (CDP al) j sv = Ok (EF (x j)) /\ 0 <= x j) /\
    sumn x (length (rows D)) = 1.
Proof.
  intros Hg Hr Ha. apply Qlt_Rlt in Ha. rewrite RMicromega.Q2R_0 in Ha.
  set (k := length (rows D)). set (a := fun j => 1 + mass D j). set (b := fun j => Q2R al + mass_after D j).
  assert (Hpos : forall j, 0 < a j /\ 0 < b j) by (intros j; pose proof (good_mass D j Hg); pose proof (good_after D j Hg); unfold a, b; lra).
  eexists _, (fun j => if (j <? k - 1)%nat then prodn (keep a b) j * (1 - keep a b j) else prodn (keep a b) j).
  split; [apply dp_params|]. fold k.
  assert (Hk : (0 < k)%nat) by (unfold k; destruct (rows D); [congruence|simpl; lia]).
  assert (Pp : forall j, 0 < prodn (keep a b) j) by (intros; apply prodn_pos; intros i; destruct (Hpos i); apply keep_range; assumption).
  split.
  - intros j Hj. set (sv := VS _ _ _ _).
    assert (Hp : par_fun sv k a b) by reflexivity. cbn [mean_w vk]. change (vk sv) with (Some (Z.of_nat k)). cbv iota beta.
    destruct (Z.leb_spec (Z.of_nat k) (Z.of_nat j)); [lia|].
    rewrite (mean_rest_val sv k a b Hp Hpos) by lia. rewrite (par_at sv k a b j Hp Hj). cbn [option_map opt_res fst snd].
    destruct (Hpos j). pose proof (keep_range a b j ltac:(assumption) ltac:(assumption)).
    destruct (Z.ltb_spec (Z.of_nat j) (Z.of_nat k - 1)), (Nat.ltb_spec j (k - 1)); try lia.
    + rewrite ext_div_pos, ext_mul_F, keep_compl by lra. split; [reflexivity|]. specialize (Pp j). nra.
    + split; [reflexivity|]. apply Rlt_le. apply Pp.
  - destruct k as [|n]; [lia|]. rewrite sumn_S. rewrite (sumn_ext _ (fun j => prodn (keep a b) j * (1 - keep a b j))).
    + rewrite telescope. destruct (Nat.ltb_spec n (S n - 1)); [lia|]. lra.
    + intros j Hj. destruct (Nat.ltb_spec j (S n - 1)); [reflexivity|lia].
Qed.

Lemma c27_py_proof pyd al D s : good_mat D -> py_ok pyd al ->
  exists sv x, fit_var (CPY pyd al) D s = (Ok tt, sv) /\
    (forall j, (j < length (rows D))%nat -> mean_w (CPY pyd al) j sv = Ok (EF (x j)) /\ 0 <= x j) /\
    let a := fun j => 1 - Q2R pyd + mass D j in
    let b := fun j => Q2R al + (1 + INR j) * Q2R pyd + mass_after D j in
    sumn x (length (rows D)) = 1 - prodn (fun j => b j / (a j + b j)) (length (rows D)) /\
    sumn x (length (rows D)) < 1.
Proof.
  intros Hg (H0 & H1 & Ha). apply Qlt_Rlt in Ha. apply Qle_Rle in H0. apply Qlt_Rlt in H1. rewrite RMicromega.Q2R_0 in *. rewrite Q2R_1 in H1.
  set (k := length (rows D)). set (a := fun j => 1 - Q2R pyd + mass D j). set (b := fun j => Q2R al + (1 + INR j) * Q2R pyd + mass_after D j).
  assert (Hpos : forall j, 0 < a j /\ 0 < b j).
  { intros j; pose proof (good_mass D j Hg); pose proof (good_after D j Hg). unfold a, b. split; [lra|].
    pose proof (pos_INR j). assert (0 <= (1 + INR j) * Q2R pyd) by (apply Rmult_le_pos; lra). lra. }
  eexists _, (fun j => prodn (keep a b) j * (1 - keep a b j)). split; [apply py_params|]. fold k. fold a b.
  assert (Pp : forall j, 0 < prodn (keep a b) j) by (intros; apply prodn_pos; intros i; destruct (Hpos i); apply keep_range; assumption).
  split.
  - intros j Hj. set (sv := VS _ _ _ _).
    assert (Hp : par_fun sv k a b) by reflexivity. cbn [mean_w vk]. change (vk sv) with (Some (Z.of_nat k)). cbv iota beta.
    destruct (Z.ltb_spec (Z.of_nat k) (Z.of_nat j)); [lia|].
    rewrite (mean_rest_val sv k a b Hp Hpos) by lia. rewrite (par_at sv k a b j Hp Hj).
    destruct (Hpos j). pose proof (keep_range a b j ltac:(assumption) ltac:(assumption)).
    rewrite ext_div_pos, ext_mul_F, keep_compl by lra. split; [reflexivity|]. specialize (Pp j). nra.
  - cbv zeta. rewrite telescope. split; [reflexivity|]. specialize (Pp k). lra.
Qed.

Lemma geom_pow_sum p n : sumn (fun j => p * (1 - p) ^ j) n = 1 - (1 - p) ^ n.
Proof. induction n as [|n IH]; [unfold sumn; simpl; lra|]. rewrite sumn_S, IH. simpl. lra. Qed.
Lemma c27_geom_proof a b D s : good_mat D -> rows D <> [] -> (0 < a)%Q -> (0 < b)%Q ->
  exists sv x, fit_var (CGeom a b) D s = (Ok tt, sv) /\
    (forall j, (j < length (rows D))%nat -> mean_w (CGeom a b) j sv = Ok (EF (x j)) /\ 0 <= x j) /\
    let a' := Q2R a + INR (Nat.max (cols D) 1) - 1 in
    let b' := Q2R b + sumn (fun j => INR j * mass D j) (length (rows D)) in
    sumn x (length (rows D)) = 1 - (b' / (a' + b')) ^ length (rows D) /\ sumn x (length (rows D)) < 1.
Proof.
  intros Hg Hr Ha Hb. apply Qlt_Rlt in Ha, Hb. rewrite RMicromega.Q2R_0 in *.
  set (k := length (rows D)). set (a' := Q2R a + INR (Nat.max (cols D) 1) - 1). set (b' := Q2R b + sumn (fun j => INR j * mass D j) k).
  assert (A : 0 < a').
  { unfold a'. assert (1 <= INR (Nat.max (cols D) 1)) by (change 1 with (INR 1); apply le_INR; lia). lra. }
  assert (B : 0 < b').
  { unfold b'. enough (0 <= sumn (fun j => INR j * mass D j) k) by lra. unfold sumn. apply rsum_nonneg. apply Forall_map. apply Forall_forall.
    intros j _. apply Rmult_le_pos; [apply pos_INR|apply good_mass; exact Hg]. }
  set (p := a' / (a' + b')). assert (P1 : 1 - p = b' / (a' + b')) by (unfold p; field; lra).
  assert (P2 : 0 < 1 - p) by (rewrite P1; apply Rdiv_lt_0_compat; lra). assert (P3 : 0 < p) by (apply Rdiv_lt_0_compat; lra).
  eexists _, (fun j => p * (1 - p) ^ j). split; [apply geom_params; exact Hr|]. fold k a' b'. split.
  - intros j Hj. cbn [mean_w vk vpar]. destruct (Z.leb_spec (Z.of_nat k) (Z.of_nat j)); [lia|]. rewrite ext_div_pos by lra. fold p.
    split; [reflexivity|]. apply Rmult_le_pos; [lra|]. apply pow_le. lra.
  - cbv zeta. rewrite geom_pow_sum, P1. split; [reflexivity|]. rewrite <- P1. enough (0 < (1 - p) ^ k) by lra. apply pow_lt. exact P2.
Qed.

Lemma sumn_rsum {A} (f : A -> R) l dflt : rsum (map f l) = sumn (fun j => f (nth j l dflt)) (length l).
Proof. unfold sumn. rewrite (nth_ext_list l dflt) at 1. rewrite map_map. reflexivity. Qed.
Lemma Forall_nth_pos al j : Forall (fun x => (0 < x)%Q) al -> (j < length al)%nat -> 0 < Q2R (nth j al 0%Q).
Proof. intros H L. rewrite Forall_forall in H. specialize (H (nth j al 0%Q) (nth_In _ _ L)). apply Qlt_Rlt in H. rewrite RMicromega.Q2R_0 in H. exact H. Qed.
Lemma c27_dir_proof al D s : good_mat D -> rows D <> [] -> Forall (fun x => (0 < x)%Q) al -> length al = length (rows D) ->
  let n := Z.of_nat (length al) in
  exists sv x, fit_var (CDirDist n al) D s = (Ok tt, sv) /\
    (forall j, (j < length (rows D))%nat -> mean_w (CDirDist n al) j sv = Ok (EF (x j)) /\ 0 <= x j) /\
    sumn x (length (rows D)) = 1.
Proof.
  intros Hg Hr Ha Hl n. set (k := length (rows D)). set (f := fun j => Q2R (nth j al 0%Q) + mass D j).
  assert (Hf : forall j, (j < k)%nat -> 0 < f j) by (intros j Hj; unfold f; pose proof (good_mass D j Hg); pose proof (Forall_nth_pos al j Ha ltac:(unfold k in *; lia)); lra).
  assert (Hk : (0 < k)%nat) by (unfold k; destruct (rows D); [congruence|simpl; lia]).
  set (T := sumn f k).
  assert (HT : 0 < T).
  { unfold T. destruct k as [|m]; [lia|]. rewrite sumn_S. pose proof (Hf m ltac:(lia)). enough (0 <= sumn f m) by lra. unfold sumn. apply rsum_nonneg. apply Forall_map, Forall_forall.
    intros j Hj. apply in_seq in Hj. apply Rlt_le. apply Hf. lia. }
  eexists _, (fun j => f j / T). split; [apply dir_params; [exact Hl|unfold n; rewrite Hl; reflexivity]|]. split.
  - intros j Hj. cbn [mean_w vk vpar]. destruct (Z.ltb_spec n (Z.of_nat j)); [unfold n, k in *; lia|]. fold f. rewrite Hl. fold k.
    rewrite nth_error_map, nth_error_nth' with (d := 0%nat) by (rewrite seq_length; exact Hj). rewrite seq_nth by exact Hj. cbn [option_map opt_res plus].
    fold (sumn f k). fold T. rewrite ext_div_pos by exact HT. split; [reflexivity|]. pose proof (Hf j Hj). apply Rlt_le, Rdiv_lt_0_compat; assumption.
  - rewrite (sumn_ext _ (fun j => / T * f j)) by (intros; unfold Rdiv; ring). rewrite sumn_scale. fold T. field. lra.
Qed.

Lemma c27_equal_proof D s : rows D <> [] -> exists sv x, fit_var CEqual D s = (Ok tt, sv) /\
    (forall j, (j < length (rows D))%nat -> mean_w CEqual j sv = Ok (EF (x j)) /\ 0 <= x j) /\
    sumn x (length (rows D)) = 1.
Proof.
  intros Hr. set (k := length (rows D)). assert (Hk : (0 < k)%nat) by (unfold k; destruct (rows D); [congruence|simpl; lia]).
  assert (K : 0 < INR k) by (apply lt_0_INR; exact Hk).
  eexists _, (fun _ => 1 / INR k). split; [reflexivity|]. fold k. split.
  - intros j Hj. cbn [mean_w vn]. destruct (Z.eqb_spec (Z.of_nat k) 0); [lia|]. destruct (Z.ltb_spec (Z.of_nat j) (Z.of_nat k)); [|lia].
    unfold py_bool. rewrite Rmult_1_r, <- INR_IZR_INZ. split; [reflexivity|]. apply Rlt_le, Rdiv_lt_0_compat; lra.
  - rewrite sumn_const. field. lra.
Qed.
Lemma freq_fit n D s : (0 < cols D)%nat -> fit_var (CFreq n) D s = (Ok tt, VS (Some D) (Some (Z.of_nat (cols D))) (vpar s) (vn s)).
Proof. intros H. unfold fit_var. destruct (Nat.eqb_spec (cols D) 0); [lia|reflexivity]. Qed.
Lemma freq_row D j : (j < length (rows D))%nat -> nth_error (row_sums D) j = Some (mass D j).
Proof.
  intros H. unfold row_sums. rewrite nth_error_map, nth_error_nth' with (d := []) by exact H. reflexivity.
Qed.
Lemma c27_freq_proof n D s : good_mat D -> (0 < cols D)%nat -> (length (rows D) <= cols D)%nat -> 0 < mat_sum D ->
  exists sv x, fit_var (CFreq n) D s = (Ok tt, sv) /\
    (forall j, (j < length (rows D))%nat -> mean_w (CFreq n) j sv = Ok (EF (x j)) /\ 0 <= x j) /\
    sumn x (length (rows D)) = 1.
Proof.
  intros Hg Hc Hl Ht. eexists _, (fun j => mass D j / mat_sum D). split; [apply freq_fit; exact Hc|]. split.
  - intros j Hj. cbn [mean_w vk vd]. destruct (Z.leb_spec (Z.of_nat (cols D)) (Z.of_nat j)); [lia|]. rewrite freq_row by exact Hj.
    cbn [option_map opt_res]. rewrite ext_div_pos by exact Ht. split; [reflexivity|]. pose proof (good_mass D j Hg).
    unfold Rdiv. apply Rmult_le_pos; [assumption|]. apply Rlt_le, Rinv_0_lt_compat; assumption.
  - rewrite (sumn_ext _ (fun j => / mat_sum D * mass D j)) by (intros; unfold Rdiv; ring). rewrite sumn_scale.
    replace (sumn (mass D) (length (rows D))) with (mat_sum D); [field; lra|]. unfold mat_sum, row_sums. rewrite rows_seq. reflexivity.
Qed.
(* fewer observations than groups: the last groups get 0 *)
Lemma c27_freq_few_proof n D s : good_mat D -> (0 < cols D)%nat -> (cols D < length (rows D))%nat -> 0 < mat_sum D ->
  exists sv x, fit_var (CFreq n) D s = (Ok tt, sv) /\
    (forall j, (j < length (rows D))%nat -> mean_w (CFreq n) j sv = Ok (EF (x j))) /\
    sumn x (length (rows D)) = sumn (mass D) (cols D) / mat_sum D.
Proof.
  intros Hg Hc Hl Ht. eexists _, (fun j => if (j <? cols D)%nat then mass D j / mat_sum D else 0). split; [apply freq_fit; exact Hc|]. split.
  - intros j Hj. cbn [mean_w vk vd]. destruct (Z.leb_spec (Z.of_nat (cols D)) (Z.of_nat j)), (Nat.ltb_spec j (cols D)); try lia; [reflexivity|]. rewrite freq_row by exact Hj.
    cbn [option_map opt_res]. rewrite ext_div_pos by exact Ht. reflexivity.
  - unfold sumn at 1. rewrite (seq_split (cols D) (length (rows D))) by lia. rewrite map_app, rsum_app.
    rewrite (map_ext_in _ (fun j => / mat_sum D * mass D j) (seq 0 (cols D))).
    + rewrite (map_ext_in _ (fun j => 0 * mass D j) (seq (cols D) _)).
      * rewrite !rsum_map_scale. unfold sumn, Rdiv. ring.
      * intros j Hj. apply in_seq in Hj. destruct (Nat.ltb_spec j (cols D)); [lia|ring].
    + intros j Hj. apply in_seq in Hj. destruct (Nat.ltb_spec j (cols D)); [unfold Rdiv; ring|lia].
Qed.
