(* Variational means outside the truncation, geometric means, modes. *)
From Coq Require Import Reals Qreals Lra.
From Verif Require Import Prelude Numpy Rng M_Weights M_Ext M_Var S_Weights S_Draws S_Var P_Lists P_Var P_Var26 P_Var27.
Open Scope R_scope.

(* ---- C28 ---- *)
Lemma c28_dp_proof al D s sv j : fit_var (CDP al) D s = (Ok tt, sv) -> (length (rows D) <= j)%nat -> mean_w (CDP al) j sv = Ok (EF 0).
Proof. rewrite dp_params. intros [= <-] H. cbn [mean_w vk]. destruct (Z.leb_spec (Z.of_nat (length (rows D))) (Z.of_nat j)); [reflexivity|lia]. Qed.
Lemma c28_equal_proof D s sv j : fit_var CEqual D s = (Ok tt, sv) -> rows D <> [] -> (length (rows D) <= j)%nat -> mean_w CEqual j sv = Ok (EF 0).
Proof.
  intros [= <-] N H. cbn [mean_w vn]. assert (0 < length (rows D))%nat by (destruct (rows D); [congruence|simpl; lia]).
  destruct (Z.eqb_spec (Z.of_nat (length (rows D))) 0); [lia|]. destruct (Z.ltb_spec (Z.of_nat j) (Z.of_nat (length (rows D)))); [lia|].
  unfold py_bool. rewrite Rmult_0_r. reflexivity.
Qed.
Lemma c28_freq_proof n D s sv j : fit_var (CFreq n) D s = (Ok tt, sv) -> (0 < cols D)%nat ->
  ((cols D <= j)%nat -> mean_w (CFreq n) j sv = Ok (EF 0)) /\
  ((length (rows D) <= j)%nat -> (j < cols D)%nat -> mean_w (CFreq n) j sv = Err IndexError).
Proof.
  intros H C. rewrite freq_fit in H by exact C. injection H as <-. cbn [mean_w vk vd]. split; intros L.
  - destruct (Z.leb_spec (Z.of_nat (cols D)) (Z.of_nat j)); [reflexivity|lia].
  - intros L2. destruct (Z.leb_spec (Z.of_nat (cols D)) (Z.of_nat j)); [lia|].
    replace (nth_error (row_sums D) j) with (@None R); [reflexivity|]. symmetry. apply nth_error_None. unfold row_sums. rewrite map_length. exact L.
Qed.
Lemma c28_py_proof pyd al D s sv : fit_var (CPY pyd al) D s = (Ok tt, sv) ->
  mean_w (CPY pyd al) (length (rows D)) sv = Err IndexError /\
  (forall j, (length (rows D) < j)%nat -> mean_w (CPY pyd al) j sv = Ok (EF 0)).
Proof.
  rewrite py_params. intros [= <-]. split; [|intros j H]; cbn [mean_w vk].
  - rewrite Z.ltb_irrefl. set (sv := VS _ _ _ _).
    assert (E : beta_at sv (length (rows D)) = None) by (eapply par_out; [reflexivity|lia]). rewrite E. destruct (mean_rest sv _); reflexivity.
  - destruct (Z.ltb_spec (Z.of_nat (length (rows D))) (Z.of_nat j)); [reflexivity|lia].
Qed.
Lemma c28_dir_proof al D s sv : length al = length (rows D) -> let n := Z.of_nat (length al) in fit_var (CDirDist n al) D s = (Ok tt, sv) ->
  mean_w (CDirDist n al) (length (rows D)) sv = Err IndexError /\
  (forall j, (length (rows D) < j)%nat -> mean_w (CDirDist n al) j sv = Ok (EF 0)).
Proof.
  intros L n H. rewrite dir_params in H by (unfold n; congruence). injection H as <-. split; [|intros j H]; cbn [mean_w vk vpar].
  - destruct (Z.ltb_spec n (Z.of_nat (length (rows D)))); [unfold n in *; lia|].
    match goal with |- context [nth_error ?l ?i] => replace (nth_error l i) with (@None R) end; [reflexivity|].
    symmetry. apply nth_error_None. rewrite map_length, seq_length. lia.
  - destruct (Z.ltb_spec n (Z.of_nat j)); [reflexivity|unfold n in *; lia].
Qed.
Lemma c28_geom_proof a b D s sv j : fit_var (CGeom a b) D s = (Ok tt, sv) -> (length (rows D) <= j)%nat -> mean_w (CGeom a b) j sv = Ok (EF 1).
Proof.
  intros H L. destruct (rows D) as [|r t] eqn:E; [unfold fit_var in H; rewrite E in H; discriminate|].
  rewrite geom_params in H by congruence. injection H as <-. cbn [mean_w vk]. rewrite E.
  destruct (Z.leb_spec (Z.of_nat (length (r :: t))) (Z.of_nat j)); [reflexivity|lia].
Qed.

(* ---- C29 ---- *)
Lemma geom_pos a b D : good_mat D -> (0 < a)%Q -> (0 < b)%Q ->
  0 < Q2R a + INR (Nat.max (cols D) 1) - 1 /\ 0 < Q2R b + sumn (fun j => INR j * mass D j) (length (rows D)).
Proof.
  intros Hg Ha Hb. apply Qlt_Rlt in Ha, Hb. rewrite RMicromega.Q2R_0 in *. split.
  - assert (1 <= INR (Nat.max (cols D) 1)) by (change 1 with (INR 1); apply le_INR; lia). lra.
  - enough (0 <= sumn (fun j => INR j * mass D j) (length (rows D))) by lra. unfold sumn. apply rsum_nonneg. apply Forall_map. apply Forall_forall.
    intros j _. apply Rmult_le_pos; [apply pos_INR|apply good_mass; exact Hg].
Qed.
Lemma c29_proof a b D s sv x y E : good_mat D -> (0 < a)%Q -> (0 < b)%Q ->
  fit_var (CGeom a b) D s = (Ok tt, sv) -> vpar sv = PPair x y -> beta_moments x y E ->
  mean_w (CGeom a b) 0 sv = Ok (EF (E 1%nat 0%nat)) /\
  ((2 <= length (rows D))%nat -> exists m, mean_w (CGeom a b) 1 sv = Ok (EF m) /\ m = E 1%nat 1%nat + (E 2%nat 0%nat - E 1%nat 0%nat ^ 2) /\ E 1%nat 1%nat < m).
Proof.
  intros Hg Ha Hb H Hv (E0 & E1 & E2). destruct (rows D) as [|r t] eqn:Er; [unfold fit_var in H; rewrite Er in H; discriminate|].
  rewrite geom_params in H by congruence. injection H as <-. cbn [vpar] in Hv. injection Hv as Hx Hy.
  destruct (geom_pos a b D Hg Ha Hb) as [Px Py]. rewrite Hx in Px. rewrite Hy in Py.
  assert (M1 : E 1%nat 0%nat = x / (x + y)).
  { pose proof (E2 0%nat 0%nat) as K. simpl in K. rewrite E0 in K. apply Rmult_eq_reg_l with (x + y); [|lra]. field_simplify; lra. }
  assert (M2 : E 2%nat 0%nat = (x + 1) / (x + y + 1) * (x / (x + y))).
  { pose proof (E2 1%nat 0%nat) as K. simpl in K. rewrite M1 in K. apply Rmult_eq_reg_l with (x + y + 1); [|lra].
    transitivity ((x + 1) * (x / (x + y))); [lra|]. field. lra. }
  pose proof (E1 1%nat 0%nat) as M3. cbn [mean_w vk vpar]. rewrite Hx, Hy, Er. rewrite ext_div_pos by lra. split.
  - destruct (Z.leb_spec (Z.of_nat (length (r :: t))) (Z.of_nat 0)); [simpl in *; lia|]. rewrite M1. simpl. do 2 f_equal. ring.
  - intros L. destruct (Z.leb_spec (Z.of_nat (length (r :: t))) (Z.of_nat 1)); [simpl in *; lia|]. eexists. split; [reflexivity|].
    assert (V : x / (x + y) * (1 - x / (x + y)) ^ 1 = E 1%nat 1%nat + (E 2%nat 0%nat - E 1%nat 0%nat ^ 2)).
    { replace (E 1%nat 1%nat) with (E 1%nat 0%nat - E 2%nat 0%nat) by lra. rewrite M1. simpl. ring. }
    split; [exact V|]. rewrite V. enough (0 < E 2%nat 0%nat - E 1%nat 0%nat ^ 2) by lra.
    replace (E 2%nat 0%nat - E 1%nat 0%nat ^ 2) with (x * y / ((x + y) * (x + y) * (x + y + 1))) by (rewrite M1, M2; field; lra).
    apply Rdiv_lt_0_compat; repeat apply Rmult_lt_0_compat; lra.
Qed.
(* the moments exist *)
Fixpoint rise (a : R) (m : nat) : R := match m with O => 1 | S i => rise a i * (a + INR i) end.
Lemma rise_pos a m : 0 < a -> 0 < rise a m.
Proof. intros H. induction m; simpl; [lra|]. apply Rmult_lt_0_compat; [assumption|]. pose proof (pos_INR m). lra. Qed.
Lemma moments_exist a b : 0 < a -> 0 < b -> exists E, beta_moments a b E.
Proof.
  intros Ha Hb. exists (fun m n => rise a m * rise b n / rise (a + b) (m + n)). split; [simpl; field|split].
  - intros m n. rewrite Nat.add_succ_r. cbn [rise plus]. rewrite plus_INR. pose proof (rise_pos (a + b) (m + n) ltac:(lra)). pose proof (pos_INR m). pose proof (pos_INR n).
    field. split; lra.
  - intros m n. cbn [rise plus]. rewrite plus_INR. pose proof (rise_pos (a + b) (m + n) ltac:(lra)). pose proof (pos_INR m). pose proof (pos_INR n).
    field. split; lra.
Qed.

(* ---- C30 ---- *)
Definition bmode (a b : R) : R := if rleb a 1 then 0 else if rleb b 1 then 1 else (a - 1) / (a + b - 2).
Definition one_mode (a b : R) : Prop := 1 < a /\ b <= 1.
Lemma bmode_is a b : ~ multimodal a b -> is_beta_mode a b (bmode a b).
Proof.
  unfold multimodal, is_beta_mode, bmode. intros H. destruct (rleb a 1) eqn:A.
  - apply rleb_true in A. left. repeat split; auto. lra.
  - apply rleb_false in A. destruct (rleb b 1) eqn:B; [apply rleb_true in B; auto|]. apply rleb_false in B. right; right. repeat split; auto. field. lra.
Qed.
Lemma beta_mode_unique a b m m' : is_beta_mode a b m -> is_beta_mode a b m' -> m = m'.
Proof.
  intros [H|[H|H]] [K|[K|K]]; try lra. destruct H as (? & ? & H), K as (? & ? & K). apply Rmult_eq_reg_r with (a + b - 2); lra.
Qed.
Lemma bmode_range a b : 0 <= bmode a b <= 1.
Proof.
  unfold bmode. destruct (rleb a 1) eqn:A; [lra|]. apply rleb_false in A. destruct (rleb b 1) eqn:B; [lra|]. apply rleb_false in B.
  split; [apply Rlt_le, Rdiv_lt_0_compat; lra|]. apply Rmult_le_reg_r with (a + b - 2); [lra|]. unfold Rdiv. rewrite Rmult_assoc, Rinv_l by lra. lra.
Qed.
Lemma mode_rest_spec s k a b : par_fun s k a b -> forall j, (j <= k)%nat ->
  (mode_rest s j = MRaise ValueError /\ exists i, (i < j)%nat /\ multimodal (a i) (b i) /\ forall l, (l < i)%nat -> ~ one_mode (a l) (b l)) \/
  (mode_rest s j = MZero /\ exists i, (i < j)%nat /\ one_mode (a i) (b i) /\ forall l, (l < i)%nat -> ~ multimodal (a l) (b l)) \/
  (mode_rest s j = MGo (prodn (fun i => 1 - bmode (a i) (b i)) j) /\ forall i, (i < j)%nat -> ~ multimodal (a i) (b i) /\ ~ one_mode (a i) (b i)).
Proof.
  intros Hp. induction j as [|j IH]; intros Hj; [right; right; split; [reflexivity|intros; lia]|].
  cbn [mode_rest prodn]. destruct (IH ltac:(lia)) as [(-> & i & Hi & M & F)|[(-> & i & Hi & M & F)|(-> & F)]]; [left; split; [reflexivity|exists i; split; [lia|auto]]|right; left; split; [reflexivity|exists i; split; [lia|auto]]|].
  rewrite (par_at s k a b j Hp) by lia. replace (bmode (a j) (b j)) with (if rleb (a j) 1 then 0 else if rleb (b j) 1 then 1 else (a j - 1) / (a j + b j - 2)) by reflexivity. destruct (rleb (b j) 1) eqn:B; destruct (rleb (a j) 1) eqn:A.
  - left. apply rleb_true in A, B. split; [reflexivity|]. exists j. split; [lia|]. split; [split; assumption|]. intros l L. apply F; lia.
  - right; left. apply rleb_true in B. apply rleb_false in A. split; [reflexivity|]. exists j. split; [lia|]. split; [split; assumption|]. intros l L. apply F; lia.
  - right; right. apply rleb_true in A. apply rleb_false in B. rewrite Rminus_0_r, Rmult_1_r. split; [reflexivity|]. intros i Hi.
    destruct (Nat.eq_dec i j) as [->|N]; [unfold multimodal, one_mode; lra|apply F; lia].
  - right; right. apply rleb_false in A, B. split; [do 2 f_equal; field; lra|]. intros i Hi.
    destruct (Nat.eq_dec i j) as [->|N]; [unfold multimodal, one_mode; lra|apply F; lia].
Qed.
Lemma prodn_ext f g n : (forall i, (i < n)%nat -> f i = g i) -> prodn f n = prodn g n.
Proof. intros H. induction n as [|n IH]; [reflexivity|]. simpl. rewrite IH, H by (intros; try apply H; lia). reflexivity. Qed.
Lemma prodn_zero f n i : (i < n)%nat -> f i = 0 -> prodn f n = 0.
Proof. intros H E. induction n as [|n IH]; [lia|]. simpl. destruct (Nat.eq_dec i n) as [->|N]; [rewrite E; ring|]. rewrite IH by lia. ring. Qed.
Lemma one_bmode a b : one_mode a b -> bmode a b = 1.
Proof. intros [A B]. unfold bmode. destruct (rleb a 1) eqn:X; [apply rleb_true in X; lra|]. destruct (rleb b 1) eqn:Y; [reflexivity|]. apply rleb_false in Y; lra. Qed.
Lemma mode_last_spec a b r : (mode_last a b r = Err ValueError /\ multimodal a b) \/ (mode_last a b r = Ok (r * bmode a b) /\ ~ multimodal a b).
Proof.
  unfold mode_last, bmode, multimodal. destruct (rleb a 1) eqn:A; destruct (rleb b 1) eqn:B.
  1: apply rleb_true in A, B. 2: apply rleb_true in A; apply rleb_false in B. 3: apply rleb_true in B; apply rleb_false in A. 4: apply rleb_false in A, B.
  - left; auto.
  - right; split; [f_equal; ring|lra].
  - right; split; [f_equal; ring|lra].
  - right; split; [reflexivity|lra].
Qed.
(* value of the mode computed from sticks 0..j *)
Definition open_mode (s : vs) (j : nat) : res R :=
  match mode_rest s j with
  | MRaise e => Err e
  | MZero => Ok 0
  | MGo r => match beta_at s j with Some (a, b) => mode_last a b r | None => Err IndexError end
  end.
Lemma open_mode_spec s k a b j : par_fun s k a b -> (j < k)%nat ->
  let m := fun i => bmode (a i) (b i) in
  (open_mode s j = Err ValueError /\ exists i, (i <= j)%nat /\ multimodal (a i) (b i) /\ forall l, (l < i)%nat -> ~ one_mode (a l) (b l)) \/
  (open_mode s j = Ok (prodn (fun i => 1 - m i) j * m j) /\
   ((exists i, (i < j)%nat /\ one_mode (a i) (b i) /\ forall l, (l < i)%nat -> ~ multimodal (a l) (b l)) \/
    forall i, (i <= j)%nat -> ~ multimodal (a i) (b i))).
Proof.
  intros Hp Hj m. unfold open_mode. destruct (mode_rest_spec s k a b Hp j ltac:(lia)) as [(-> & i & Hi & M & F)|[(-> & i & Hi & M & F)|(-> & F)]].
  - left. split; [reflexivity|]. exists i. split; [lia|auto].
  - right. split; [|left; exists i; auto]. rewrite (prodn_zero _ j i Hi), Rmult_0_l; [reflexivity|]. unfold m. rewrite one_bmode by exact M. ring.
  - rewrite (par_at s k a b j Hp Hj). destruct (mode_last_spec (a j) (b j) (prodn (fun i => 1 - m i) j)) as [(E & M)|(E & M)].
    + left. split; [exact E|]. exists j. split; [lia|]. split; [exact M|]. intros l L. apply F. exact L.
    + right. split; [exact E|]. right. intros i Hi. destruct (Nat.eq_dec i j) as [->|N]; [exact M|apply F; lia].
Qed.
