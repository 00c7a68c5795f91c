From Coq Require Import Reals Lra Qreals.
From Verif Require Import Prelude Numpy Rng M_Weights M_Ext M_Var M_VarNeg S_Weights S_Draws S_Var P_Var P_Var26 P_Var27 P_Var28.
Open Scope R_scope.

Lemma from_end_in {A} (l : list A) i : (1 <= i <= length l)%nat -> from_end l i = nth_error l (length l - i).
Proof. intro H. unfold from_end. destruct (Nat.leb_spec i (length l)); [reflexivity|lia]. Qed.
Lemma from_end_out {A} (l : list A) i : (length l < i)%nat -> from_end l i = None.
Proof. intro H. unfold from_end. destruct (Nat.leb_spec i (length l)); [lia|reflexivity]. Qed.
Lemma par_end s k a b i : par_fun s k a b -> (1 <= i <= k)%nat -> beta_end s i = Some (a (k - i)%nat, b (k - i)%nat).
Proof.
  intros Hp H. pose proof (par_at s k a b (k - i)%nat Hp ltac:(lia)) as P. unfold beta_at in P. unfold beta_end. unfold par_fun in Hp. rewrite Hp in *.
  rewrite from_end_in; rewrite map_length, seq_length; [exact P|exact H].
Qed.
Lemma par_end_out s k a b i : par_fun s k a b -> (k < i)%nat -> beta_end s i = None.
Proof. intros Hp H. unfold beta_end. rewrite Hp. apply from_end_out. rewrite map_length, seq_length. exact H. Qed.

(* ---- the models that read one entry ---- *)
Lemma c84_dir_proof psi al D s sv i : length al = length (rows D) -> (1 <= i <= length (rows D))%nat ->
  let n := Z.of_nat (length al) in let c := CDirDist n al in let j := (length (rows D) - i)%nat in
  fit_var c D s = (Ok tt, sv) -> mean_w_neg c i sv = mean_w c j sv /\ mode_w_neg c i sv = mode_w c j sv /\ mean_log_w_neg psi c i sv = mean_log_w psi c j sv.
Proof.
  intros L Hi n c j H. unfold c in *. rewrite dir_params in H by (unfold n; congruence). injection H as <-.
  set (l := map (fun j => Q2R (nth j al 0%Q) + mass D j) (seq 0 (length al))). assert (Ll : length l = length (rows D)) by (unfold l; rewrite map_length, seq_length; exact L).
  assert (F : from_end l i = nth_error l j) by (rewrite from_end_in by (rewrite Ll; exact Hi); rewrite Ll; reflexivity).
  unfold mean_w_neg, mean_w, mode_w_neg, mode_w, mean_log_w_neg, mean_log_w. cbn [vk vpar vd]. fold l. rewrite F. unfold neg, n, j.
  destruct (Z.ltb_spec (Z.of_nat (length al)) (- Z.of_nat i)); [lia|]. destruct (Z.ltb_spec (Z.of_nat (length al)) (Z.of_nat (length (rows D) - i))); [lia|]. split; [reflexivity|split; reflexivity].
Qed.
Lemma c84_equal_proof psi D s sv i : (1 <= i <= length (rows D))%nat -> let j := (length (rows D) - i)%nat in
  fit_var CEqual D s = (Ok tt, sv) -> mean_w_neg CEqual i sv = mean_w CEqual j sv /\ mode_w_neg CEqual i sv = mode_w CEqual j sv /\ mean_log_w_neg psi CEqual i sv = mean_log_w psi CEqual j sv.
Proof.
  intros Hi j H. injection H as <-. unfold mean_w_neg, mean_w, mode_w_neg, mode_w, mean_log_w_neg, mean_log_w. cbn [vn]. unfold neg, j.
  destruct (Z.ltb_spec (- Z.of_nat i) (Z.of_nat (length (rows D)))); [|lia]. destruct (Z.ltb_spec (Z.of_nat (length (rows D) - i)) (Z.of_nat (length (rows D)))); [|lia]. split; [reflexivity|split; reflexivity].
Qed.
Lemma c84_freq_proof psi n D s sv i : (1 <= i <= length (rows D))%nat -> (0 < cols D)%nat -> (length (rows D) <= cols D)%nat -> let j := (length (rows D) - i)%nat in
  fit_var (CFreq n) D s = (Ok tt, sv) ->
  mean_w_neg (CFreq n) i sv = mean_w (CFreq n) j sv /\ mode_w_neg (CFreq n) i sv = mode_w (CFreq n) j sv /\ mean_log_w_neg psi (CFreq n) i sv = mean_log_w psi (CFreq n) j sv.
Proof.
  intros Hi Hc Hr j H. rewrite freq_fit in H by exact Hc. injection H as <-.
  assert (Ll : length (row_sums D) = length (rows D)) by (unfold row_sums; apply map_length).
  assert (F : from_end (row_sums D) i = nth_error (row_sums D) j) by (rewrite from_end_in by (rewrite Ll; exact Hi); rewrite Ll; reflexivity).
  unfold mean_w_neg, mean_w, mode_w_neg, mode_w, mean_log_w_neg, mean_log_w. cbn [vk vd]. rewrite F. unfold neg, j.
  destruct (Z.leb_spec (Z.of_nat (cols D)) (- Z.of_nat i)); [lia|]. destruct (Z.ltb_spec (Z.of_nat (cols D)) (- Z.of_nat i)); [lia|].
  destruct (Z.leb_spec (Z.of_nat (cols D)) (Z.of_nat (length (rows D) - i))); [lia|]. destruct (Z.ltb_spec (Z.of_nat (cols D)) (Z.of_nat (length (rows D) - i))); [lia|]. split; [reflexivity|split; reflexivity].
Qed.

(* ---- stick breaking ---- *)
Lemma stick_mode a b : (mode_last a b 1 = Err ValueError /\ multimodal a b) \/ (exists m, mode_last a b 1 = Ok m /\ is_beta_mode a b m).
Proof.
  destruct (mode_last_spec a b 1) as [[E M]|[E M]].
  - left. split; assumption.
  - right. exists (bmode a b). split; [rewrite E; f_equal; lra|]. apply bmode_is. exact M.
Qed.
Lemma c84_py_proof psi pyd al D s sv i : good_mat D -> py_ok pyd al -> (1 <= i <= length (rows D))%nat ->
  let c := CPY pyd al in let j := (length (rows D) - i)%nat in
  let a := fun j => 1 - Q2R pyd + mass D j in let b := fun j => Q2R al + (1 + INR j) * Q2R pyd + mass_after D j in
  fit_var c D s = (Ok tt, sv) ->
  (exists x y, mean_w_neg c i sv = Ok (EF x) /\ mean_w c j sv = Ok (EF y) /\ x = a j / (a j + b j) /\ ((0 < j)%nat -> y < x) /\ (j = 0%nat -> y = x)) /\
  ((multimodal (a j) (b j) /\ mode_w_neg c i sv = Err ValueError) \/ (exists m, mode_w_neg c i sv = Ok (Some (EF m)) /\ is_beta_mode (a j) (b j) m)) /\
  mean_log_w_neg psi c i sv = Ok (EF (psi (a j) - psi (a j + b j))).
Proof.
  intros Hg (H0 & H1 & Ha) Hi c j a b H. apply Qlt_Rlt in Ha. apply Qle_Rle in H0. apply Qlt_Rlt in H1. rewrite RMicromega.Q2R_0 in *. rewrite Q2R_1 in H1.
  unfold c in *. rewrite py_params in H. injection H as <-. set (k := length (rows D)) in *.
  assert (Hpos : forall j, 0 < a j /\ 0 < b j).
  { intros q; pose proof (good_mass D q Hg); pose proof (good_after D q Hg). unfold a, b. split; [lra|].
    pose proof (pos_INR q). assert (0 <= (1 + INR q) * Q2R pyd) by (apply Rmult_le_pos; lra). lra. }
  set (sv := VS _ _ _ _). assert (Hp : par_fun sv k a b) by reflexivity.
  assert (Hj : (j < k)%nat) by (unfold j; lia). pose proof (par_end sv k a b i Hp Hi) as PE. fold j in PE. destruct (Hpos j) as [Aj Bj].
  pose proof (prodn_le1 (keep a b) j (fun q => keep_range a b q (proj1 (Hpos q)) (proj2 (Hpos q)))) as [P1 P2].
  pose proof (keep_range a b j Aj Bj) as Kr.
  split; [|split].
  - exists (a j / (a j + b j)), (prodn (keep a b) j * (a j / (a j + b j))). unfold mean_w_neg, mean_w. change (vk sv) with (Some (Z.of_nat k)). cbv iota beta zeta. unfold neg.
    destruct (Z.ltb_spec (Z.of_nat k) (- Z.of_nat i)); [lia|]. destruct (Z.ltb_spec (Z.of_nat k) (Z.of_nat j)); [lia|].
    rewrite PE, (mean_rest_val sv k a b Hp Hpos) by lia. rewrite (par_at sv k a b j Hp Hj). cbn [option_map opt_res fst snd]. rewrite ext_div_pos by lra. rewrite !ext_mul_F.
    split; [f_equal; f_equal; lra|]. split; [reflexivity|]. split; [reflexivity|]. rewrite keep_compl by assumption. split.
    + intro J. specialize (P2 J). assert (0 < 1 - keep a b j) by lra. nra.
    + intros ->. simpl. lra.
  - unfold mode_w_neg. change (vk sv) with (Some (Z.of_nat k)). cbv iota beta zeta. unfold neg. destruct (Z.ltb_spec (Z.of_nat k) (- Z.of_nat i)); [lia|]. rewrite PE.
    destruct (stick_mode (a j) (b j)) as [[E M]|[m [E M]]]; rewrite E; [left; split; [exact M|reflexivity]|right; exists m; split; [reflexivity|exact M]].
  - unfold mean_log_w_neg. change (vd sv) with (Some D). cbv iota. rewrite PE. cbn [option_map opt_res fst snd]. unfold mean_log_beta. f_equal. f_equal. lra.
Qed.
Lemma c84_dp_proof psi al D s sv i : good_mat D -> (0 < al)%Q -> (1 <= i <= length (rows D))%nat ->
  let c := CDP al in let j := (length (rows D) - i)%nat in
  let a := fun j => 1 + mass D j in let b := fun j => Q2R al + mass_after D j in
  fit_var c D s = (Ok tt, sv) ->
  (exists x y, mean_w_neg c i sv = Ok (EF x) /\ mean_w c j sv = Ok (EF y) /\ x = a j / (a j + b j) /\ ((0 < j)%nat -> (1 < i)%nat -> y < x) /\ (j = 0%nat -> (1 < i)%nat -> y = x)) /\
  ((multimodal (a j) (b j) /\ mode_w_neg c i sv = Err ValueError) \/ (exists m, mode_w_neg c i sv = Ok (Some (EF m)) /\ is_beta_mode (a j) (b j) m)) /\
  mean_log_w_neg psi c i sv = Ok (EF (psi (a j) - psi (a j + b j))).
Proof.
  intros Hg Ha Hi c j a b H. apply Qlt_Rlt in Ha. rewrite RMicromega.Q2R_0 in *.
  unfold c in *. rewrite dp_params in H. injection H as <-. set (k := length (rows D)) in *.
  assert (Hpos : forall j, 0 < a j /\ 0 < b j) by (intros q; pose proof (good_mass D q Hg); pose proof (good_after D q Hg); unfold a, b; lra).
  set (sv := VS _ _ _ _). assert (Hp : par_fun sv k a b) by reflexivity.
  assert (Hj : (j < k)%nat) by (unfold j; lia). pose proof (par_end sv k a b i Hp Hi) as PE. fold j in PE. destruct (Hpos j) as [Aj Bj].
  pose proof (prodn_le1 (keep a b) j (fun q => keep_range a b q (proj1 (Hpos q)) (proj2 (Hpos q)))) as [P1 P2].
  pose proof (keep_range a b j Aj Bj) as Kr.
  assert (C1 : (Z.of_nat k <=? neg i)%Z = false) by (unfold neg; apply Z.leb_gt; lia). assert (C2 : (neg i <? Z.of_nat k - 1)%Z = true) by (unfold neg; apply Z.ltb_lt; lia).
  assert (C3 : (neg i =? Z.of_nat k - 1)%Z = false) by (unfold neg; apply Z.eqb_neq; lia).
  split; [|split].
  - exists (a j / (a j + b j)), (if (Z.of_nat j <? Z.of_nat k - 1)%Z then prodn (keep a b) j * (a j / (a j + b j)) else prodn (keep a b) j).
    unfold mean_w_neg, mean_w. change (vk sv) with (Some (Z.of_nat k)). cbv iota beta zeta. rewrite C1, C2. destruct (Z.leb_spec (Z.of_nat k) (Z.of_nat j)); [lia|].
    rewrite PE, (mean_rest_val sv k a b Hp Hpos) by lia. rewrite (par_at sv k a b j Hp Hj). cbn [option_map opt_res fst snd]. rewrite ext_div_pos by lra. rewrite !ext_mul_F.
    split; [f_equal; f_equal; lra|]. split; [destruct (Z.of_nat j <? Z.of_nat k - 1)%Z; reflexivity|]. split; [reflexivity|]. rewrite keep_compl by assumption. split.
    + intros J I1. destruct (Z.ltb_spec (Z.of_nat j) (Z.of_nat k - 1)); [|unfold j in *; lia]. specialize (P2 J). assert (0 < 1 - keep a b j) by lra. nra.
    + intros -> I1. destruct (Z.ltb_spec (Z.of_nat 0) (Z.of_nat k - 1)); [simpl; lra|lia].
  - unfold mode_w_neg. change (vk sv) with (Some (Z.of_nat k)). cbv iota beta zeta. rewrite C1, C3, PE.
    destruct (stick_mode (a j) (b j)) as [[E M]|[m [E M]]]; rewrite E; [left; split; [exact M|reflexivity]|right; exists m; split; [reflexivity|exact M]].
  - unfold mean_log_w_neg. change (vd sv) with (Some D). change (vk sv) with (Some (Z.of_nat k)). cbv iota. rewrite C1, C2, PE. cbn [option_map opt_res fst snd]. unfold mean_log_beta. f_equal. f_equal. lra.
Qed.

(* ---- geometric ---- *)
Lemma c84_geom_proof psi a b D s sv i : good_mat D -> rows D <> [] -> (0 < a)%Q -> (0 < b)%Q -> (1 <= i)%nat ->
  fit_var (CGeom a b) D s = (Ok tt, sv) ->
  exists p x, 0 < p < 1 /\ mean_w (CGeom a b) 0 sv = Ok (EF p) /\ mean_w_neg (CGeom a b) i sv = Ok (EF x) /\ x * (1 - p) ^ i = p /\ p < x /\
  mean_log_w_neg psi (CGeom a b) i sv = mean_log_w psi (CGeom a b) 0 sv.
Proof.
  intros Hg Hr Ha Hb Hi H. destruct (geom_pos a b D Hg Ha Hb) as [A B]. rewrite geom_params in H by exact Hr. injection H as <-.
  set (a' := Q2R a + INR (Nat.max (cols D) 1) - 1) in *. set (b' := Q2R b + sumn (fun j => INR j * mass D j) (length (rows D))) in *. set (k := length (rows D)).
  assert (Hk : (0 < k)%nat) by (unfold k; destruct (rows D); [congruence|simpl; lia]).
  set (p := a' / (a' + b')). assert (P1 : 1 - p = b' / (a' + b')) by (unfold p; field; lra).
  assert (P2 : 0 < 1 - p) by (rewrite P1; apply Rdiv_lt_0_compat; lra). assert (P3 : 0 < p) by (apply Rdiv_lt_0_compat; lra).
  assert (Q1 : 0 < (1 - p) ^ i) by (apply pow_lt; exact P2).
  assert (Q2 : (1 - p) ^ i < 1) by (apply pow_lt_1_compat; [lra|lia]).
  exists p, (p * / (1 - p) ^ i). split; [lra|]. split; [|split; [|split; [|split]]].
  - unfold mean_w. cbn [vk vpar]. destruct (Z.leb_spec (Z.of_nat k) (Z.of_nat 0)); [lia|]. rewrite ext_div_pos by lra. fold p. f_equal. f_equal. simpl. lra.
  - unfold mean_w_neg. cbn [vk vpar]. fold k. destruct (Z.leb_spec (Z.of_nat k) (neg i)); [unfold neg in *; lia|]. rewrite ext_div_pos by lra. fold p. unfold reqb. destruct (Req_EM_T (1 - p) 0); [lra|reflexivity].
  - field. lra.
  - assert (I : 1 < / (1 - p) ^ i).
    { apply (Rmult_lt_reg_r ((1 - p) ^ i)); [exact Q1|]. rewrite Rinv_l by lra. lra. }
    pose proof (Rmult_lt_compat_l p 1 (/ (1 - p) ^ i) P3 I). lra.
  - unfold mean_log_w_neg, mean_log_w. cbn [vd vpar]. reflexivity.
Qed.
Lemma c84_geom_refuted_proof : exists D s sv x, good_mat D /\ rows D <> [] /\ fit_var (CGeom 1 1) D s = (Ok tt, sv) /\ mean_w_neg (CGeom 1 1) 1 sv = Ok (EF x) /\ 1 < x.
Proof.
  exists (Mat [[1; 1; 1]; [0; 0; 0]] 3), (vs_init 0). set (D := Mat [[1; 1; 1]; [0; 0; 0]] 3).
  assert (G : good_mat D) by (unfold good_mat, D; simpl; repeat constructor; try reflexivity; lra).
  assert (N : rows D <> []) by discriminate. rewrite (geom_params 1 1 D (vs_init 0) N). eexists _, _. split; [exact G|]. split; [exact N|]. split; [reflexivity|].
  unfold mean_w_neg. cbn [vk vpar]. unfold neg, D. simpl rows. simpl cols. cbn [length Nat.max Z.of_nat]. simpl Z.leb. cbv iota. unfold mass, sumn. simpl.
  rewrite !RMicromega.Q2R_1. rewrite ext_div_pos by lra. unfold reqb.
  match goal with |- context [Req_EM_T ?u 0] => destruct (Req_EM_T u 0) as [E|E] end; [exfalso; lra|]. split; [reflexivity|].
  match goal with |- 1 < ?u => replace u with 3 by (field; lra) end. lra.
Qed.
Lemma c84_out_proof c D s sv i : (length (rows D) < i)%nat -> fit_var c D s = (Ok tt, sv) ->
  match c with
  | CDP _ => rows D <> [] -> mean_w_neg c i sv = Err IndexError
  | CPY _ _ => mean_w_neg c i sv = Err IndexError
  | CDirDist n al => length al = length (rows D) -> mean_w_neg c i sv = Err IndexError
  | CFreq _ => (0 < cols D)%nat -> mean_w_neg c i sv = Err IndexError
  | CEqual => rows D <> [] -> mean_w_neg c i sv = mean_w c 0 sv
  | _ => True
  end.
Proof.
  intros Hi H. destruct c as [n al| | | | | | | | |]; try exact I.
  - intros L. assert (En : n = Z.of_nat (length (rows D))) by (unfold fit_var in H; destruct (Z.eqb_spec (Z.of_nat (length (rows D))) n); [congruence|discriminate]).
    rewrite (dir_params n al D s L En) in H. injection H as <-. unfold mean_w_neg. cbn [vk vpar]. unfold neg. destruct (Z.ltb_spec n (- Z.of_nat i)); [lia|].
    rewrite from_end_out by (rewrite map_length, seq_length; lia). reflexivity.
  - intros N. rewrite dp_params in H. injection H as <-. assert (0 < length (rows D))%nat by (destruct (rows D); [contradiction|simpl; lia]). unfold mean_w_neg. cbn [vk]. unfold neg.
    destruct (Z.leb_spec (Z.of_nat (length (rows D))) (- Z.of_nat i)); [lia|]. destruct (Z.ltb_spec (- Z.of_nat i) (Z.of_nat (length (rows D)) - 1)); [|lia]. unfold beta_end. cbn [vpar].
    rewrite from_end_out by (rewrite map_length, seq_length; lia). reflexivity.
  - rewrite py_params in H. injection H as <-. unfold mean_w_neg. cbn [vk]. unfold neg.
    destruct (Z.ltb_spec (Z.of_nat (length (rows D))) (- Z.of_nat i)); [lia|]. unfold beta_end. cbn [vpar]. rewrite from_end_out by (rewrite map_length, seq_length; lia). reflexivity.
  - intros N. injection H as <-. assert (0 < length (rows D))%nat by (destruct (rows D); [contradiction|simpl; lia]). unfold mean_w_neg, mean_w. cbn [vn]. unfold neg.
    destruct (Z.ltb_spec (- Z.of_nat i) (Z.of_nat (length (rows D)))); [|lia]. destruct (Z.ltb_spec (Z.of_nat 0) (Z.of_nat (length (rows D)))); [|lia]. reflexivity.
  - intros C. rewrite freq_fit in H by exact C. injection H as <-. unfold mean_w_neg. cbn [vk vd]. unfold neg. destruct (Z.leb_spec (Z.of_nat (cols D)) (- Z.of_nat i)); [lia|].
    rewrite from_end_out by (unfold row_sums; rewrite map_length; exact Hi). reflexivity.
Qed.
