(* An explicit array given to variational_mean_log_p_d__w. *)
From Coq Require Import Reals Qreals Lra.
From Verif Require Import Prelude Numpy Rng M_Weights M_Ext M_Var S_Weights S_Draws S_Var P_Lists P_Var P_Var26 P_Var27 P_Var28 P_Var31.
Open Scope R_scope.

Section Dig.
Variable psi : R -> R.

Lemma c68_arg_proof c D' s x : good_mat D' ->
  (exists al, c = CDP al) \/ (exists pyd al, c = CPY pyd al) \/ (exists n al, c = CDirDist n al) ->
  (forall j, (j < length (rows D'))%nat -> mean_log_w psi c j s = Ok (EF (x j))) ->
  mean_log_pd psi c (Some D') s = (Ok (EF (expected_log D' x)), s).
Proof.
  intros Hg Hc Hx. unfold mean_log_pd.
  destruct Hc as [(al & ->)|[(pyd & al & ->)|(n & al & ->)]]; rewrite (weigh_mass D' _ x Hg Hx); reflexivity.
Qed.

(* rows beyond the fitted ones *)
Lemma weigh_app f l1 l2 : forall j acc, weigh_logs f j (l1 ++ l2) acc =
  match weigh_logs f j l1 acc with Ok a => weigh_logs f (j + length l1) l2 a | Err e => Err e | Diverge => Diverge end.
Proof.
  induction l1 as [|n t IH]; intros j acc; cbn [weigh_logs app length]; [rewrite Nat.add_0_r; reflexivity|].
  destruct (f j); [|reflexivity|reflexivity]. rewrite IH, Nat.add_succ_r. reflexivity.
Qed.
Lemma weigh_nan f l : forall j, (forall i, (j <= i)%nat -> f i = Ok ENI) -> weigh_logs f j l ENaN = Ok ENaN.
Proof. induction l as [|n t IH]; intros j H; cbn [weigh_logs]; [reflexivity|]. rewrite H by lia. apply IH. intros i Hi. apply H. lia. Qed.
Lemma scale_eni x : 0 <= x -> ext_scale x ENI = if reqb x 0 then ENaN else ENI.
Proof.
  intros H. unfold ext_scale, rltb, reqb. destruct (Rlt_dec 0 x), (Req_EM_T x 0); try lra; try reflexivity.
  destruct (Rlt_dec x 0); [lra|reflexivity].
Qed.
Lemma weigh_eni f l : forall j, (forall i, (j <= i)%nat -> f i = Ok ENI) -> Forall (fun x => 0 <= x) l ->
  (Forall (fun x => 0 < x) l -> weigh_logs f j l ENI = Ok ENI) /\
  (Exists (fun x => x = 0) l -> weigh_logs f j l ENI = Ok ENaN).
Proof.
  induction l as [|n t IH]; intros j H P; cbn [weigh_logs]; [split; [reflexivity|intros E; inversion E]|].
  inversion P as [|? ? Pn Pt]; subst. rewrite H by lia. rewrite scale_eni by exact Pn. assert (H' : forall i, (S j <= i)%nat -> f i = Ok ENI) by (intros; apply H; lia).
  destruct (IH (S j) H' Pt) as [I1 I2]. unfold reqb. destruct (Req_EM_T n 0) as [Z|Z].
  - split; [intros F; inversion F; lra|]. intros _. cbn [ext_add]. apply weigh_nan. exact H'.
  - split; [intros F; inversion F; subst; cbn [ext_add]; apply I1; assumption|].
    intros E. inversion E as [? ? E1|? ? E1]; subst; [contradiction|]. cbn [ext_add]. apply I2. exact E1.
Qed.
Lemma weigh_eni_fin f l : forall j acc, (forall i, (j <= i)%nat -> f i = Ok ENI) -> Forall (fun x => 0 <= x) l -> l <> [] ->
  (Forall (fun x => 0 < x) l -> weigh_logs f j l (EF acc) = Ok ENI) /\
  (Exists (fun x => x = 0) l -> weigh_logs f j l (EF acc) = Ok ENaN).
Proof.
  destruct l as [|n t]; intros j acc H P N; [congruence|]. pose proof (weigh_eni f (n :: t) j H P) as [I1 I2]. cbn [weigh_logs] in *. rewrite H in * by lia.
  inversion P as [|? ? Pn Pt]; subst. rewrite scale_eni in * by exact Pn. destruct (reqb n 0); cbn [ext_add] in *; split; assumption.
Qed.
Lemma skipn_mass D k : (k <= length (rows D))%nat -> map rsum (skipn k (rows D)) = map (mass D) (seq k (length (rows D) - k)).
Proof.
  intros H. apply (nth_ext _ _ 0 0); rewrite !map_length, ?skipn_length, ?seq_length; [reflexivity|]. intros i Hi.
  rewrite (nth_indep _ 0 (rsum [])) by (rewrite map_length, skipn_length; exact Hi). rewrite map_nth.
  rewrite (nth_indep _ 0 (mass D 0)) by (rewrite map_length, seq_length; exact Hi). rewrite map_nth, seq_nth by exact Hi. unfold mass. f_equal.
  rewrite <- (firstn_skipn k (rows D)) at 2. rewrite app_nth2; rewrite firstn_length_le by exact H; [|lia]. f_equal. lia.
Qed.
Lemma c68_dp_more_proof al D s sv D' : good_mat D' -> fit_var (CDP al) D s = (Ok tt, sv) -> (length (rows D) < length (rows D'))%nat ->
  ((forall j, (length (rows D) <= j < length (rows D'))%nat -> 0 < mass D' j) -> mean_log_pd psi (CDP al) (Some D') sv = (Ok ENI, sv)) /\
  ((exists j, (length (rows D) <= j < length (rows D'))%nat /\ mass D' j = 0) -> mean_log_pd psi (CDP al) (Some D') sv = (Ok ENaN, sv)).
Proof.
  intros Hg H L. set (k := length (rows D)) in *.
  set (x := xs_last psi (fun j => 1 + mass D j) (fun j => Q2R al + mass_after D j) k).
  assert (F : forall j, (j < k)%nat -> mean_log_w psi (CDP al) j sv = Ok (EF (x j))) by (intros j Hj; apply (dp_mlw psi al D s sv j H Hj)).
  assert (G : forall j, (k <= j)%nat -> mean_log_w psi (CDP al) j sv = Ok ENI).
  { intros j Hj. rewrite dp_params in H. injection H as <-. cbn [mean_log_w vd vk]. fold k. destruct (Z.leb_spec (Z.of_nat k) (Z.of_nat j)); [reflexivity|lia]. }
  unfold mean_log_pd. replace (row_sums D') with (map rsum (firstn k (rows D')) ++ map rsum (skipn k (rows D'))) by (rewrite <- map_app, firstn_skipn; reflexivity).
  rewrite weigh_app. rewrite (weigh_val _ x) by (rewrite map_length, firstn_length; intros; apply F; lia).
  rewrite map_length, firstn_length_le by lia. cbn [plus].
  assert (P : Forall (fun x => 0 <= x) (map rsum (skipn k (rows D')))).
  { rewrite skipn_mass by lia. apply Forall_map, Forall_forall. intros j _. apply good_mass. exact Hg. }
  assert (N : map rsum (skipn k (rows D')) <> []).
  { intros E. apply (f_equal (@length R)) in E. rewrite map_length, skipn_length in E. simpl in E. lia. }
  match goal with |- context [weigh_logs ?f k ?l (EF ?a)] => destruct (weigh_eni_fin f l k a G P N) as [I1 I2] end.
  split; intros Q; [rewrite I1|rewrite I2]; try reflexivity; rewrite skipn_mass by lia.
  - apply Forall_map, Forall_forall. intros j Hj. apply in_seq in Hj. apply Q. lia.
  - destruct Q as (j & Hj & M). apply Exists_exists. exists (mass D' j). split; [|exact M]. apply in_map, in_seq. lia.
Qed.
Lemma weigh_err f l e : forall j acc, (exists i, (i < length l)%nat /\ f (j + i)%nat = Err e /\ forall i', (i' < i)%nat -> exists x, f (j + i')%nat = Ok x) ->
  weigh_logs f j l acc = Err e.
Proof.
  induction l as [|n t IH]; intros j acc (i & Hi & He & Ho); [simpl in Hi; lia|]. cbn [weigh_logs]. destruct i as [|i].
  - rewrite Nat.add_0_r in He. rewrite He. reflexivity.
  - destruct (Ho 0%nat ltac:(lia)) as (x & Hx). rewrite Nat.add_0_r in Hx. rewrite Hx. apply IH. exists i. simpl in Hi. split; [lia|]. split; [rewrite <- He; f_equal; lia|].
    intros i' Hi'. destruct (Ho (S i') ltac:(lia)) as (z & Hz). exists z. rewrite <- Hz. f_equal. lia.
Qed.
Lemma c68_more_proof c D s sv D' : (exists pyd al, c = CPY pyd al) \/ (exists n al, c = CDirDist n al /\ length al = length (rows D)) ->
  fit_var c D s = (Ok tt, sv) -> (length (rows D) < length (rows D'))%nat ->
  mean_log_pd psi c (Some D') sv = (Err IndexError, sv).
Proof.
  intros Hc H L. set (k := length (rows D)) in *.
  assert (E : weigh_logs (fun j => mean_log_w psi c j sv) 0 (row_sums D') (EF 0) = Err IndexError).
  { apply weigh_err. exists k. unfold row_sums. rewrite map_length. split; [exact L|]. cbn [plus]. destruct Hc as [(pyd & al & ->)|(n & al & -> & La)].
    - rewrite py_params in H. injection H as <-. split.
      + cbn [mean_log_w vd]. unfold beta_at. cbn [vpar]. match goal with |- context [log_rest ?p ?q ?r] => destruct (log_rest p q r) end; [|reflexivity].
        match goal with |- context [nth_error ?l k] => replace (nth_error l k) with (@None (R * R)) end; [reflexivity|].
        symmetry. apply nth_error_None. rewrite map_length, seq_length. reflexivity.
      + intros j Hj. eexists. apply (py_mlw psi pyd al D s). { rewrite py_params. reflexivity. } exact Hj.
    - assert (Hn : n = Z.of_nat (length al)).
      { cbn [fit_var] in H. destruct (Z.eqb_spec (Z.of_nat (length (rows D))) n); [|discriminate]. rewrite <- e, La. reflexivity. }
      subst n. split.
      + rewrite dir_params in H by (rewrite ?La; reflexivity). injection H as <-. cbn [mean_log_w vd vpar].
        match goal with |- context [nth_error ?l k] => replace (nth_error l k) with (@None R) end; [reflexivity|]. symmetry. apply nth_error_None.
        rewrite map_length, seq_length. lia.
      + intros j Hj. eexists. apply (dir_mlw psi al D s sv j La H). lia. }
  unfold mean_log_pd. destruct Hc as [(pyd & al & ->)|(n & al & -> & La)]; rewrite E; reflexivity.
Qed.

Lemma c68_geom_proof a b s x y D' : good_mat D' -> stochastic D' -> rows D' <> [] -> vpar s = PPair x y ->
  mean_log_pd psi (CGeom a b) (Some D') s =
    (Ok (EF (expected_log D' (fun _ => mean_log_beta psi x y + mean_log_beta psi y x))), s).
Proof.
  intros Hg Hs Hr Hv. unfold mean_log_pd. rewrite Hv. destruct (rows D') as [|r t] eqn:E; [congruence|]. do 2 f_equal. rewrite fold_add.
  rewrite expected_mass by exact Hg. set (lp := mean_log_beta psi x y). set (lq := mean_log_beta psi y x).
  rewrite (sumn_ext _ (fun j => (lp + lq) * mass D' j)) by (intros; ring). rewrite sumn_scale, mass_total by assumption.
  replace (rsum (row_sums D')) with (sumn (mass D') (length (rows D'))) by (unfold row_sums; rewrite rows_seq; reflexivity). rewrite mass_total by assumption. f_equal. ring.
Qed.

Lemma c68_equal_proof s D' : (0 < vn s)%Z ->
  mean_log_pd psi CEqual (Some D') s = (Ok (EF (INR (cols D') * ln (IZR (vn s)))), s).
Proof. intros H. unfold mean_log_pd. cbn [ext_log]. assert (P : 0 < IZR (vn s)) by (apply IZR_lt; exact H). apply rltb_true in P. rewrite P. reflexivity. Qed.

(* entropy form of FrequencyWeighting *)
Lemma ext_sum_fin l : ext_sum (map EF l) = EF (rsum l).
Proof. induction l as [|x t IH]; [reflexivity|]. cbn [map ext_sum fold_right] in *. unfold ext_sum in IH. rewrite IH. reflexivity. Qed.
Lemma total_pos D j : good_mat D -> (j < length (rows D))%nat -> 0 < mass D j -> 0 < mat_sum D.
Proof.
  intros Hg L1 M. assert (T : mass D j <= mat_sum D).
  { unfold mat_sum, row_sums. rewrite rows_seq. clear - Hg L1. assert (P : forall m, (j < m)%nat -> 0 <= sumn (mass D) m /\ mass D j <= sumn (mass D) m).
    { induction m as [|m IH]; intros J; [lia|]. rewrite sumn_S. pose proof (good_mass D m Hg). destruct (Nat.eq_dec j m) as [->|N]; [|destruct (IH ltac:(lia)); lra].
      assert (0 <= sumn (mass D) m) by (unfold sumn; apply rsum_nonneg, Forall_map, Forall_forall; intros; apply good_mass; exact Hg). lra. }
    apply P. exact L1. }
  lra.
Qed.
Lemma c68_freq_proof n D' s : good_mat D' -> (forall j, (j < length (rows D'))%nat -> 0 < mass D' j) ->
  mean_log_pd psi (CFreq n) (Some D') s =
    (Ok (EF (expected_log D' (fun j => ln (mass D' j / sumn (mass D') (length (rows D')))))), VS (Some D') (vk s) (vpar s) (vn s)).
Proof.
  intros Hg Hm. unfold mean_log_pd. do 2 f_equal. rewrite expected_mass by exact Hg.
  assert (Ht : mat_sum D' = sumn (mass D') (length (rows D'))) by (unfold mat_sum, row_sums; rewrite rows_seq; reflexivity).
  unfold row_sums. rewrite rows_seq, !map_map.
  rewrite (map_ext_in _ (fun j => EF (mass D' j * ln (mass D' j / sumn (mass D') (length (rows D')))))).
  - rewrite <- (map_map (fun j => mass D' j * ln (mass D' j / sumn (mass D') (length (rows D')))) EF). rewrite ext_sum_fin. reflexivity.
  - intros j Hj. apply in_seq in Hj. assert (M : 0 < mass D' j) by (apply Hm; lia). assert (T : 0 < mat_sum D') by (apply (total_pos D' j); [exact Hg|lia|exact M]).
    rewrite ext_div_pos by exact T. cbn [ext_mul ext_log]. assert (P : 0 < mass D' j / mat_sum D') by (apply Rdiv_lt_0_compat; assumption). apply rltb_true in P. rewrite P, Ht. reflexivity.
Qed.

(* the query changes later answers of FrequencyWeighting *)
Lemma c68_freq_replaced_proof n D' s j : let s' := snd (mean_log_pd psi (CFreq n) (Some D') s) in
  (j < length (rows D'))%nat -> (forall k, vk s = Some k -> (Z.of_nat j < k)%Z) -> vk s <> None -> mat_sum D' <> 0 ->
  mean_w (CFreq n) j s' = Ok (EF (mass D' j / sumn (mass D') (length (rows D')))).
Proof.
  intros s' Hj Hk Hn Ht. unfold s', mean_log_pd. cbn [snd mean_w vk vd]. destruct (vk s) as [k|]; [|congruence].
  specialize (Hk k eq_refl). destruct (Z.leb_spec k (Z.of_nat j)); [lia|]. rewrite freq_row by exact Hj. cbn [option_map opt_res].
  unfold ext_div, reqb. destruct (Req_EM_T (mat_sum D') 0); [contradiction|]. do 2 f_equal. f_equal. unfold mat_sum, row_sums. rewrite rows_seq. reflexivity.
Qed.
Lemma c68_freq_changes_proof : exists D D' s sv sv' x,
  fit_var (CFreq 1) D s = (Ok tt, sv) /\ mean_log_pd psi (CFreq 1) (Some D') sv = (Ok x, sv') /\
  mean_w (CFreq 1) 0 sv = Ok (EF 1) /\ mean_w (CFreq 1) 0 sv' = Ok (EF (1 / 2)).
Proof.
  exists (Mat [[1; 1]; [0; 0]] 2), (Mat [[1; 0]; [0; 1]] 2), (vs_init 1). do 3 eexists. split; [reflexivity|]. split; [reflexivity|].
  split; cbn; unfold ext_div, reqb, mat_sum, row_sums; cbn; destruct (Req_EM_T _ _); try lra; do 2 f_equal; field.
Qed.

(* unfitted objects *)
Lemma c68_unfitted_proof c n D' : has_variational c -> rows D' <> [] ->
  let s := vs_init n in let r := mean_log_pd psi c (Some D') s in
  match c with
  | CDP _ | CPY _ _ | CDirDist _ _ => r = (Err NotFittedError, s)
  | CGeom _ _ => r = (Err TypeError, s)
  | CEqual => fst r = Ok (ext_scale (INR (cols D')) (ext_log (EF (IZR n)))) /\ snd r = s
  | _ => is_ok (fst r) = true /\ mean_log_pd psi c None (snd r) = (fst r, snd r) /\ forall j, mean_w c j (snd r) = Err TypeError
  end.
Proof.
  intros Hc Hr s r. unfold r, mean_log_pd, row_sums. destruct c; try contradiction; repeat split; destruct (rows D'); try congruence; reflexivity.
Qed.
End Dig.
