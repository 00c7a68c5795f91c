(* Proofs about responsibilities (C50). *)
From Coq Require Import Reals Lra.
From Verif Require Import Prelude M_Ext M_Sample M_VarNum S_Var S_Sample S_VarNum P_Var P_Eppf P_Sample.
Open Scope R_scope.

Lemma rltb_false x y : rltb x y = false <-> y <= x.
Proof. unfold rltb. destruct (Rlt_dec x y); split; intros; try discriminate; try lra. Qed.
Lemma ext_sum_EF xs : ext_sum (map EF xs) = EF (rsum xs).
Proof. induction xs as [|x xs IH]; [reflexivity|]. cbn [map]. unfold ext_sum in *. cbn [fold_right]. rewrite IH. reflexivity. Qed.
Lemma weight_nonneg s : 0 <= weight s.
Proof. destruct s; simpl; try lra. left. apply exp_pos. Qed.
Lemma total_nonneg l : 0 <= total l.
Proof. apply rsum_nonneg. apply Forall_forall. intros x Hx. apply in_map_iff in Hx as (s & <- & _). apply weight_nonneg. Qed.
Lemma elem_le_total l s : In s l -> weight s <= total l.
Proof.
  unfold total. induction l as [|a l IH]; intros H; [destruct H|]. cbn [map]. rewrite rsum_cons. pose proof (total_nonneg l) as T. unfold total in T. pose proof (weight_nonneg a).
  destruct H as [->|H]; [lra|]. specialize (IH H). lra.
Qed.
(* the value of a responsibility when the shift c is finite *)
Definition share (eps c : R) (l : list ext) (s : ext) : R := (exp (- c) * weight s + eps) / (exp (- c) * total l + INR (length l) * eps).
Lemma norm_form eps ovf c l : 0 < eps -> proper l -> (forall r, In (EF r) l -> r - c <= ovf) ->
  normalised eps ovf (EF c) l = map EF (map (share eps c l) l).
Proof.
  intros He P H. unfold normalised. 
  assert (E : map (fun s => ext_add (ext_exp ovf (ext_add s (ext_opp (EF c)))) (EF eps)) l = map EF (map (fun s => exp (- c) * weight s + eps) l)).
  { rewrite map_map. apply map_ext_in. intros s Hs. unfold proper in P. rewrite Forall_forall in P. destruct (P s Hs) as [->|[r ->]]; simpl.
    - f_equal. lra.
    - specialize (H r Hs). assert (X : rltb ovf (r + - c) = false) by (apply rltb_false; lra). rewrite X. simpl. rewrite <- exp_plus. do 2 f_equal. f_equal. lra. }
  rewrite E, ext_sum_EF, !map_map. assert (T : rsum (map (fun s => exp (- c) * weight s + eps) l) = exp (- c) * total l + INR (length l) * eps).
  { rewrite rsum_map_plus, rsum_map_scale. unfold total. f_equal. clear. induction l as [|a l IH]; simpl map; [simpl; lra|]. rewrite rsum_cons, IH. change (length (a :: l)) with (S (length l)). rewrite S_INR. lra. }
  rewrite T. apply map_ext_in. intros s Hs. simpl. unfold ext_div. destruct (reqb (exp (- c) * total l + INR (length l) * eps) 0) eqn:Z; [|reflexivity].
  unfold reqb in Z. destruct (Req_EM_T _ 0) as [Z'|]; [|discriminate]. exfalso. pose proof (total_nonneg l). pose proof (exp_pos (- c)).
  assert (1 <= INR (length l)) by (apply (le_INR 1); destruct l; [destruct Hs|simpl; lia]). nra.
Qed.
Lemma share_facts eps c l : 0 < eps -> l <> [] ->
  let rs := map (share eps c l) l in
  prob_vector rs /\ length rs = length l /\ monotone_in l rs.
Proof.
  intros He NE rs. assert (K : 1 <= INR (length l)) by (apply (le_INR 1); destruct l; [congruence|simpl; lia]). pose proof (total_nonneg l) as T. pose proof (exp_pos (- c)) as X.
  assert (Dn : 0 < exp (- c) * total l + INR (length l) * eps) by nra. split; [split|split].
  - apply Forall_forall. intros r Hr. apply in_map_iff in Hr as (s & <- & _). unfold share. pose proof (weight_nonneg s). apply Rdiv_lt_0_compat; [nra|exact Dn].
  - unfold rs. set (d := exp (- c) * total l + INR (length l) * eps) in *. transitivity (rsum (map (fun s => / d * (exp (- c) * weight s + eps)) l)).
    { apply rsum_ext. intros s _. unfold share, Rdiv. fold d. lra. }
    rewrite rsum_map_scale, rsum_map_plus, rsum_map_scale. fold (total l). assert (C : rsum (map (fun _ : ext => eps) l) = INR (length l) * eps).
    { clear. induction l as [|a l IH]; simpl map; [simpl; lra|]. rewrite rsum_cons, IH. change (length (a :: l)) with (S (length l)). rewrite S_INR. lra. }
    rewrite C. fold d. field. lra.
  - unfold rs. apply map_length.
  - intros i j Hi Hj. unfold rs. rewrite !(nth_indep _ 0 (share eps c l ENI)) by (rewrite map_length; assumption). rewrite !map_nth. unfold pw, share, Rdiv.
    set (d := exp (- c) * total l + INR (length l) * eps) in *. assert (0 < / d) by (apply Rinv_0_lt_compat; exact Dn). split; intros H0; [apply Rmult_lt_compat_r; nra|].
    apply Rmult_lt_reg_r in H0; [|assumption]. apply (Rmult_lt_reg_l (exp (- c))); lra.
Qed.
Lemma share_nth eps c l j : (j < length l)%nat -> nth j (map (share eps c l) l) 0 = share eps c l (nth j l ENI).
Proof. intros H. rewrite (nth_indep _ 0 (share eps c l ENI)) by (rewrite map_length; exact H). apply map_nth. Qed.
(* distance to the softmax *)
Lemma share_close eps c l j B : 0 < eps -> (j < length l)%nat -> 0 < B -> B <= exp (- c) * total l ->
  Rabs (share eps c l (nth j l ENI) - softmax l j) <= INR (length l) * eps / B.
Proof.
  intros He Hj HB HS. unfold share, softmax, pw. set (S := exp (- c) * total l) in *. set (e := exp (- c) * weight (nth j l ENI)). set (k := INR (length l)).
  assert (K : 1 <= k) by (apply (le_INR 1); lia). pose proof (exp_pos (- c)) as X. assert (T : 0 < total l) by (apply (Rmult_lt_reg_l (exp (- c))); fold S; lra).
  assert (Q : weight (nth j l ENI) / total l = e / S) by (unfold e, S; field; lra). rewrite Q.
  assert (E0 : 0 <= e) by (unfold e; pose proof (weight_nonneg (nth j l ENI)); nra).
  assert (E1 : e <= S). { unfold e, S. apply Rmult_le_compat_l; [lra|]. apply elem_le_total. apply nth_In. exact Hj. }
  assert (Pk : 0 < k * eps) by nra. assert (F : (e + eps) / (S + k * eps) - e / S = eps * (S - k * e) / (S * (S + k * eps))) by (field; lra). rewrite F.
  assert (D : 0 < S * (S + k * eps)) by nra.
  assert (U : Rabs (eps * (S - k * e)) <= eps * (k * S)) by (rewrite Rabs_mult, (Rabs_right eps) by lra; apply Rmult_le_compat_l; [lra|]; apply Rabs_le; nra).
  unfold Rdiv. rewrite Rabs_mult, (Rabs_right (/ (S * (S + k * eps)))) by (left; apply Rinv_0_lt_compat; exact D).
  apply Rle_trans with (eps * (k * S) * / (S * (S + k * eps))); [apply Rmult_le_compat_r; [left; apply Rinv_0_lt_compat; exact D|exact U]|].
  replace (eps * (k * S) * / (S * (S + k * eps))) with (k * eps * / (S + k * eps)) by (field; lra). apply Rmult_le_compat_l; [lra|]. apply Rinv_le_contravar; lra.
Qed.
(* the column maximum *)
Lemma col_max_spec l : proper l -> (exists r, In (EF r) l) -> exists m, col_max l = EF m /\ In (EF m) l /\ forall r, In (EF r) l -> r <= m.
Proof.
  intros P. induction P as [|s l Hs P IH]; intros [r Hr]; [destruct Hr|].
  assert (D : (exists r, In (EF r) l) \/ ~ exists r, In (EF r) l).
  { clear - P. induction P as [|s l [->|[r ->]] P IH]; [right; intros [r []]| |left; exists r; left; reflexivity]. destruct IH as [[r Hr]|N]; [left; exists r; right; exact Hr|right]. intros [r [H|H]]; [discriminate|apply N; exists r; exact H]. }
  unfold col_max in *. simpl. destruct D as [D|D].
  - destruct (IH D) as (m & E & I & B). rewrite E. destruct Hs as [->|[q ->]]; unfold ext_max; simpl.
    + exists m. split; [reflexivity|]. split; [right; exact I|]. intros r' [H|H]; [discriminate|apply B; exact H].
    + destruct (rltb q m) eqn:Z.
      * exists m. split; [reflexivity|]. split; [right; exact I|]. apply rltb_spec in Z. intros r' [H|H]; [injection H; intros; lra|apply B; exact H].
      * exists q. split; [reflexivity|]. split; [left; reflexivity|]. apply rltb_false in Z. intros r' [H|H]; [injection H; intros; lra|specialize (B _ H); lra].
  - assert (A : fold_right ext_max ENI l = ENI).
    { clear - P D. induction P as [|s l [->|[r ->]] P IH]; [reflexivity| |exfalso; apply D; exists r; left; reflexivity]. simpl. rewrite IH; [reflexivity|]. intros [r H]. apply D. exists r. right. exact H. }
    rewrite A. destruct Hs as [->|[q ->]]; [exfalso; destruct Hr as [Hr|Hr]; [discriminate|apply D; exists r; exact Hr]|]. exists q. unfold ext_max; simpl. split; [reflexivity|]. split; [left; reflexivity|].
    intros r' [H|H]; [injection H; intros; lra|exfalso; apply D; exists r'; exact H].
Qed.
Lemma c50_probability_proof : forall eps ovf l, 0 < eps -> 0 <= ovf -> proper l -> (exists r, In (EF r) l) ->
  exists rs, resp_col eps ovf l = map EF rs /\ length rs = length l /\ prob_vector rs /\ monotone_in l rs /\
    (forall j, (j < length l)%nat -> eps / (INR (length l) * (1 + eps)) <= nth j rs 0) /\
    (forall j, (j < length l)%nat -> Rabs (nth j rs 0 - softmax l j) <= INR (length l) * eps).
Proof.
  intros eps ovf l He Ho P X. destruct (col_max_spec l P X) as (m & E & I & B). exists (map (share eps m l) l). unfold resp_col. rewrite E.
  assert (NE : l <> []) by (intros ->; destruct I). destruct (share_facts eps m l He NE) as (F1 & F2 & F3).
  split; [apply norm_form; try assumption; intros r Hr; specialize (B r Hr); lra|]. split; [exact F2|]. split; [exact F1|]. split; [exact F3|].
  assert (K : 1 <= INR (length l)) by (apply (le_INR 1); destruct l; [congruence|simpl; lia]).
  assert (W : forall s, In s l -> exp (- m) * weight s <= 1).
  { intros s Hs. unfold proper in P. rewrite Forall_forall in P. destruct (P s Hs) as [->|[r ->]]; simpl; [lra|]. rewrite <- exp_plus, <- exp_0. specialize (B r Hs). destruct (Rle_lt_or_eq_dec _ _ B) as [L|L]; [left; apply exp_increasing; lra|right; f_equal; lra]. }
  assert (S1 : 1 <= exp (- m) * total l).
  { pose proof (elem_le_total l (EF m) I) as Q. simpl in Q. pose proof (exp_pos (- m)). assert (exp (- m) * exp m = 1) by (rewrite <- exp_plus, Rplus_opp_l; apply exp_0). nra. }
  assert (Sk : exp (- m) * total l <= INR (length l)).
  { unfold total. rewrite <- rsum_map_scale. clear - W. induction l as [|a l IH]; simpl map; [simpl; lra|]. rewrite rsum_cons. change (length (a :: l)) with (S (length l)). rewrite S_INR. pose proof (W a (or_introl eq_refl)). specialize (IH (fun s H => W s (or_intror H))). lra. }
  split; intros j Hj; rewrite share_nth by exact Hj.
  - unfold share. pose proof (weight_nonneg (nth j l ENI)). pose proof (exp_pos (- m)). set (S := exp (- m) * total l) in *. set (k := INR (length l)) in *.
    assert (0 <= exp (- m) * weight (nth j l ENI)) by nra. apply Rle_trans with (eps / (S + k * eps)).
    + apply Rmult_le_compat_l; [lra|]. apply Rinv_le_contravar; nra.
    + unfold Rdiv. apply Rmult_le_compat_r; [left; apply Rinv_0_lt_compat; nra|lra].
  - eapply Rle_trans; [apply (share_close eps m l j 1); try assumption; lra|]. lra.
Qed.
(* ---- NaN ---- *)
Lemma sum_nan l : In ENaN l -> ext_sum l = ENaN.
Proof.
  unfold ext_sum. induction l as [|a l IH]; intros H; [destruct H|]. simpl. destruct H as [->|H]; [reflexivity|]. rewrite (IH H). destruct a; reflexivity.
Qed.
Lemma norm_nan eps ovf m l s : In s l -> ext_add s (ext_opp m) = ENaN -> forall a, In a (normalised eps ovf m l) -> a = ENaN.
Proof.
  intros Hs N a Ha. unfold normalised in Ha. apply in_map_iff in Ha as (b & <- & _). rewrite sum_nan; [destruct b; reflexivity|].
  apply in_map_iff. exists s. rewrite N. split; [reflexivity|exact Hs].
Qed.
Lemma max_nan l : In ENaN l -> col_max l = ENaN.
Proof.
  unfold col_max. induction l as [|a l IH]; intros H; [destruct H|]. simpl. destruct H as [->|H]; [reflexivity|]. rewrite (IH H). destruct a; reflexivity.
Qed.
Lemma max_not_nan l : ~ In ENaN l -> is_nan (col_max l) = false.
Proof.
  unfold col_max. induction l as [|b l IH]; intros N; [reflexivity|]. simpl. specialize (IH (fun z => N (or_intror z))). assert (B : is_nan b = false) by (destruct b; try reflexivity; exfalso; apply N; left; reflexivity).
  set (x := fold_right ext_max ENI l) in *. unfold ext_max. rewrite B, IH. destruct (ext_ltb b x); assumption.
Qed.
Lemma max_inf l : In EPI l -> ~ In ENaN l -> col_max l = EPI.
Proof.
  unfold col_max. induction l as [|a l IH]; intros H N; [destruct H|]. simpl.
  assert (Nl : ~ In ENaN l) by (intros Z; apply N; right; exact Z). assert (Na : a <> ENaN) by (intros ->; apply N; left; reflexivity).
  destruct H as [->|H].
  - pose proof (max_not_nan l Nl) as Z. unfold col_max in Z. set (x := fold_right ext_max ENI l) in *. unfold ext_max. simpl. rewrite Z. destruct x; reflexivity.
  - rewrite (IH H Nl). unfold ext_max. destruct a; simpl; try reflexivity; congruence.
Qed.
Lemma ext_cases l : In ENaN l \/ ~ In ENaN l.
Proof. induction l as [|a l IH]; [right; intros []|]. destruct IH as [H|H]; [left; right; exact H|]. destruct a; try (right; intros [Z|Z]; [discriminate|exact (H Z)]). left. left. reflexivity. Qed.
Lemma ext_cases_inf l : In EPI l \/ ~ In EPI l.
Proof. induction l as [|a l IH]; [right; intros []|]. destruct IH as [H|H]; [left; right; exact H|]. destruct a; try (right; intros [Z|Z]; [discriminate|exact (H Z)]). left. left. reflexivity. Qed.
Lemma c50_otherwise_nan_proof : forall eps ovf l, ~ (proper l /\ exists r, In (EF r) l) -> forall a, In a (resp_col eps ovf l) -> a = ENaN.
Proof.
  intros eps ovf l H a Ha. unfold resp_col in Ha.
  destruct (ext_cases l) as [N|N]; [apply (norm_nan eps ovf (col_max l) l ENaN N eq_refl a Ha)|].
  destruct (ext_cases_inf l) as [I|I]; [apply (norm_nan eps ovf (col_max l) l EPI I); [rewrite max_inf by assumption; reflexivity|exact Ha]|].
  assert (P : proper l). { apply Forall_forall. intros s Hs. destruct s; [right; eexists; reflexivity|contradiction|left; reflexivity|contradiction]. }
  assert (A : forall s, In s l -> s = ENI). { intros s Hs. unfold proper in P. rewrite Forall_forall in P. destruct (P s Hs) as [E|[r ->]]; [exact E|]. exfalso. apply H. split; [apply Forall_forall; exact P|]. exists r. exact Hs. }
  assert (M : col_max l = ENI). { clear - A. unfold col_max. induction l as [|s l IH]; [reflexivity|]. simpl. rewrite (A s (or_introl eq_refl)), IH; [reflexivity|]. intros t Ht. apply A. right. exact Ht. }
  destruct l as [|s l]; [destruct Ha|]. apply (norm_nan eps ovf (col_max (s :: l)) (s :: l) s); [left; reflexivity| |exact Ha]. rewrite M, (A s (or_introl eq_refl)). reflexivity.
Qed.
(* ---- labels ---- *)
Lemma argmax_EF rs j : np_argmax (map EF rs) = Ok j <-> (j < length rs)%nat /\ (forall s, (s < length rs)%nat -> nth s rs 0 <= nth j rs 0) /\ (forall s, (s < j)%nat -> nth s rs 0 < nth j rs 0).
Proof.
  rewrite argmax_first. 2:{ induction rs as [|r rs IH]; [reflexivity|]. exact IH. }
  rewrite map_length. assert (N : forall i, (i < length rs)%nat -> nth i (map EF rs) ENaN = EF (nth i rs 0)) by (intros i Hi; rewrite (nth_indep _ ENaN (EF 0)) by (rewrite map_length; exact Hi); apply map_nth).
  split; intros (J & G & Lo); split; try exact J; split; intros s Hs.
  - specialize (G s Hs). rewrite !N in G by assumption. simpl in G. apply rltb_false in G. exact G.
  - specialize (Lo s Hs). rewrite !N in Lo by lia. simpl in Lo. apply rltb_spec in Lo. exact Lo.
  - rewrite !N by assumption. simpl. apply rltb_false. apply G. exact Hs.
  - rewrite !N by lia. simpl. apply rltb_spec. apply Lo. exact Hs.
Qed.
Lemma label_first_best l rs j : length rs = length l -> monotone_in l rs -> (np_argmax (map EF rs) = Ok j <-> first_best l j).
Proof.
  intros L M. rewrite argmax_EF. unfold first_best. rewrite L. split; intros (J & G & Lo); split; try exact J; split; intros s Hs.
  - apply Rnot_lt_le. intros Z. apply M in Z; try assumption. specialize (G s Hs). lra.
  - apply (M s j); try lia. apply Lo. exact Hs.
  - apply Rnot_lt_le. intros Z. apply M in Z; try assumption. specialize (G s Hs). lra.
  - apply (M s j); try lia. apply Lo. exact Hs.
Qed.
Lemma c50_label_proof : forall eps ovf l j, 0 < eps -> 0 <= ovf -> proper l -> (exists r, In (EF r) l) -> (np_argmax (resp_col eps ovf l) = Ok j <-> first_best l j).
Proof.
  intros eps ovf l j He Ho P X. destruct (c50_probability_proof eps ovf l He Ho P X) as (rs & -> & L & _ & M & _). apply label_first_best; assumption.
Qed.
(* ---- the mean-centred version ---- *)
Lemma mean_shift xs : xs <> [] -> exists c, r_mean xs c /\ ext_quot (ext_sum (map EF xs)) (EF (INR (length (map EF xs)))) = EF c.
Proof.
  intros NE. assert (K : 1 <= INR (length xs)) by (apply (le_INR 1); destruct xs; [congruence|simpl; lia]). exists (rsum xs / INR (length xs)). split; [unfold r_mean; field; lra|].
  rewrite ext_sum_EF, map_length. simpl. unfold ext_div, reqb. destruct (Req_EM_T (INR (length xs)) 0); [lra|reflexivity].
Qed.
Lemma r_mean_unique xs c c' : xs <> [] -> r_mean xs c -> r_mean xs c' -> c = c'.
Proof. intros NE H H'. assert (K : 1 <= INR (length xs)) by (apply (le_INR 1); destruct xs; [congruence|simpl; lia]). unfold r_mean in *. apply (Rmult_eq_reg_r (INR (length xs))); lra. Qed.
Lemma exp_ge x : 1 + x <= exp x.
Proof. destruct (Req_dec x 0) as [->|N]; [rewrite exp_0; lra|]. left. apply exp_ineq1. exact N. Qed.
Lemma proper_EF xs : proper (map EF xs).
Proof. apply Forall_forall. intros s Hs. apply in_map_iff in Hs as (x & <- & _). right. exists x. reflexivity. Qed.
Lemma c50_mean_proof : forall eps ovf xs c, 0 < eps -> xs <> [] -> r_mean xs c -> (forall x, In x xs -> x - c <= ovf) ->
  let l := map EF xs in
  exists rs, resp_col_mean eps ovf l = map EF rs /\ length rs = length l /\ prob_vector rs /\ monotone_in l rs /\
    (forall j, (j < length l)%nat -> Rabs (nth j rs 0 - softmax l j) <= eps).
Proof.
  intros eps ovf xs c He NE Mc O l. destruct (mean_shift xs NE) as (c' & Mc' & E). rewrite <- (r_mean_unique xs c c' NE Mc Mc') in E. clear c' Mc'.
  exists (map (share eps c l) l). unfold resp_col_mean. fold l in E. rewrite E. assert (NL : l <> []) by (unfold l; destruct xs; [congruence|discriminate]).
  destruct (share_facts eps c l He NL) as (F1 & F2 & F3). split; [apply norm_form; [exact He|apply proper_EF|]|].
  { intros r Hr. unfold l in Hr. apply in_map_iff in Hr as (x & Ex & Hx). injection Ex as <-. apply O. exact Hx. }
  split; [exact F2|]. split; [exact F1|]. split; [exact F3|]. intros j Hj. rewrite share_nth by exact Hj.
  assert (K : 1 <= INR (length l)) by (apply (le_INR 1); destruct l; [congruence|simpl; lia]).
  eapply Rle_trans; [apply (share_close eps c l j (INR (length l))); try assumption; [lra|]|right; field; lra].
  unfold total. rewrite <- rsum_map_scale. unfold l. rewrite map_map, map_length.
  assert (G : rsum (map (fun x => 1 + (x - c)) xs) <= rsum (map (fun x => exp (- c) * weight (EF x)) xs)).
  { clear. induction xs as [|x xs IH]; simpl map; [simpl; lra|]. rewrite !rsum_cons. simpl weight in *. rewrite <- exp_plus. replace (- c + x) with (x - c) by lra. pose proof (exp_ge (x - c)). lra. }
  assert (Q : rsum (map (fun x => 1 + (x - c)) xs) = INR (length xs)).
  { assert (Z : rsum (map (fun x => 1 + (x - c)) xs) = (1 - c) * INR (length xs) + rsum xs).
    { clear. induction xs as [|x xs IH]; [simpl; lra|]. cbn [map]. rewrite !rsum_cons, IH. change (length (x :: xs)) with (S (length xs)). rewrite S_INR. lra. }
    rewrite Z. unfold r_mean in Mc. lra. }
  rewrite <- Q at 1. exact G.
Qed.
Lemma c50_mean_label_proof : forall eps ovf xs c j, 0 < eps -> xs <> [] -> r_mean xs c -> (forall x, In x xs -> x - c <= ovf) ->
  (np_argmax (resp_col_mean eps ovf (map EF xs)) = Ok j <-> first_best (map EF xs) j).
Proof.
  intros eps ovf xs c j He NE Mc O. destruct (c50_mean_proof eps ovf xs c He NE Mc O) as (rs & -> & L & _ & M & _). apply label_first_best; assumption.
Qed.
Lemma ext_sum_inf l : In EPI l -> (forall s, In s l -> s = EPI \/ exists x, s = EF x) -> ext_sum l = EPI.
Proof.
  unfold ext_sum. induction l as [|a l IH]; intros H F; [destruct H|]. simpl. destruct (ext_cases_inf l) as [Hl|Hl].
  - rewrite IH; [|exact Hl|intros s Hs; apply F; right; exact Hs]. destruct (F a (or_introl eq_refl)) as [->|[x ->]]; reflexivity.
  - destruct H as [->|H]; [|contradiction]. assert (E : exists x, fold_right ext_add (EF 0) l = EF x).
    { assert (F' : forall s, In s l -> exists x, s = EF x) by (intros s Hs; destruct (F s (or_intror Hs)) as [->|E]; [contradiction|exact E]). clear - F'. induction l as [|b l IH]; [exists 0; reflexivity|].
      destruct (F' b (or_introl eq_refl)) as [x ->]. destruct IH as [z Z]; [intros s Hs; apply F'; right; exact Hs|]. simpl. rewrite Z. eexists. reflexivity. }
    destruct E as [x ->]. reflexivity.
Qed.
Lemma mean_overflow_form eps ovf xs c : xs <> [] -> r_mean xs c -> (exists x, In x xs /\ ovf < x - c) ->
  resp_col_mean eps ovf (map EF xs) = map (fun x => if rltb ovf (x - c) then ENaN else EF 0) xs.
Proof.
  intros NE Mc (x0 & H0 & O0). destruct (mean_shift xs NE) as (c' & Mc' & E). rewrite <- (r_mean_unique xs c c' NE Mc Mc') in E. clear c' Mc'. unfold resp_col_mean, normalised. rewrite E.
  assert (S1 : map (fun s => ext_add (ext_exp ovf (ext_add s (ext_opp (EF c)))) (EF eps)) (map EF xs) = map (fun x => if rltb ovf (x - c) then EPI else EF (exp (x - c) + eps)) xs).
  { rewrite map_map. apply map_ext. intros x. simpl. change (x + - c) with (x - c). destruct (rltb ovf (x - c)); reflexivity. }
  rewrite S1. rewrite ext_sum_inf.
  - rewrite map_map. apply map_ext. intros x. destruct (rltb ovf (x - c)); reflexivity.
  - apply in_map_iff. exists x0. apply rltb_spec in O0. rewrite O0. split; [reflexivity|exact H0].
  - intros s Hs. apply in_map_iff in Hs as (x & <- & _). destruct (rltb ovf (x - c)); [left; reflexivity|right; eexists; reflexivity].
Qed.
Lemma amax_first_nan l : forall i best b t, nth_error l t = Some ENaN -> (forall q, (q < t)%nat -> nth_error l q <> Some ENaN) -> is_nan b = false -> amax i best b l = (i + t)%nat.
Proof.
  induction l as [|x l IH]; intros i best b [|t] H F B; try discriminate H; simpl.
  - injection H as ->. rewrite B. simpl. lia.
  - rewrite B. assert (X : is_nan x = false) by (destruct x; try reflexivity; exfalso; apply (F 0%nat); [lia|reflexivity]). rewrite X. simpl in H.
    assert (F' : forall q, (q < t)%nat -> nth_error l q <> Some ENaN) by (intros q Hq; apply (F (S q)); lia). destruct (ext_ltb b x); rewrite (IH _ _ _ t H F') by assumption; lia.
Qed.
Lemma argmax_first_nan l j : nth_error l j = Some ENaN -> (forall q, (q < j)%nat -> nth_error l q <> Some ENaN) -> np_argmax l = Ok j.
Proof.
  destruct l as [|b l]; intros H F; [destruct j; discriminate|]. simpl. f_equal. destruct j as [|j].
  - simpl in H. injection H as ->. destruct l; reflexivity.
  - assert (B : is_nan b = false) by (destruct b; try reflexivity; exfalso; apply (F 0%nat); [lia|reflexivity]). simpl in H. rewrite (amax_first_nan l 1 0 b j H); [reflexivity| |exact B]. intros q Hq. apply (F (S q)). lia.
Qed.
Lemma c50_mean_overflow_proof : forall eps ovf xs c j, xs <> [] -> r_mean xs c -> (j < length xs)%nat -> ovf < nth j xs 0 - c -> (forall i, (i < j)%nat -> nth i xs 0 - c <= ovf) ->
  np_argmax (resp_col_mean eps ovf (map EF xs)) = Ok j /\ nth_error (resp_col_mean eps ovf (map EF xs)) j = Some ENaN.
Proof.
  intros eps ovf xs c j NE Mc Hj O F. rewrite (mean_overflow_form eps ovf xs c NE Mc) by (exists (nth j xs 0); split; [apply nth_In; exact Hj|exact O]).
  assert (G : forall i, (i < length xs)%nat -> nth_error (map (fun x => if rltb ovf (x - c) then ENaN else EF 0) xs) i = Some (if rltb ovf (nth i xs 0 - c) then ENaN else EF 0)).
  { intros i Hi. rewrite nth_error_map, (nth_error_nth' xs 0 Hi). reflexivity. }
  assert (J : nth_error (map (fun x => if rltb ovf (x - c) then ENaN else EF 0) xs) j = Some ENaN) by (rewrite G by exact Hj; apply rltb_spec in O; rewrite O; reflexivity).
  split; [|exact J]. apply argmax_first_nan; [exact J|]. intros q Hq. rewrite G by lia. specialize (F q Hq). apply rltb_false in F. rewrite F. discriminate.
Qed.
Lemma c50_mean_label_refuted_proof : forall eps ovf, 0 < eps -> 0 <= ovf -> exists l j, Forall (fun s => exists x, s = EF x) l /\ np_argmax (resp_col_mean eps ovf l) = Ok j /\ ~ first_best l j /\ ~ (exists rs, resp_col_mean eps ovf l = map EF rs) /\ (exists j', np_argmax (resp_col eps ovf l) = Ok j' /\ first_best l j').
Proof.
  intros eps ovf He Ho. set (xs := [0; 1; - 3 * ovf - 6]). exists (map EF xs), 0%nat.
  assert (Mc : r_mean xs (- ovf - 5 / 3)) by (unfold r_mean, xs; simpl; lra).
  destruct (c50_mean_overflow_proof eps ovf xs (- ovf - 5 / 3) 0 ltac:(discriminate) Mc) as [A B]; [simpl; lia|simpl; lra|intros; lia|].
  split; [repeat constructor; eexists; reflexivity|]. split; [exact A|]. assert (E : exp 0 < exp 1) by (apply exp_increasing; lra). split; [|split].
  - intros (_ & G & _). specialize (G 1%nat ltac:(simpl; lia)). unfold pw in G. simpl in G. lra.
  - intros [rs Z]. rewrite Z in B. destruct rs; discriminate.
  - exists 1%nat. assert (FB : first_best (map EF xs) 1).
    { split; [simpl; lia|]. assert (exp (- 3 * ovf - 6) < exp 1) by (apply exp_increasing; lra). unfold pw. split; [intros [|[|[|i]]] Hi; simpl in *; try lia; lra|intros [|i] Hi; simpl; try lia; lra]. }
    split; [|exact FB]. apply c50_label_proof; try assumption; [apply proper_EF|exists 0; left; reflexivity].
Qed.
