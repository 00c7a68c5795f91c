(* Proofs about Gumbel-max sampling and partition probabilities. *)
From Coq Require Import Reals Permutation Lra.
From Verif Require Import Prelude M_Ext M_Sample S_Var S_Sample P_Var.
Open Scope R_scope.

(* ---- argmax ---- *)
Lemma amax_range l : forall i best b, (best < i)%nat -> (amax i best b l < i + length l)%nat.
Proof.
  induction l as [|x t IH]; intros i best b H; simpl; [lia|]. destruct (is_nan b); [lia|]. destruct (is_nan x); [lia|].
  destruct (ext_ltb b x); specialize (IH (S i)); [specialize (IH i x ltac:(lia))|specialize (IH best b ltac:(lia))]; lia.
Qed.
Lemma ltb_irrefl x : ext_ltb x x = false.
Proof. destruct x; simpl; auto. unfold rltb. destruct (Rlt_dec x x); [lra|reflexivity]. Qed.
Lemma ltb_trans x y z : ext_ltb x y = true -> ext_ltb y z = true -> ext_ltb x z = true.
Proof. destruct x, y, z; simpl; try discriminate; auto. unfold rltb. repeat destruct Rlt_dec; try discriminate; auto; lra. Qed.
Lemma nlt_trans x y z : is_nan y = false -> ext_ltb x y = false -> ext_ltb y z = false -> ext_ltb x z = false.
Proof. destruct x, y, z; simpl; try discriminate; auto. unfold rltb. repeat destruct Rlt_dec; try discriminate; auto; lra. Qed.
Lemma nlt_lt_trans x y z : is_nan x = false -> is_nan z = false -> ext_ltb y x = false -> ext_ltb y z = true -> ext_ltb x z = true.
Proof. destruct x, y, z; simpl; try discriminate; auto. unfold rltb. repeat destruct Rlt_dec; try discriminate; auto; lra. Qed.
(* without NaN: the first largest entry *)
Lemma amax_spec l : forall i best b, is_nan b = false -> forallb (fun x => negb (is_nan x)) l = true ->
  let r := amax i best b l in
  (r = best /\ Forall (fun x => ext_ltb b x = false) l) \/
  (exists t, r = (i + t)%nat /\ (t < length l)%nat /\ ext_ltb b (nth t l ENaN) = true /\
    (forall s, (s < length l)%nat -> ext_ltb (nth t l ENaN) (nth s l ENaN) = false) /\
    (forall s, (s < t)%nat -> ext_ltb (nth s l ENaN) (nth t l ENaN) = true)).
Proof.
  induction l as [|x t IH]; intros i best b Hb Hl; cbn [amax]; [left; auto|]. cbn [forallb] in Hl. apply andb_prop in Hl as [Hx Ht]. apply negb_true_iff in Hx. rewrite Hb, Hx.
  destruct (ext_ltb b x) eqn:E.
  - right. destruct (IH (S i) i x Hx Ht) as [[R F]|(q & R & Q & L & G & Lo)].
    + exists 0%nat. rewrite R, Nat.add_0_r. split; [reflexivity|]. split; [simpl; lia|]. split; [exact E|]. split; [|intros; lia].
      intros [|s] Hs; [apply ltb_irrefl|]. rewrite Forall_forall in F. apply F. simpl. apply nth_In. simpl in Hs. lia.
    + exists (S q). split; [rewrite R; lia|]. split; [simpl; lia|]. assert (ND : ext_ltb b (nth (S q) (x :: t) ENaN) = true) by (simpl; eapply ltb_trans; eassumption). split; [exact ND|]. split.
      * intros [|s] Hs; simpl; [|apply G; simpl in Hs; lia]. destruct (ext_ltb (nth q t ENaN) x) eqn:W; [|reflexivity]. pose proof (ltb_trans _ _ _ L W) as X. rewrite ltb_irrefl in X. discriminate.
      * intros [|s] Hs; simpl; [exact L|apply Lo; lia].
  - destruct (IH (S i) best b Hb Ht) as [[R F]|(q & R & Q & L & G & Lo)].
    + left. split; [exact R|constructor; assumption].
    + right. exists (S q). split; [rewrite R; lia|]. split; [simpl; lia|]. split; [exact L|].
      assert (Nq : is_nan (nth q t ENaN) = false).
      { rewrite forallb_forall in Ht. apply negb_true_iff. apply Ht. apply nth_In. exact Q. }
      assert (X : ext_ltb x (nth q t ENaN) = true) by (eapply nlt_lt_trans with (y := b); eassumption). split.
      * intros [|s] Hs; simpl; [|apply G; simpl in Hs; lia]. destruct (ext_ltb (nth q t ENaN) x) eqn:W; [|reflexivity]. pose proof (ltb_trans _ _ _ X W) as Y. rewrite ltb_irrefl in Y. discriminate.
      * intros [|s] Hs; simpl; [exact X|apply Lo; lia].
Qed.
Lemma argmax_first l j : forallb (fun x => negb (is_nan x)) l = true ->
  (np_argmax l = Ok j <-> (j < length l)%nat /\ (forall s, (s < length l)%nat -> ext_ltb (nth j l ENaN) (nth s l ENaN) = false) /\
     (forall s, (s < j)%nat -> ext_ltb (nth s l ENaN) (nth j l ENaN) = true)).
Proof.
  destruct l as [|b t]; [simpl; split; [discriminate|intros (Hl & _); lia]|]. intros H.
  assert (D : forall j, np_argmax (b :: t) = Ok j -> (j < length (b :: t))%nat /\ (forall s, (s < length (b :: t))%nat -> ext_ltb (nth j (b :: t) ENaN) (nth s (b :: t) ENaN) = false) /\
     (forall s, (s < j)%nat -> ext_ltb (nth s (b :: t) ENaN) (nth j (b :: t) ENaN) = true)).
  { clear j. intros j [= <-]. cbn [forallb] in H. apply andb_prop in H as [Hb Ht]. apply negb_true_iff in Hb.
    destruct (amax_spec t 1 0 b Hb Ht) as [[R F]|(q & R & Q & L & G & Lo)].
    - rewrite R. split; [simpl; lia|]. split; [|intros; lia]. intros [|s] Hs; [apply ltb_irrefl|]. rewrite Forall_forall in F. apply (F (nth s t ENaN)). apply nth_In. simpl in Hs. lia.
    - rewrite R. cbn [Nat.add nth]. split; [simpl; lia|]. split.
      + intros [|s] Hs; [|apply G; simpl in Hs; lia]. destruct (ext_ltb (nth q t ENaN) b) eqn:W; [|reflexivity]. pose proof (ltb_trans _ _ _ L W) as X. rewrite ltb_irrefl in X. discriminate.
      + intros [|s] Hs; [exact L|apply Lo; lia]. }
  split; [apply D|]. intros (J & G & Lo). destruct (np_argmax (b :: t)) as [r| |] eqn:E; try discriminate E. destruct (D r eq_refl) as (R & G' & Lo').
  f_equal. destruct (Nat.lt_trichotomy r j) as [X|[X|X]]; [|exact X|].
  - specialize (Lo r X). rewrite (G' j J) in Lo. discriminate.
  - specialize (Lo' j X). rewrite (G r R) in Lo'. discriminate.
Qed.

(* ---- the race ---- *)
Lemma rltb_spec x y : rltb x y = true <-> x < y.
Proof. unfold rltb. destruct (Rlt_dec x y); split; auto; discriminate. Qed.
Lemma pert_eni u : 0 < u < 1 -> perturbed (ENI, u) = ENI.
Proof.
  intros H. unfold perturbed. simpl. replace (rltb 0 u) with true by (symmetry; apply rltb_spec; lra). simpl.
  replace (rltb 0 (- ln u)) with true; [reflexivity|]. symmetry. apply rltb_spec. pose proof (ln_increasing u 1 ltac:(lra) ltac:(lra)). rewrite ln_1 in *. lra.
Qed.
Lemma pert_ef r u : 0 < u < 1 -> perturbed (EF r, u) = EF (r - ln (- ln u)).
Proof.
  intros H. unfold perturbed. simpl. replace (rltb 0 u) with true by (symmetry; apply rltb_spec; lra). simpl.
  replace (rltb 0 (- ln u)) with true; [reflexivity|]. symmetry. apply rltb_spec. pose proof (ln_increasing u 1 ltac:(lra) ltac:(lra)). rewrite ln_1 in *. lra.
Qed.
Lemma neg_ln_pos u : 0 < u < 1 -> 0 < - ln u.
Proof. intros H. pose proof (ln_increasing u 1 ltac:(lra) ltac:(lra)). rewrite ln_1 in *. lra. Qed.
Lemma pert_lt a u b v : (a = ENI \/ exists r, a = EF r) -> (b = ENI \/ exists r, b = EF r) -> 0 < u < 1 -> 0 < v < 1 ->
  (ext_ltb (perturbed (a, u)) (perturbed (b, v)) = true <-> weight a * (- ln v) < weight b * (- ln u)).
Proof.
  intros [->|[r ->]] [->|[q ->]] Hu Hv; pose proof (neg_ln_pos _ Hu) as U; pose proof (neg_ln_pos _ Hv) as V; rewrite ?pert_eni, ?pert_ef by assumption; cbn [ext_ltb weight].
  - split; [discriminate|lra].
  - split; auto. intros _. pose proof (exp_pos q). nra.
  - split; [discriminate|]. intros H. pose proof (exp_pos r). nra.
  - rewrite rltb_spec. rewrite <- (exp_ln (- ln u)) at 2 by exact U. rewrite <- (exp_ln (- ln v)) at 2 by exact V. rewrite <- !exp_plus. split; intros H.
    + apply exp_increasing. lra.
    + apply exp_lt_inv in H. lra.
Qed.
Lemma nth_combine_pert logp us i : length us = length logp -> (i < length logp)%nat ->
  nth i (map perturbed (combine logp us)) ENaN = perturbed (nth i logp ENI, nth i us 0).
Proof.
  intros L H. rewrite (nth_indep _ ENaN (perturbed (ENI, 0))) by (rewrite map_length, combine_length; lia). rewrite map_nth, combine_nth by auto. reflexivity.
Qed.
Lemma pert_not_nan logp us : proper logp -> open_unit us -> forallb (fun x => negb (is_nan x)) (map perturbed (combine logp us)) = true.
Proof.
  intros P U. apply forallb_forall. intros x Hx. apply in_map_iff in Hx as ([a u] & <- & Hx). pose proof (in_combine_l _ _ _ _ Hx) as A. pose proof (in_combine_r _ _ _ _ Hx) as B.
  unfold proper in P. rewrite Forall_forall in P. unfold open_unit in U. rewrite Forall_forall in U. destruct (P a A) as [->|[r ->]]; [rewrite pert_eni|rewrite pert_ef]; auto.
Qed.
Lemma pert_nth_lt logp us i j : length us = length logp -> proper logp -> open_unit us -> (i < length logp)%nat -> (j < length logp)%nat ->
  (ext_ltb (nth i (map perturbed (combine logp us)) ENaN) (nth j (map perturbed (combine logp us)) ENaN) = true <->
   pw logp i * (- ln (nth j us 0)) < pw logp j * (- ln (nth i us 0))).
Proof.
  intros L P U Hi Hj. rewrite !nth_combine_pert by assumption. unfold proper in P. rewrite Forall_forall in P. unfold open_unit in U. rewrite Forall_forall in U.
  apply pert_lt; [apply P, nth_In; assumption|apply P, nth_In; assumption|apply U, nth_In; lia|apply U, nth_In; lia].
Qed.
Lemma c46_race_proof : forall logp us j, proper logp -> length us = length logp -> open_unit us ->
  (gumbel_max logp us = Ok j <-> wins logp us j).
Proof.
  intros logp us j P L U. unfold gumbel_max. rewrite argmax_first by (apply pert_not_nan; assumption). rewrite map_length, combine_length, L, Nat.min_id. unfold wins.
  split; intros (J & G & Lo); split; try exact J; split.
  - intros i Hi. specialize (G i Hi). destruct (Rle_or_lt (pw logp i * - ln (nth j us 0)) (pw logp j * - ln (nth i us 0))) as [X|X]; [exact X|].
    apply (pert_nth_lt logp us j i) in X; try assumption. congruence.
  - intros i Hi. apply (pert_nth_lt logp us i j); try assumption; [lia|]. apply Lo. exact Hi.
  - intros i Hi. specialize (G i Hi). destruct (ext_ltb _ _) eqn:X; [|reflexivity]. apply (pert_nth_lt logp us j i) in X; try assumption. lra.
  - intros i Hi. apply (pert_nth_lt logp us i j); try assumption; [lia|]. apply Lo. exact Hi.
Qed.
Lemma c46_support_proof : forall logp us j, proper logp -> length us = length logp -> open_unit us ->
  (exists r, In (EF r) logp) -> gumbel_max logp us = Ok j -> exists r, nth j logp ENI = EF r.
Proof.
  intros logp us j P L U [r Hr] H. apply c46_race_proof in H as (J & G & _); try assumption. apply (In_nth _ _ ENI) in Hr as (i & Hi & E).
  specialize (G i Hi). unfold pw in G. rewrite E in G. unfold proper in P. rewrite Forall_forall in P. destruct (P (nth j logp ENI)) as [X|X]; [apply nth_In; assumption| |exact X].
  rewrite X in G. simpl in G. unfold open_unit in U. rewrite Forall_forall in U. pose proof (neg_ln_pos (nth j us 0) ltac:(apply U, nth_In; lia)). pose proof (exp_pos r). nra.
Qed.
Lemma c46_total_proof : forall logp us, logp <> [] -> length us = length logp -> exists j, gumbel_max logp us = Ok j /\ (j < length logp)%nat.
Proof.
  intros [|a t] [|u us] H L; try (simpl in L; lia); [congruence|]. unfold gumbel_max. cbn [combine map np_argmax]. eexists; split; [reflexivity|].
  pose proof (amax_range (map perturbed (combine t us)) 1 0 (perturbed (a, u)) ltac:(lia)) as X. rewrite map_length, combine_length in X. simpl in L |- *. lia.
Qed.
Lemma amax_nan l : forall i best b, is_nan b = true \/ In ENaN l -> 
  (amax i best b l = best /\ is_nan b = true) \/ (exists t, amax i best b l = (i + t)%nat /\ nth_error l t = Some ENaN /\ is_nan b = false).
Proof.
  induction l as [|x t IH]; intros i best b H; simpl; [destruct H as [H|[]]; left; auto|]. destruct (is_nan b) eqn:B; [left; auto|]. destruct H as [H|H]; [discriminate|].
  destruct (is_nan x) eqn:X; [right; exists 0%nat; split; [lia|]; destruct x; try discriminate; auto|].
  destruct H as [->|H]; [discriminate|]. right. destruct (ext_ltb b x).
  - destruct (IH (S i) i x (or_intror H)) as [[_ A]|(q & A & B' & C)]; [congruence|]. exists (S q). split; [rewrite A; lia|]. auto.
  - destruct (IH (S i) best b (or_intror H)) as [[_ A]|(q & A & B' & C)]; [congruence|]. exists (S q). split; [rewrite A; lia|]. auto.
Qed.
Lemma pert_nan_iff a u : 0 < u < 1 -> (perturbed (a, u) = ENaN <-> a = ENaN).
Proof.
  intros H. unfold perturbed. simpl. replace (rltb 0 u) with true by (symmetry; apply rltb_spec; lra). simpl.
  replace (rltb 0 (- ln u)) with true by (symmetry; apply rltb_spec, neg_ln_pos, H). destruct a; simpl; split; auto; discriminate.
Qed.
Lemma c46_nan_proof : forall logp us j, length us = length logp -> open_unit us -> In ENaN logp -> gumbel_max logp us = Ok j -> nth j logp ENI = ENaN.
Proof.
  intros logp us j L U H G. unfold gumbel_max in G. unfold open_unit in U. rewrite Forall_forall in U. apply (In_nth _ _ ENI) in H as (i & Hi & E).
  assert (N : nth i (map perturbed (combine logp us)) ENaN = ENaN) by (rewrite nth_combine_pert by assumption; apply pert_nan_iff; [apply U, nth_In; lia|exact E]).
  assert (LL : length (map perturbed (combine logp us)) = length logp) by (rewrite map_length, combine_length; lia).
  assert (F : forall q, (q < length logp)%nat -> nth q (map perturbed (combine logp us)) ENaN = ENaN -> nth q logp ENI = ENaN).
  { intros q Hq X. rewrite nth_combine_pert in X by assumption. apply pert_nan_iff in X; [exact X|apply U, nth_In; lia]. }
  destruct (map perturbed (combine logp us)) as [|b t] eqn:M; [simpl in LL; lia|]. simpl in G. injection G as <-.
  destruct (amax_nan t 1 0 b) as [[A B]|(q & A & B & C)].
  - destruct i; [simpl in N; subst b; left; reflexivity|]. right. simpl in N. rewrite <- N. apply nth_In. simpl in LL. lia.
  - rewrite A. apply F; [simpl in LL; lia|]. destruct b; try discriminate. reflexivity.
  - rewrite A. cbn [Nat.add]. apply F; [assert (q < length t)%nat by (apply nth_error_Some; congruence); simpl in LL; lia|]. simpl. apply nth_error_nth. exact B.
Qed.
