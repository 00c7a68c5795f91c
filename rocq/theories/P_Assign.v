(* C21, C22. *)
From Coq Require Import Lqa.
From Verif Require Import Prelude Numpy Rng M_Weights M_Float S_Weights S_Assign S_Draws P_Lists P_Hoare P_Wp P_Inv.
Open Scope Q_scope.

(* counting a downward-closed predicate *)
Lemma filter_prefix {A} (P : A -> bool) dflt : forall l,
  (forall i k, (i <= k < length l)%nat -> P (nth k l dflt) = true -> P (nth i l dflt) = true) ->
  forall j, (j <= length l)%nat ->
  (length (filter P l) = j <->
   (forall i, (i < j)%nat -> P (nth i l dflt) = true) /\ ((j < length l)%nat -> P (nth j l dflt) = false)).
Proof.
  induction l as [|a t IH]; intros H j Hj.
  - simpl in *. assert (j = 0%nat) by lia. subst. split; [intros _; split; [intros; lia|intros; lia]|reflexivity].
  - assert (Ht : forall i k, (i <= k < length t)%nat -> P (nth k t dflt) = true -> P (nth i t dflt) = true).
    { intros i k Hik. apply (H (S i) (S k)). simpl; lia. }
    cbn [filter]. destruct (P a) eqn:E.
    + cbn [length]. destruct j as [|j].
      * split; [discriminate|]. intros [_ F]. specialize (F ltac:(simpl; lia)). simpl in F. congruence.
      * simpl in Hj. specialize (IH Ht j ltac:(lia)). split.
        -- intros X. injection X as X. apply IH in X as [X1 X2]. split.
           ++ intros [|i] Hi; [exact E|]. simpl. apply X1; lia.
           ++ simpl. intros Hl. apply X2. lia.
        -- intros [X1 X2]. f_equal. apply IH. split.
           ++ intros i Hi. apply (X1 (S i)); lia.
           ++ intros Hl. apply X2. simpl; lia.
    + assert (N : filter P t = []).
      { assert (forall x, In x t -> P x = false).
        { intros x Hx. destruct (In_nth t x dflt Hx) as (k & Hk & <-). destruct (P (nth k t dflt)) eqn:E2; [|reflexivity].
          pose proof (H 0%nat (S k) ltac:(simpl; lia) E2) as X. simpl in X. congruence. }
        clear - H0. induction t as [|b t IHt]; [reflexivity|]. simpl. rewrite (H0 b) by (left; reflexivity). apply IHt. intros; apply H0; right; assumption. }
      rewrite N. simpl. destruct j as [|j].
      * split; [|reflexivity]. intros _. split; [intros; lia|intros _; exact E].
      * split; [discriminate|]. intros [X _]. specialize (X 0%nat ltac:(lia)). simpl in X. congruence.
Qed.

Fixpoint csum (acc : Q) (l : list Q) : list Q :=
  match l with [] => [] | x :: t => (acc + x) :: csum (acc + x) t end.
Lemma ocumsum_some l : forall acc, ocumsum_from (Some acc) (map Some l) = map Some (csum acc l).
Proof. induction l as [|x t IH]; intros acc; simpl; [reflexivity|]. rewrite IH. reflexivity. Qed.
Lemma ocumsum_none l : ocumsum_from (Some 0) (map (fun _ : Q => None) l) = map (fun _ => None) l.
Proof.
  assert (H : forall l : list Q, ocumsum_from None (map (fun _ => None) l) = map (fun _ => None) l).
  { induction l0 as [|x t IH]; simpl; [reflexivity|]. rewrite IH. reflexivity. }
  destruct l; simpl; [reflexivity|]. rewrite H. reflexivity.
Qed.
Lemma csum_length l : forall acc, length (csum acc l) = length l.
Proof. induction l; intros; simpl; auto. Qed.
Lemma csum_nth l : forall acc j, (j < length l)%nat -> nth j (csum acc l) 0 == acc + qtotal (firstn (S j) l).
Proof.
  induction l as [|x t IH]; intros acc j Hj; [simpl in Hj; lia|]. cbn [csum]. destruct j as [|j].
  - simpl. unfold qtotal; simpl. ring.
  - cbn [nth]. rewrite IH by (simpl in Hj; lia). cbn [firstn]. unfold qtotal. cbn [fold_right]. ring.
Qed.
Lemma qtotal_div l c : ~ c == 0 -> qtotal (map (fun x => x / c) l) == qtotal l / c.
Proof. intros H. induction l as [|x t IH]; simpl; unfold qtotal in *; simpl; [field; assumption|]. rewrite IH. field; assumption. Qed.

Lemma normalized_pos w : 0 < qtotal w -> normalized w = map Some (map (fun x => x / qsum w) w).
Proof.
  intros H. unfold normalized. rewrite map_map. apply map_ext. intros x.
  destruct (Qeq_bool (qsum w) 0) eqn:E; [|reflexivity]. apply Qeq_bool_iff in E. rewrite qsum_total in E. lra.
Qed.
Definition ncum (w : list Q) : list Q := csum 0 (map (fun x => x / qsum w) w).
Lemma norm_cum_pos w : 0 < qtotal w -> norm_cum w = map Some (ncum w).
Proof. intros H. unfold norm_cum. rewrite normalized_pos by assumption. apply ocumsum_some. Qed.
Lemma ncum_length w : length (ncum w) = length w.
Proof. unfold ncum. rewrite csum_length, map_length. reflexivity. Qed.
Lemma ncum_nth w j : 0 < qtotal w -> (j < length w)%nat -> nth j (ncum w) 0 == share w (S j).
Proof.
  intros H Hj. unfold ncum. rewrite csum_nth by (rewrite map_length; assumption).
  rewrite firstn_map. rewrite qtotal_div by (rewrite qsum_total; lra). unfold share. rewrite (qsum_total w). ring.
Qed.
Lemma qtotal_firstn_mono w : nonneg w -> forall i j, (i <= j)%nat -> qtotal (firstn i w) <= qtotal (firstn j w).
Proof.
  induction 1 as [|x t Hx Ht IH]; intros i j Hij; [rewrite !firstn_nil; lra|].
  destruct i as [|i], j as [|j]; try lia; simpl.
  - lra.
  - unfold qtotal at 1; simpl. assert (0 <= qtotal (firstn j t)) by (apply qtotal_nonneg, Forall_firstn; assumption). unfold qtotal in *. simpl. lra.
  - unfold qtotal; simpl. specialize (IH i j ltac:(lia)). unfold qtotal in IH. lra.
Qed.
Lemma Qdiv_le a b c : 0 < c -> a <= b -> a / c <= b / c.
Proof. intros Hc H. unfold Qdiv. apply Qmult_le_compat_r; [assumption|]. apply Qlt_le_weak, Qinv_lt_0_compat; assumption. Qed.
Lemma share_mono w i j : nonneg w -> 0 < qtotal w -> (i <= j)%nat -> share w i <= share w j.
Proof. intros. unfold share. apply Qdiv_le; [assumption|]. apply qtotal_firstn_mono; assumption. Qed.
Lemma share_all w : 0 < qtotal w -> share w (length w) == 1.
Proof. intros H. unfold share. rewrite firstn_all. field. lra. Qed.
Lemma share_step w j : 0 < qtotal w -> share w (S j) - share w j == nth j w 0 / qtotal w.
Proof.
  intros H. unfold share.
  assert (E : qtotal (firstn (S j) w) == qtotal (firstn j w) + nth j w 0).
  { clear H. revert j. induction w as [|x t IH]; intros j.
    - rewrite !firstn_nil. destruct j; unfold qtotal; simpl; ring.
    - destruct j as [|j]; [unfold qtotal; simpl; ring|]. change (x + qtotal (firstn (S j) t) == (x + qtotal (firstn j t)) + nth j t 0). rewrite (IH j). ring. }
  rewrite E. field. lra.
Qed.

(* nothing below u after NaN *)
Lemma assign_zero w u : qtotal w == 0 -> assign_label w u = 0%nat.
Proof.
  intros H. unfold assign_label, norm_cum, normalized.
  assert (E : Qeq_bool (qsum w) 0 = true) by (apply Qeq_bool_iff; rewrite qsum_total; assumption). rewrite E.
  rewrite ocumsum_none. induction w as [|x t IH]; [reflexivity|].
  clear. induction (x :: t); simpl; auto.
Qed.

Lemma assign_pos w u : nonneg w -> 0 < qtotal w ->
  assign_label w u = length (filter (fun c => qltb c u) (ncum w)).
Proof.
  intros Hw Ht. unfold assign_label. rewrite norm_cum_pos by assumption.
  induction (ncum w) as [|c t IH]; simpl; [reflexivity|]. destruct (qltb c u); simpl; congruence.
Qed.
Lemma c21_iff_proof w u j : nonneg w -> 0 < qtotal w -> u < 1 -> (j < length w)%nat ->
  (assign_label w u = j <-> u <= share w (S j) /\ (j = 0%nat \/ share w j < u)).
Proof.
  intros Hw Ht Hu Hj. rewrite assign_pos by assumption.
  assert (M : forall i k, (i <= k < length (ncum w))%nat -> qltb (nth k (ncum w) 0) u = true -> qltb (nth i (ncum w) 0) u = true).
  { rewrite ncum_length. intros i k Hik Hk. apply qltb_lt. apply qltb_lt in Hk. rewrite ncum_nth in * by (assumption || lia).
    pose proof (share_mono w (S i) (S k) Hw Ht ltac:(lia)). lra. }
  rewrite (filter_prefix _ 0 _ M j) by (rewrite ncum_length; lia). rewrite ncum_length. split.
  - intros [H1 H2]. split.
    + specialize (H2 Hj). apply qltb_ge in H2. rewrite ncum_nth in H2 by assumption. exact H2.
    + destruct j as [|j]; [left; reflexivity|right]. specialize (H1 j ltac:(lia)). apply qltb_lt in H1. rewrite ncum_nth in H1 by (assumption || lia). exact H1.
  - intros [H1 H2]. split.
    + intros i Hi. destruct H2 as [->|H2]; [lia|]. apply qltb_lt. rewrite ncum_nth by (assumption || lia).
      pose proof (share_mono w (S i) j Hw Ht ltac:(lia)). lra.
    + intros _. apply qltb_ge. rewrite ncum_nth by assumption. exact H1.
Qed.
Lemma c21_range_proof w u : nonneg w -> 0 < qtotal w -> u < 1 -> (assign_label w u < length w)%nat.
Proof.
  intros Hw Ht Hu. rewrite assign_pos by assumption.
  assert (L : (length (filter (fun c => qltb c u) (ncum w)) <= length w)%nat).
  { rewrite <- (ncum_length w). clear. induction (ncum w); simpl; [lia|]. destruct (qltb a u); simpl; lia. }
  destruct (Nat.eq_dec (length (filter (fun c => qltb c u) (ncum w))) (length w)) as [E|E]; [|lia].
  exfalso.
  assert (Hl : (0 < length w)%nat) by (destruct w; [unfold qtotal in Ht; simpl in Ht; lra|simpl; lia]).
  assert (Hf : Forall (fun c => qltb c u = true) (ncum w)).
  { rewrite <- (ncum_length w) in E. clear - E. induction (ncum w) as [|c t IH]; [constructor|]. simpl in E.
    destruct (qltb c u) eqn:Ec; simpl in E; [constructor; [assumption|apply IH; lia]|].
    assert (length (filter (fun c0 => qltb c0 u) t) <= length t)%nat by (clear; induction t as [|b t IH]; simpl; [lia|destruct (qltb b u); simpl; lia]). lia. }
  rewrite Forall_forall in Hf.
  specialize (Hf (nth (length w - 1) (ncum w) 0) ltac:(apply nth_In; rewrite ncum_length; lia)).
  apply qltb_lt in Hf. rewrite ncum_nth in Hf by (assumption || lia). replace (S (length w - 1)) with (length w) in Hf by lia.
  rewrite share_all in Hf by assumption. lra.
Qed.
Lemma c21_positive_proof w u : nonneg w -> 0 < qtotal w -> 0 < u -> u < 1 -> 0 < nth (assign_label w u) w 0.
Proof.
  intros Hw Ht H0 Hu. pose proof (c21_range_proof w u Hw Ht Hu) as R.
  destruct (proj1 (c21_iff_proof w u _ Hw Ht Hu R) eq_refl) as [H1 H2].
  pose proof (share_step w (assign_label w u) Ht) as S.
  assert (P : 0 < nth (assign_label w u) w 0 / qtotal w).
  { rewrite <- S. destruct H2 as [E|H2]; [|lra]. rewrite E in *. unfold share at 2. cbn [firstn].
    assert (Z : qtotal [] / qtotal w == 0) by (unfold qtotal at 1; simpl; field; lra). rewrite Z. lra. }
  assert (nth (assign_label w u) w 0 == nth (assign_label w u) w 0 / qtotal w * qtotal w) as -> by (field; lra).
  apply Qmult_lt_0_compat; assumption.
Qed.

Lemma unif_draws_answers o k : forall g, fst (unif_draws o (repeat (0, 1) k) g) = unif_answers o g k.
Proof. induction k; intros g; simpl; [reflexivity|]. rewrite IHk. reflexivity. Qed.
Lemma unif_answers_length o k : forall g, length (unif_answers o g k) = k.
Proof. induction k; intros; simpl; auto. Qed.
Lemma unif_reqs k : map (fun x => runif (fst x) (snd x)) (repeat (0, 1) k) = repeat (RUnif 0 1) k.
Proof. induction k; simpl; [reflexivity|]. rewrite IHk. reflexivity. Qed.
Lemma unif_answers_range o k : valid_oracle o -> forall g, Forall (fun u => 0 <= u /\ u < 1) (unif_answers o g k).
Proof.
  intros V. induction k; intros g; simpl; constructor; [|apply IHk].
  apply (vo_unif o V). reflexivity.
Qed.
Lemma c21_call_proof o s g k : (0 <= k)%Z ->
  wm_random_assignment (SInt k) o s g =
    (Ok (map (assign_label (w s)) (unif_answers o g (Z.to_nat k))), s, g ++ repeat (RUnif 0 1) (Z.to_nat k)).
Proof.
  intros H. unfold wm_random_assignment. replace (k <? 0)%Z with false by (symmetry; apply Z.ltb_ge; exact H).
  unfold bind, unif_many, get, ret. rewrite unif_draws_log, unif_reqs, unif_draws_answers. reflexivity.
Qed.
Lemma c21_call_range_proof o s g k : valid_oracle o -> (0 <= k)%Z -> nonneg (w s) -> 0 < qtotal (w s) ->
  exists ls, wm_random_assignment (SInt k) o s g = (Ok ls, s, g ++ repeat (RUnif 0 1) (Z.to_nat k)) /\
    length ls = Z.to_nat k /\ Forall (fun j => (j < length (w s))%nat) ls.
Proof.
  intros V H Hw Ht. eexists. split; [apply c21_call_proof; assumption|]. split.
  - rewrite map_length, unif_answers_length. reflexivity.
  - apply Forall_forall. intros j Hj. apply in_map_iff in Hj as (u & <- & Hu).
    pose proof (unif_answers_range o (Z.to_nat k) V g) as R. rewrite Forall_forall in R. destruct (R u Hu).
    apply c21_range_proof; assumption.
Qed.
Lemma c22_vec_proof w : nonneg w -> 0 < qtotal w ->
  exists x c, normalized w = map Some x /\ norm_cum w = map Some c /\
    length x = length w /\ length c = length w /\
    prob x /\ (forall j, nth j x 0 * qtotal w == nth j w 0) /\
    (forall i k, (i <= k < length w)%nat -> nth i c 0 <= nth k c 0) /\
    (forall j, (j < length w)%nat -> nth j c 0 == qtotal (firstn (S j) x)) /\
    nth (length w - 1) c 0 == 1.
Proof.
  intros Hw Ht. exists (map (fun x => x / qsum w) w), (ncum w).
  assert (Hl : (0 < length w)%nat) by (destruct w; [unfold qtotal in Ht; simpl in Ht; lra|simpl; lia]).
  assert (Hq : 0 < qsum w) by (rewrite qsum_total; assumption).
  split; [apply normalized_pos; assumption|]. split; [apply norm_cum_pos; assumption|].
  split; [apply map_length|]. split; [apply ncum_length|]. split; [split|].
  - apply Forall_forall. intros y Hy. apply in_map_iff in Hy as (x & <- & Hx). unfold nonneg in Hw. rewrite Forall_forall in Hw.
    apply Qle_shift_div_l; [assumption|]. specialize (Hw x Hx). lra.
  - rewrite qtotal_div by lra. rewrite (qsum_total w). field. lra.
  - split; [|split; [|split]].
    + intros j. destruct (Nat.lt_ge_cases j (length w)) as [L|L].
      * rewrite (nth_indep _ 0 (0 / qsum w)) by (rewrite map_length; assumption). rewrite (map_nth (fun x => x / qsum w)).
        rewrite <- (qsum_total w). field. lra.
      * rewrite !nth_overflow by (rewrite ?map_length; assumption). ring.
    + intros i k Hik. rewrite !ncum_nth by (assumption || lia). apply share_mono; (assumption || lia).
    + intros j Hj. unfold ncum. rewrite csum_nth by (rewrite map_length; assumption). ring.
    + rewrite ncum_nth by (assumption || lia). replace (S (length w - 1)) with (length w) by lia. apply share_all; assumption.
Qed.
Lemma c22_history_proof c parg narg o s0 g0 ops : valid_oracle o ->
  (forall x al a b pm, c = CBIB x al a b pm -> in01 parg) ->
  new_ws c parg narg o = Ok (s0, g0) ->
  forall w', w' = w (fst (run_ops c ops o s0 g0)) -> 0 < qtotal w' ->
  exists x cc, normalized w' = map Some x /\ norm_cum w' = map Some cc /\
    prob x /\ (forall j, nth j x 0 * qtotal w' == nth j w' 0) /\
    (forall i k, (i <= k < length w')%nat -> nth i cc 0 <= nth k cc 0) /\
    nth (length w' - 1) cc 0 == 1.
Proof.
  intros V Hp Hn w' E Ht. pose proof (c01_proof c parg narg o s0 g0 ops V Hp Hn) as [N _]. rewrite <- E in N.
  destruct (c22_vec_proof w' N Ht) as (x & cc & A1 & A2 & _ & _ & A3 & A4 & A5 & _ & A6).
  exists x, cc. auto 10.
Qed.
Lemma c22_zero_proof w : qtotal w == 0 -> normalized w = repeat None (length w) /\ norm_cum w = repeat None (length w).
Proof.
  intros H. assert (E : normalized w = map (fun _ => None) w).
  { unfold normalized. apply map_ext. intros x. rewrite (proj2 (Qeq_bool_iff _ _)); [reflexivity|]. rewrite qsum_total; assumption. }
  assert (R : forall l : list Q, map (fun _ => @None Q) l = repeat None (length l)) by (induction l; simpl; congruence).
  split; [rewrite E; apply R|]. unfold norm_cum. rewrite E, ocumsum_none. apply R.
Qed.
Lemma c21_zero_draw : exists w, nonneg w /\ 0 < qtotal w /\ nth (assign_label w 0) w 0 == 0.
Proof. exists [0; 1]. split; [repeat constructor; discriminate|]. split; reflexivity. Qed.
Lemma c21_none o s g : wm_random_assignment SNone o s g = (Err AxisError, s, g ++ [RUnif 0 1]).
Proof. reflexivity. Qed.
Lemma c21_float : exists dd k, (0 <= k < 2 ^ 53)%Z /\
    (length (f_frequencies dd) <= f_assign_label (f_frequencies dd) (f_uniform k))%nat.
Proof.
  exists [0; 0; 0; 0; 0; 1; 2; 3; 4]%nat, (2 ^ 53 - 1)%Z. split; [lia|].
  replace (f_assign_label (f_frequencies [0; 0; 0; 0; 0; 1; 2; 3; 4]%nat) (f_uniform (2 ^ 53 - 1))) with 5%nat by (vm_compute; reflexivity).
  vm_compute. lia.
Qed.
