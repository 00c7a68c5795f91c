(* List and rational lemmas about the numpy primitives. *)
From Coq Require Import Lqa Setoid.
From Verif Require Import Prelude Numpy S_Weights.
Open Scope Q_scope.

Lemma qsum_total l : qsum l = qtotal l.
Proof. induction l; simpl; [reflexivity|]. unfold qtotal in *; simpl; rewrite IHl; reflexivity. Qed.

Lemma qsum_app a b : qsum (a ++ b) == qsum a + qsum b.
Proof. induction a; simpl; [ring|]. rewrite IHa; ring. Qed.

Lemma qtotal_app a b : qtotal (a ++ b) == qtotal a + qtotal b.
Proof. rewrite <- !qsum_total; apply qsum_app. Qed.

Lemma qproduct_app a b : qproduct (a ++ b) == qproduct a * qproduct b.
Proof. unfold qproduct; induction a; simpl; [ring|]. rewrite IHa; ring. Qed.

Lemma qsum_nonneg l : Forall (fun x => 0 <= x) l -> 0 <= qsum l.
Proof. induction 1; simpl; lra. Qed.

Lemma qtotal_nonneg l : Forall (fun x => 0 <= x) l -> 0 <= qtotal l.
Proof. rewrite <- qsum_total; apply qsum_nonneg. Qed.

(* stick-breaking, recursively *)
Fixpoint sfrom (acc : Q) (v : list Q) : list Q :=
  match v with [] => [] | x :: t => (x * acc) :: sfrom (acc * (1 - x)) t end.

Lemma qmul2_sfrom v : forall a c,
  qmul2 v (cumprod_from a (c :: map (fun x => 1 - x) (removelast v))) = sfrom (a * c) v.
Proof.
  induction v as [|x t IH]; intros a c; [reflexivity|].
  destruct t as [|y t]; [reflexivity|].
  specialize (IH (a * c) (1 - x)).
  change (removelast (x :: y :: t)) with (x :: removelast (y :: t)).
  cbn [map cumprod_from qmul2 sfrom].
  cbn [map cumprod_from qmul2 sfrom] in IH. rewrite <- IH. reflexivity.
Qed.

Lemma stick_sfrom v : stick v = sfrom (1 * 1) v.
Proof. unfold stick, cumprod; apply qmul2_sfrom. Qed.

Fixpoint acc_after (acc : Q) (v : list Q) : Q :=
  match v with [] => acc | x :: t => acc_after (acc * (1 - x)) t end.

Lemma acc_after_remaining v : forall acc, acc_after acc v == acc * remaining v.
Proof.
  unfold remaining. induction v as [|x t IH]; intros acc; simpl.
  - unfold qproduct; simpl; ring.
  - rewrite IH. unfold qproduct; simpl; ring.
Qed.

Lemma sfrom_app u t : forall acc, sfrom acc (u ++ t) = sfrom acc u ++ sfrom (acc_after acc u) t.
Proof. induction u as [|x u IH]; intros acc; simpl; [reflexivity|]. rewrite IH; reflexivity. Qed.

Lemma sfrom_length v : forall acc, length (sfrom acc v) = length v.
Proof. induction v; intros; simpl; auto. Qed.

Lemma stick_length v : length (stick v) = length v.
Proof. rewrite stick_sfrom; apply sfrom_length. Qed.

Lemma stick_extends u t : extends (stick u) (stick (u ++ t)).
Proof. rewrite !stick_sfrom, sfrom_app. unfold extends; eauto. Qed.

Lemma remaining_cons x v : remaining (x :: v) == (1 - x) * remaining v.
Proof. unfold remaining, qproduct; simpl; reflexivity. Qed.

Lemma remaining_app u v : remaining (u ++ v) == remaining u * remaining v.
Proof. unfold remaining. rewrite map_app. apply qproduct_app. Qed.

Lemma sfrom_sum v : forall acc, qsum (sfrom acc v) == acc * (1 - remaining v).
Proof.
  induction v as [|x t IH]; intros acc; simpl.
  - unfold remaining, qproduct; simpl; ring.
  - rewrite IH, remaining_cons. ring.
Qed.

Lemma stick_sum v : qsum (stick v) == 1 - remaining v.
Proof. rewrite stick_sfrom, sfrom_sum. ring. Qed.

Lemma sfrom_nth v : forall acc j, (j < length v)%nat ->
  nth j (sfrom acc v) 0 == acc * (nth j v 0 * qproduct (map (fun x => 1 - x) (firstn j v))).
Proof.
  induction v as [|x t IH]; intros acc j Hj; simpl in Hj; [lia|].
  destruct j as [|j]; simpl.
  - unfold qproduct; simpl; ring.
  - rewrite IH by lia. unfold qproduct; simpl; ring.
Qed.

Lemma stick_image_stick v : stick_image v (stick v).
Proof.
  split; [apply stick_length|]. intros j Hj.
  rewrite stick_sfrom, sfrom_nth by assumption. ring.
Qed.

Lemma remaining_in01 v : Forall in01 v -> 0 <= remaining v <= 1.
Proof.
  induction 1 as [|x t [H0 H1] _ IH]; simpl.
  - unfold remaining, qproduct; simpl; lra.
  - rewrite remaining_cons. nra.
Qed.

Lemma sfrom_nonneg v : forall acc, 0 <= acc -> Forall in01 v -> Forall (fun x => 0 <= x) (sfrom acc v).
Proof.
  induction v as [|x t IH]; intros acc Ha H; simpl; constructor; inversion H; subst; destruct H2.
  - nra.
  - apply IH; [nra|assumption].
Qed.

Lemma stick_subprob v : Forall in01 v -> subprob (stick v).
Proof.
  intros H; split.
  - rewrite stick_sfrom; apply sfrom_nonneg; [lra|assumption].
  - rewrite <- qsum_total, stick_sum. pose proof (remaining_in01 v H). lra.
Qed.

Lemma Forall_repeat {A} (P : A -> Prop) x n : P x -> Forall P (repeat x n).
Proof. intros H; induction n; simpl; constructor; auto. Qed.

Lemma Forall_firstn {A} (P : A -> Prop) n l : Forall P l -> Forall P (firstn n l).
Proof. intros H; revert n; induction H; intros [|n]; simpl; constructor; auto. Qed.
Lemma Forall_skipn {A} (P : A -> Prop) n l : Forall P l -> Forall P (skipn n l).
Proof. intros H; revert n; induction H; intros [|n]; simpl; auto. Qed.
Lemma Forall_py_take {A} (P : A -> Prop) z l : Forall P l -> Forall P (py_take z l).
Proof. intros H; unfold py_take; destruct (0 <=? z)%Z; apply Forall_firstn; assumption. Qed.

Lemma Forall_gather {A} (P : A -> Prop) x : Forall P x -> forall idx r, gather x idx = Some r -> Forall P r.
Proof.
  intros H; induction idx as [|i t IH]; simpl; intros r E.
  - injection E as <-; constructor.
  - destruct (nth_error x i) eqn:E1; [|discriminate]. destruct (gather x t) eqn:E2; [|discriminate].
    injection E as <-. constructor; [|eauto]. rewrite Forall_forall in H; apply H. eapply nth_error_In; eauto.
Qed.

Lemma gather_length {A} (x : list A) : forall idx r, gather x idx = Some r -> length r = length idx.
Proof.
  induction idx as [|i t IH]; simpl; intros r E.
  - injection E as <-; reflexivity.
  - destruct (nth_error x i); [|discriminate]. destruct (gather x t) eqn:E2; [|discriminate].
    injection E as <-. simpl; f_equal; eauto.
Qed.

Lemma gather_some {A} (x : list A) : forall idx, Forall (fun i => (i < length x)%nat) idx ->
  exists r, gather x idx = Some r.
Proof.
  induction idx as [|i t IH]; simpl; intros H; [eauto|].
  inversion H; subst. destruct (IH H3) as [r ->].
  destruct (nth_error x i) eqn:E; [eauto|]. apply nth_error_None in E. lia.
Qed.

Lemma gather_none {A} (x : list A) : forall idx, gather x idx = None <-> Exists (fun i => (length x <= i)%nat) idx.
Proof.
  induction idx as [|i t IH]; simpl.
  - split; [discriminate|inversion 1].
  - destruct (nth_error x i) eqn:E.
    + destruct (gather x t) eqn:E2.
      * split; [discriminate|]. intros H; inversion H; subst.
        -- apply nth_error_None in H1; congruence.
        -- apply IH in H1; discriminate.
      * split; auto. intros _. right. apply IH; reflexivity.
    + split; auto. intros _. left. apply nth_error_None; assumption.
Qed.

Lemma gather_nth (x : list Q) : forall idx r, gather x idx = Some r ->
  r = map (fun i => nth i x 0) idx.
Proof.
  induction idx as [|i t IH]; simpl; intros r E.
  - injection E as <-; reflexivity.
  - destruct (nth_error x i) eqn:E1; [|discriminate]. destruct (gather x t) eqn:E2; [|discriminate].
    injection E as <-. f_equal; auto. symmetry. apply nth_error_nth; assumption.
Qed.

(* maximum *)
Lemma nmax_ge d : Forall (fun x => (x <= nmax d)%nat) d.
Proof.
  induction d as [|x t IH]; simpl; constructor; [lia|].
  eapply Forall_impl; [|exact IH]; simpl; intros; lia.
Qed.
Lemma nmax_in d : d <> [] -> In (nmax d) d.
Proof.
  induction d as [|x t IH]; [congruence|]. intros _. simpl.
  destruct t as [|y t]; [left; simpl; lia|].
  destruct (Nat.max_spec x (nmax (y :: t))) as [[_ ->]|[_ ->]]; [right; apply IH; discriminate|left; reflexivity].
Qed.
Lemma nmax_lub d b : Forall (fun x => (x <= b)%nat) d -> (nmax d <= b)%nat.
Proof. induction 1; simpl; lia. Qed.

(* counts *)
Lemma ncount_n_eq j d : ncount j d = n_eq j d.
Proof.
  unfold ncount, n_eq. induction d as [|x t IH]; simpl; [reflexivity|].
  destruct (Nat.eqb_spec j x), (Nat.eq_dec x j); try congruence; simpl; congruence.
Qed.

Lemma bincount_length d : d <> [] -> length (bincount d) = S (nmax d).
Proof. intros H; destruct d; [congruence|]. unfold bincount; rewrite map_length, seq_length; reflexivity. Qed.

Lemma bincount_eq d : d <> [] -> bincount d = map (fun j => n_eq j d) (seq 0 (S (nmax d))).
Proof.
  intros H; destruct d as [|x t]; [congruence|]. unfold bincount.
  apply map_ext; intros; apply ncount_n_eq.
Qed.

Lemma nsum_app a b : nsum (a ++ b) = (nsum a + nsum b)%nat.
Proof. induction a; simpl; lia. Qed.

Lemma nsum_rev a : nsum (rev a) = nsum a.
Proof. induction a; simpl; [reflexivity|]. rewrite nsum_app; simpl; lia. Qed.

Lemma ncumsum_from_length l : forall acc, length (ncumsum_from acc l) = length l.
Proof. induction l; intros; simpl; auto. Qed.

Lemma ncumsum_from_nth l : forall acc j, (j < length l)%nat ->
  nth j (ncumsum_from acc l) 0%nat = (acc + nsum (firstn (S j) l))%nat.
Proof.
  induction l as [|x t IH]; intros acc j H; simpl in H; [lia|].
  destruct j as [|j]; cbn [ncumsum_from nth].
  - simpl; lia.
  - rewrite IH by lia. simpl; lia.
Qed.

Lemma ncumsum_from_app a b : forall acc, ncumsum_from acc (a ++ b) = ncumsum_from acc a ++ ncumsum_from (acc + nsum a) b.
Proof.
  induction a as [|x t IH]; intros acc; simpl; [f_equal; lia|].
  rewrite IH. do 2 f_equal. f_equal; lia.
Qed.

(* reverse cumulative sums *)
Fixpoint suffix_sums (l : list nat) : list nat :=
  match l with [] => [] | _ :: t => nsum t :: suffix_sums t end.

Lemma suffix_sums_length l : length (suffix_sums l) = length l.
Proof. induction l; simpl; auto. Qed.

Lemma tail_counts_suffix l : l <> [] -> tail_counts l = suffix_sums l.
Proof.
  unfold tail_counts, ncumsum. induction l as [|x t IH]; [congruence|]. intros _.
  cbn [rev]. rewrite ncumsum_from_app. cbn [ncumsum_from].
  rewrite removelast_last.
  destruct t as [|y t].
  - reflexivity.
  - change (suffix_sums (x :: y :: t)) with (nsum (y :: t) :: suffix_sums (y :: t)). rewrite <- IH by discriminate.
    set (l := rev (y :: t)) in *.
    assert (Hl : l <> []).
    { unfold l; intros E; apply (f_equal (@length nat)) in E; rewrite rev_length in E; discriminate. }
    assert (E : ncumsum_from 0 l = removelast (ncumsum_from 0 l) ++ [nsum (y :: t)]).
    { rewrite (app_removelast_last 0%nat) at 1.
      - f_equal. f_equal.
        rewrite <- (nsum_rev (y :: t)). fold l. clearbody l; clear IH.
        destruct l as [|z l]; [congruence|].
        rewrite (app_removelast_last 0%nat Hl). rewrite ncumsum_from_app.
        cbn [ncumsum_from]. rewrite last_last, nsum_app. simpl. lia.
      - intros F; apply (f_equal (@length nat)) in F. rewrite ncumsum_from_length in F.
        destruct l; [congruence|discriminate]. }
    rewrite E at 1. rewrite rev_app_distr. simpl. reflexivity.
Qed.

Lemma tail_counts_length l : l <> [] -> length (tail_counts l) = length l.
Proof. intros; rewrite tail_counts_suffix by assumption; apply suffix_sums_length. Qed.

Lemma nsum_map_add {A} (f g : A -> nat) l : nsum (map (fun x => (f x + g x)%nat) l) = (nsum (map f l) + nsum (map g l))%nat.
Proof. induction l; simpl; lia. Qed.

Lemma n_gt_cons j x t : n_gt j (x :: t) = ((if Nat.ltb j x then 1 else 0) + n_gt j t)%nat.
Proof. unfold n_gt; simpl. destruct (Nat.ltb j x); reflexivity. Qed.
Lemma n_eq_cons j x t : n_eq j (x :: t) = ((if Nat.eqb x j then 1 else 0) + n_eq j t)%nat.
Proof. unfold n_eq; simpl. destruct (Nat.eq_dec x j), (Nat.eqb_spec x j); congruence || reflexivity. Qed.

Lemma nsum_indicator x a n : nsum (map (fun k => if Nat.eqb x k then 1%nat else 0%nat) (seq a n)) =
  if (a <=? x)%nat && (x <? a + n)%nat then 1%nat else 0%nat.
Proof.
  revert a; induction n as [|n IH]; intros a; cbn [seq map nsum].
  - destruct (Nat.leb_spec a x), (Nat.ltb_spec x (a + 0)); simpl; lia.
  - rewrite IH. destruct (Nat.eqb_spec x a), (Nat.leb_spec (S a) x), (Nat.leb_spec a x),
      (Nat.ltb_spec x (S a + n)), (Nat.ltb_spec x (a + S n)); simpl; lia.
Qed.

Lemma count_above d : forall j m, (nmax d <= j + m)%nat ->
  nsum (map (fun k => n_eq k d) (seq (S j) m)) = n_gt j d.
Proof.
  induction d as [|x t IH]; intros j m H.
  - unfold n_eq, n_gt; simpl. induction (seq (S j) m); simpl; auto.
  - simpl in H. rewrite n_gt_cons, <- (IH j m) by lia.
    rewrite (map_ext _ (fun k => ((if Nat.eqb x k then 1 else 0) + n_eq k t)%nat)) by (intros; apply n_eq_cons).
    rewrite nsum_map_add, nsum_indicator. f_equal.
    destruct (Nat.leb_spec (S j) x), (Nat.ltb_spec x (S j + m)), (Nat.ltb_spec j x); simpl; lia.
Qed.

Lemma suffix_sums_counts d : forall m j, (nmax d <= j + m)%nat ->
  suffix_sums (map (fun k => n_eq k d) (seq (S j) m)) = map (fun k => n_gt k d) (seq (S j) m).
Proof.
  induction m as [|m IH]; intros j H; [reflexivity|].
  cbn [seq map suffix_sums]. f_equal.
  - apply count_above; lia.
  - apply IH; lia.
Qed.

Lemma tail_counts_eq d : d <> [] -> tail_counts (bincount d) = map (fun j => n_gt j d) (seq 0 (S (nmax d))).
Proof.
  intros H. rewrite bincount_eq by assumption.
  rewrite tail_counts_suffix by discriminate.
  cbn [seq map suffix_sums]. f_equal.
  - apply count_above; lia.
  - apply suffix_sums_counts; lia.
Qed.

Lemma bincount_nonnil d : d <> [] -> bincount d <> [].
Proof. intros H E; apply (f_equal (@length nat)) in E; rewrite bincount_length in E by assumption; discriminate. Qed.

Lemma count_all d : nsum (bincount d) = length d.
Proof.
  destruct d as [|x t] eqn:Ed; [reflexivity|]. rewrite <- Ed.
  rewrite bincount_eq by congruence.
  assert (G : forall n d, (nmax d < n)%nat -> nsum (map (fun k => n_eq k d) (seq 0 n)) = length d).
  { clear. intros n; induction d as [|x t IH]; simpl; intros H.
    - induction (seq 0 n); simpl; auto.
    - rewrite (map_ext _ (fun k => ((if Nat.eqb x k then 1 else 0) + n_eq k t)%nat)) by (intros; apply n_eq_cons).
      rewrite nsum_map_add, nsum_indicator, IH by lia.
      destruct (Nat.leb_spec 0 x), (Nat.ltb_spec x (0 + n)); simpl; lia. }
  apply G; lia.
Qed.

Lemma nq_nonneg n : 0 <= nq n.
Proof. unfold nq, inject_Z, Qle; simpl; lia. Qed.
Lemma nq_S n : nq (S n) == nq n + 1.
Proof. unfold nq, inject_Z, Qeq, Qplus; simpl; lia. Qed.
Lemma nq_pos n : (0 < n)%nat -> 0 < nq n.
Proof. unfold nq, inject_Z, Qlt; simpl; lia. Qed.
Lemma nq_add a b : nq (a + b) == nq a + nq b.
Proof. unfold nq. rewrite Nat2Z.inj_add, inject_Z_plus. reflexivity. Qed.
Lemma qsum_map_nq l : qsum (map nq l) == nq (nsum l).
Proof. induction l; simpl; [reflexivity|]. rewrite IHl, nq_add. reflexivity. Qed.

Lemma qsum_map_div l c : qsum (map (fun y => y / c) l) == qsum l / c.
Proof. induction l; simpl; unfold Qdiv in *; [ring|]. rewrite IHl; ring. Qed.

Lemma qsum_repeat x n : qsum (repeat x n) == nq n * x.
Proof. induction n; simpl; [unfold nq; simpl; ring|]. rewrite IHn, nq_S; ring. Qed.

Lemma removelast_length {A} (l : list A) : length (removelast l) = pred (length l).
Proof. induction l as [|x t IH]; [reflexivity|]. destruct t; [reflexivity|]. simpl in *; rewrite IH; reflexivity. Qed.

Lemma Forall_removelast {A} (P : A -> Prop) l : Forall P l -> Forall P (removelast l).
Proof.
  induction 1 as [|x t Hx Ht IH]; simpl; [constructor|]. destruct t; constructor; auto.
Qed.

Lemma Forall_nset {A} (P : A -> Prop) j y (l : list A) :
  P y -> Forall P l -> Forall P (firstn j l ++ y :: skipn (S j) l).
Proof.
  intros Hy H. apply Forall_app; split; [apply Forall_firstn; assumption|].
  constructor; [assumption|apply Forall_skipn; assumption].
Qed.
