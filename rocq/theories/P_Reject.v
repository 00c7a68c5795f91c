(* Proofs about rejection sampling. *)
From Coq Require Import Lqa.
From Verif Require Import Prelude Numpy Rng M_Reject S_Oracle S_Reject P_Lists.
Open Scope Q_scope.

Lemma after_shift g max_y a b n : after (g ++ [runif a b; runif 0 max_y]) max_y a b n = after g max_y a b (S n).
Proof. induction n; [reflexivity|]. cbn [after] in *. rewrite IHn. reflexivity. Qed.
Lemma prop_x_shift o g max_y a b n : prop_x o (g ++ [runif a b; runif 0 max_y]) max_y a b n = prop_x o g max_y a b (S n).
Proof. unfold prop_x. rewrite after_shift. reflexivity. Qed.
Lemma prop_y_shift o g max_y a b n : prop_y o (g ++ [runif a b; runif 0 max_y]) max_y a b n = prop_y o g max_y a b (S n).
Proof. unfold prop_y. rewrite after_shift. reflexivity. Qed.
Lemma acc_shift o g max_y a b f n : accepted o (g ++ [runif a b; runif 0 max_y]) max_y a b f n = accepted o g max_y a b f (S n).
Proof. unfold accepted. rewrite prop_x_shift, prop_y_shift. reflexivity. Qed.
Lemma draw_pair {S A} (k : Q -> Q -> M S A) max_y a b o s g :
  (bind (unif1 a b) (fun x => bind (unif1 0 max_y) (fun y => k x y))) o s g =
  k (prop_x o g max_y a b 0) (prop_y o g max_y a b 0) o s (g ++ [runif a b; runif 0 max_y]).
Proof. unfold bind, unif1, prop_x, prop_y. cbn [after]. rewrite <- app_assoc. reflexivity. Qed.
Lemma rej_sem {S} f max_y a b o (s : S) fuel : forall g,
  (exists n, (n <= fuel)%nat /\ accepted o g max_y a b f n /\ (forall m, (m < n)%nat -> ~ accepted o g max_y a b f m) /\
     rejection_sample fuel f max_y a b o s g = (Ok (prop_x o g max_y a b n), s, after g max_y a b (Datatypes.S n))) \/
  ((forall m, (m <= fuel)%nat -> ~ accepted o g max_y a b f m) /\
     rejection_sample fuel f max_y a b o s g = (Diverge, s, after g max_y a b (Datatypes.S fuel))).
Proof.
  induction fuel as [|fuel IH]; intros g; unfold rejection_sample; rewrite draw_pair; cbn [rej_loop]; destruct (qltb _ _) eqn:E; unfold qltb in E.
  - right. split; [|reflexivity]. intros m Hm. replace m with 0%nat by lia. unfold accepted. apply negb_true_iff in E. intros X. apply Qle_bool_iff in X. congruence.
  - left. exists 0%nat. split; [lia|]. apply negb_false_iff, Qle_bool_iff in E. split; [exact E|]. split; [intros; lia|reflexivity].
  - specialize (IH (g ++ [runif a b; runif 0 max_y])). fold (@rejection_sample S fuel f max_y a b).
    assert (R0 : ~ accepted o g max_y a b f 0) by (apply negb_true_iff in E; intros X; apply Qle_bool_iff in X; congruence).
    destruct IH as [(n & L & A & B & R)|(A & R)].
    + left. exists (Datatypes.S n). split; [lia|]. rewrite acc_shift in A. split; [exact A|]. split.
      * intros [|m] Hm; [exact R0|]. rewrite <- acc_shift. apply B. lia.
      * etransitivity; [exact R|]. rewrite prop_x_shift, after_shift. reflexivity.
    + right. split; [|etransitivity; [exact R|]; rewrite after_shift; reflexivity]. intros [|m] Hm; [exact R0|]. rewrite <- acc_shift. apply A. lia.
  - left. exists 0%nat. split; [lia|]. apply negb_false_iff, Qle_bool_iff in E. split; [exact E|]. split; [intros; lia|reflexivity].
Qed.
Lemma c56_first_accepted_proof : forall fuel f max_y a b o g x g',
  rejection_sample fuel f max_y a b o tt g = (Ok x, tt, g') <->
  exists n, (n <= fuel)%nat /\ accepted o g max_y a b f n /\ (forall m, (m < n)%nat -> ~ accepted o g max_y a b f m) /\
    x = prop_x o g max_y a b n /\ g' = after g max_y a b (S n).
Proof.
  intros fuel f max_y a b o g x g'. destruct (rej_sem f max_y a b o tt fuel g) as [(n & L & A & B & R)|(A & R)]; rewrite R; split.
  - intros [= <- <-]. exists n. auto.
  - intros (n' & L' & A' & B' & -> & ->). assert (n' = n) as ->; [|reflexivity]. destruct (Nat.lt_trichotomy n n') as [X|[X|X]]; [destruct (B' n X A)|auto|destruct (B n' X A')].
  - discriminate.
  - intros (n' & L' & A' & _). destruct (A n' L' A').
Qed.
Lemma c56_runs_on_proof : forall fuel f max_y a b o g r g', rejection_sample fuel f max_y a b o tt g = (r, tt, g') ->
  (r = Diverge <-> forall m, (m <= fuel)%nat -> ~ accepted o g max_y a b f m) /\ forall e, r <> Err e.
Proof.
  intros fuel f max_y a b o g r g'. destruct (rej_sem f max_y a b o tt fuel g) as [(n & L & A & B & R)|(A & R)]; rewrite R; intros [= <- <-]; split; try discriminate; split; try discriminate; auto.
  intros H. destruct (H n L A).
Qed.
Lemma c56_range_proof : forall fuel f max_y a b o g x g', valid_oracle o -> a < b ->
  rejection_sample fuel f max_y a b o tt g = (Ok x, tt, g') -> a <= x /\ x < b.
Proof.
  intros fuel f max_y a b o g x g' V L H. apply c56_first_accepted_proof in H as (n & _ & _ & _ & -> & _). unfold prop_x.
  destruct (vo_unif o V (after g max_y a b n) (Qred a) (Qred b) ltac:(rewrite !Qred_correct; exact L)) as [X Y]. pose proof (Qred_correct a); pose proof (Qred_correct b); split; lra.
Qed.

(* ---- vectors ---- *)
Lemma unif_many_len {S} l o (s : S) g : exists v g', unif_many l o s g = (Ok v, s, g') /\ length v = length l /\ (forall lo hi n, l = repeat (lo, hi) n -> valid_oracle o -> lo < hi -> Forall (fun x => lo <= x /\ x < hi) v).
Proof.
  unfold unif_many. eexists _, _. split; [reflexivity|]. split.
  - revert g. induction l as [|[lo hi] t IH]; intros g; simpl; auto.
  - revert g. induction l as [|[lo' hi'] t IH]; intros g lo hi n E V L; simpl; [constructor|]. destruct n as [|n]; [discriminate|]. injection E as -> -> E. constructor; [|eapply IH; eauto].
    destruct (vo_unif o V g (Qred lo) (Qred hi) ltac:(rewrite !Qred_correct; exact L)) as [X Y]. pose proof (Qred_correct lo); pose proof (Qred_correct hi); split; lra.
Qed.
Lemma put_len m : forall x new, length m = length x -> length new = count_true m -> length (put m x new) = length x.
Proof.
  unfold count_true. induction m as [|[|] m IH]; intros [|v t] new L C; simpl in *; auto; try discriminate.
  destruct new as [|w new]; [discriminate|]. simpl. rewrite IH; auto.
Qed.
Lemma put_all (P : Q -> Prop) m : forall x new, Forall P x -> Forall P new -> Forall P (put m x new).
Proof.
  induction m as [|[|] m IH]; intros [|v t] new X N; simpl; try constructor.
  - destruct new as [|w new]; constructor; inversion N; subst; auto. apply IH; [inversion X; assumption|assumption].
  - inversion X; assumption.
  - apply IH; [inversion X; assumption|assumption].
Qed.
Lemma high_len f x y : length x = length y -> length (too_high f x y) = length x.
Proof. intros H. unfold too_high. rewrite map_length, combine_length. lia. Qed.
Lemma many_inv {S} f max_y a b o (s : S) fuel : forall x y g xs s' g', length x = length y ->
  rej_many_loop fuel f max_y a b x y o s g = (Ok xs, s', g') ->
  exists ys, length xs = length x /\ length ys = length x /\ (forall i, (i < length xs)%nat -> nth i ys 0 <= f (nth i xs 0)) /\
    (valid_oracle o -> a < b -> Forall (fun v => a <= v /\ v < b) x -> Forall (fun v => a <= v /\ v < b) xs) /\
    (valid_oracle o -> 0 < max_y -> Forall (fun v => 0 <= v /\ v < max_y) y -> Forall (fun v => 0 <= v /\ v < max_y) ys).
Proof.
  assert (D : forall x y, length x = length y -> existsb (fun b => b) (too_high f x y) = false -> forall i, (i < length x)%nat -> nth i y 0 <= f (nth i x 0)).
  { intros x y L E i Hi. destruct (Qlt_le_dec (f (nth i x 0)) (nth i y 0)) as [X|X]; [|exact X]. exfalso.
    assert (T : existsb (fun b => b) (too_high f x y) = true); [|congruence]. apply existsb_exists. exists true. split; [|reflexivity].
    unfold too_high. apply in_map_iff. exists (nth i x 0, nth i y 0). split.
    - simpl. unfold qltb. apply negb_true_iff. destruct (Qle_bool (nth i y 0) (f (nth i x 0))) eqn:Z; [|reflexivity]. apply Qle_bool_iff in Z. lra.
    - rewrite <- combine_nth by exact L. apply nth_In. rewrite combine_length. lia. }
  induction fuel as [|fuel IH]; intros x y g xs s' g' L H; cbn [rej_many_loop] in H; destruct (existsb _ _) eqn:E.
  - discriminate H.
  - injection H as <- <- <-. exists y. split; [reflexivity|]. split; [auto|]. split; [apply D; assumption|]. split; auto.
  - unfold bind in H. destruct (unif_many_len (repeat (a, b) (count_true (too_high f x y))) o s g) as (xn & g1 & H1 & L1 & R1). rewrite H1 in H. clear H1. rewrite repeat_length in L1.
    set (x' := put (too_high f x y) x xn) in *.
    assert (Lx : length x' = length x) by (apply put_len; [apply high_len; exact L|exact L1]).
    destruct (unif_many_len (repeat (0, max_y) (count_true (too_high f x' y))) o s g1) as (yn & g2 & H2 & L2 & R2). rewrite H2 in H. clear H2. rewrite repeat_length in L2.
    assert (Ly : length (put (too_high f x' y) y yn) = length y) by (apply put_len; [rewrite high_len; lia|exact L2]).
    apply IH in H as (ys & A1 & A2 & A3 & A4 & A5); [|lia]. exists ys. split; [lia|]. split; [lia|]. split; [exact A3|]. split.
    + intros V Lt F. apply A4; auto. apply put_all; [exact F|]. eapply R1; eauto.
    + intros V Lt F. apply A5; auto. apply put_all; [exact F|]. eapply R2; eauto.
  - injection H as <- <- <-. exists y. split; [reflexivity|]. split; [auto|]. split; [apply D; assumption|]. split; auto.
Qed.
Lemma c56_many_proof : forall fuel f max_y a b size o g xs g', rejection_sample_many fuel f max_y a b size o tt g = (Ok xs, tt, g') ->
  (0 <= size)%Z /\ exists ys, length xs = Z.to_nat size /\ length ys = Z.to_nat size /\
    (forall i, (i < length xs)%nat -> nth i ys 0 <= f (nth i xs 0)) /\
    (valid_oracle o -> a < b -> Forall (fun v => a <= v /\ v < b) xs) /\
    (valid_oracle o -> 0 < max_y -> Forall (fun v => 0 <= v /\ v < max_y) ys).
Proof.
  intros fuel f max_y a b size o g xs g' H. unfold rejection_sample_many in H. destruct (Z.ltb_spec size 0) as [Z|Z]; [discriminate H|]. split; [exact Z|]. unfold bind in H.
  destruct (unif_many_len (repeat (a, b) (Z.to_nat size)) o tt g) as (x & g1 & H1 & L1 & R1). rewrite H1 in H. clear H1. rewrite repeat_length in L1.
  destruct (unif_many_len (repeat (0, max_y) (Z.to_nat size)) o tt g1) as (y & g2 & H2 & L2 & R2). rewrite H2 in H. clear H2. rewrite repeat_length in L2.
  apply many_inv in H as (ys & A1 & A2 & A3 & A4 & A5); [|lia]. exists ys. split; [lia|]. split; [lia|]. split; [exact A3|]. split.
  - intros V Lt. apply A4; auto. eapply R1; eauto.
  - intros V Lt. apply A5; auto. eapply R2; eauto.
Qed.
Lemma unif_oracle_valid r : (forall n, 0 <= r n /\ r n < 1) -> valid_oracle (unif_oracle r).
Proof.
  intros H. destruct (const_oracle_valid (1 # 2) ltac:(lra)). constructor; auto; cbn [unif_oracle o_unif].
  - intros g lo hi L. specialize (H (length g)). nra.
  - intros g lo hi L. rewrite L. ring.
Qed.
(* the accepted point was not drawn as a pair *)
Lemma c56_stale_refuted_proof : exists o f max_y a b fuel xs g', valid_oracle o /\ a < b /\ 0 < max_y /\ (forall x, 0 < f x /\ f x <= max_y) /\
  rejection_sample_many fuel f max_y a b 1 o tt [] = (Ok xs, tt, g') /\
  ~ exists y, drawn_after o g' max_y a b (nth 0 xs 0) y.
Proof.
  exists (unif_oracle (fun n => match n with 0%nat => 0 | 1%nat => 3 # 4 | _ => 1 # 2 end)), (fun x => if qltb x (1 # 2) then 1 else 2), 2, 0, 1, 1%nat. eexists _, _.
  split; [apply unif_oracle_valid; intros [|[|]]; lra|]. split; [lra|]. split; [lra|]. split; [intros x; destruct (qltb _ _); lra|]. split; [vm_compute; reflexivity|].
  intros (y & i & j & L & Ei & Ej & Ai & Aj). destruct i as [|[|[|i]]]; [vm_compute in Ai; discriminate Ai|discriminate Ei|destruct j as [|[|[|[|j]]]]; try lia; discriminate Ej|destruct i; discriminate Ei].
Qed.
