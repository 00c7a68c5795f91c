(** Lemmas about the string methods of M_Version. *)
From Coq Require Import List ZArith Ascii String Bool Lia.
From Verif Require Import M_Version S_Version.
Import ListNotations.
Open Scope list_scope.

Lemma teqb_eq a b : teqb a b = true <-> a = b.
Proof.
  revert b. induction a as [| x a IH]; intros [| y b]; cbn; try easy.
  rewrite andb_true_iff, Ascii.eqb_eq, IH. split.
  - now intros [-> ->].
  - now intros [= -> ->].
Qed.

Lemma has_in c s : has c s = true <-> In c s.
Proof.
  unfold has. rewrite existsb_exists. split.
  - intros (x & Hx & E). apply Ascii.eqb_eq in E. now subst.
  - intros H. exists c. split; [easy|]. apply Ascii.eqb_refl.
Qed.

Lemma has_not c s : has c s = false <-> ~ In c s.
Proof.
  rewrite <- has_in. destruct (has c s); split; intros; congruence.
Qed.

Lemma startswith_app p r : startswith (p ++ r) p = true.
Proof.
  induction p as [| a p IH]; [now destruct r|]. cbn. now rewrite Ascii.eqb_refl.
Qed.

Lemma startswith_iff s p : startswith s p = true <-> exists r, s = p ++ r.
Proof.
  split.
  - revert s. induction p as [| a p IH]; intros s H.
    + now exists s.
    + destruct s as [| b s]; [easy|]. cbn in H.
      apply andb_true_iff in H as [E H]. apply Ascii.eqb_eq in E. subst.
      destruct (IH _ H) as [r ->]. now exists r.
  - intros [r ->]. apply startswith_app.
Qed.

Lemma endswith_iff s p : endswith s p = true <-> exists r, s = r ++ p.
Proof.
  unfold endswith. rewrite startswith_iff. split; intros [r H].
  - exists (rev r). rewrite <- (rev_involutive s), H, rev_app_distr.
    now rewrite rev_involutive.
  - exists (rev r). subst. now rewrite rev_app_distr.
Qed.

Lemma skipn_app_exact {A} (p r : list A) : skipn (List.length p) (p ++ r) = r.
Proof. now rewrite skipn_app, skipn_all, Nat.sub_diag. Qed.

Lemma firstn_app_exact {A} (p r : list A) : firstn (List.length p) (p ++ r) = p.
Proof. now rewrite firstn_app, firstn_all, Nat.sub_diag, app_nil_r. Qed.

(** All 256 characters can be tried. *)
Lemma all_chars (P : ascii -> bool) :
  forallb P (map ascii_of_nat (seq 0 256)) = true -> forall c, P c = true.
Proof.
  intros H c. rewrite forallb_forall in H. apply H.
  rewrite <- (ascii_nat_embedding c). apply in_map, in_seq.
  pose proof (nat_ascii_bounded c). lia.
Qed.

Definition mem (c : ascii) (l : list ascii) : bool := existsb (Ascii.eqb c) l.

Lemma mem_in c l : mem c l = true <-> In c l.
Proof. apply has_in. Qed.

Lemma class_eq (p : ascii -> bool) (l : list ascii) :
  forallb (fun c => Bool.eqb (p c) (mem c l)) (map ascii_of_nat (seq 0 256))
  = true ->
  forall c, p c = true <-> In c l.
Proof.
  intros H c. pose proof (all_chars _ H c) as E. cbn in E.
  apply Bool.eqb_prop in E. rewrite E. apply mem_in.
Qed.

Lemma is_space_iff c : is_space c = true <-> white c.
Proof. unfold white. revert c. apply class_eq. vm_compute. reflexivity. Qed.

Lemma is_bspace_iff c : is_bspace c = true <-> blank c.
Proof. unfold blank. revert c. apply class_eq. vm_compute. reflexivity. Qed.

Lemma is_digit_iff c : is_digit c = true <-> digit c.
Proof. unfold digit. revert c. apply class_eq. vm_compute. reflexivity. Qed.

Lemma is_hex_iff c : is_hex c = true <-> hex_digit c.
Proof. unfold hex_digit. revert c. apply class_eq. vm_compute. reflexivity. Qed.

Lemma blank_white c : blank c -> white c.
Proof. unfold blank, white. cbn. intuition. Qed.

Lemma not_true b : ~ b = true <-> b = false.
Proof. destruct b; intuition congruence. Qed.

Lemma not_space c : ~ white c -> is_space c = false.
Proof. rewrite <- is_space_iff. apply not_true. Qed.

Lemma not_bspace c : ~ white c -> is_bspace c = false.
Proof.
  intros H. apply not_true. rewrite is_bspace_iff. intros B.
  apply H, blank_white, B.
Qed.

(* ------------------------------------------------------------------ *)

Lemma lstrip_drop (p : ascii -> bool) a s :
  Forall (fun c => p c = true) a -> lstrip_by p (a ++ s) = lstrip_by p s.
Proof. induction 1 as [| c a H _ IH]; cbn; [easy|]. now rewrite H. Qed.

Lemma lstrip_keep (p : ascii -> bool) s :
  (forall c r, s = c :: r -> p c = false) -> lstrip_by p s = s.
Proof.
  destruct s as [| c r]; [easy|]. intros H. cbn. now rewrite (H c r).
Qed.

Lemma strip_exact (p : ascii -> bool) a t b :
  Forall (fun c => p c = true) a -> Forall (fun c => p c = true) b ->
  (forall c r, t = c :: r -> p c = false) ->
  (forall c r, t = r ++ [c] -> p c = false) ->
  strip_by p (a ++ t ++ b) = t.
Proof.
  intros Ha Hb H1 H2. unfold strip_by, rstrip_by. rewrite lstrip_drop by easy.
  destruct t as [| c t].
  - cbn [app]. replace (lstrip_by p b) with (@nil ascii); [easy|].
    rewrite <- (app_nil_r b). now rewrite lstrip_drop.
  - rewrite (lstrip_keep p ((c :: t) ++ b)).
    2:{ intros x r [= <- <-]. now apply (H1 c t). }
    rewrite rev_app_distr, lstrip_drop by now apply Forall_rev.
    rewrite lstrip_keep; [apply rev_involutive|].
    intros x r E. apply (H2 x (rev r)).
    rewrite <- (rev_involutive (c :: t)), E. cbn. easy.
Qed.

Lemma strip_bare t : bare t -> strip t = t.
Proof.
  intros [H1 H2]. unfold strip. rewrite <- (app_nil_r t) at 1.
  apply (strip_exact is_space [] t []); try constructor.
  - intros c r E. apply not_space. now apply (H1 c r).
  - intros c r E. apply not_space. now apply (H2 c r).
Qed.

Lemma bstrip_bare a t b :
  Forall blank a -> Forall blank b -> bare t ->
  strip_by is_bspace (a ++ t ++ b) = t.
Proof.
  intros Ha Hb [H1 H2]. apply strip_exact.
  - revert Ha. apply Forall_impl. intros c. apply is_bspace_iff.
  - revert Hb. apply Forall_impl. intros c. apply is_bspace_iff.
  - intros c r E. apply not_bspace. now apply (H1 c r).
  - intros c r E. apply not_bspace. now apply (H2 c r).
Qed.

(** Stripping twice is stripping once. *)
Lemma lstrip_first (p : ascii -> bool) s c r :
  lstrip_by p s = c :: r -> p c = false.
Proof.
  induction s as [| x s IH]; cbn; [easy|]. destruct (p x) eqn:E; [apply IH|].
  intros [= -> ->]. easy.
Qed.

Lemma lstrip_suffix (p : ascii -> bool) s :
  exists a, s = a ++ lstrip_by p s /\ Forall (fun c => p c = true) a.
Proof.
  induction s as [| x s (a & E & H)]; [now exists []|]. cbn.
  destruct (p x) eqn:Ex.
  - exists (x :: a). cbn. rewrite <- E. auto.
  - now exists [].
Qed.

Lemma strip_ends (p : ascii -> bool) s :
  exists a b, s = a ++ strip_by p s ++ b /\
    Forall (fun c => p c = true) a /\ Forall (fun c => p c = true) b /\
    (forall c r, strip_by p s = c :: r -> p c = false) /\
    (forall c r, strip_by p s = r ++ [c] -> p c = false).
Proof.
  destruct (lstrip_suffix p s) as (a & E & Ha).
  destruct (lstrip_suffix p (rev (lstrip_by p s))) as (b & Eb & Hb).
  exists a, (rev b).
  assert (L : lstrip_by p s = strip_by p s ++ rev b).
  { unfold strip_by, rstrip_by. rewrite <- rev_app_distr, <- Eb.
    now rewrite rev_involutive. }
  split; [|split; [|split; [|split]]].
  - rewrite E at 1. now rewrite L.
  - easy.
  - now apply Forall_rev.
  - intros c r X. rewrite X in L. cbn in L. now apply lstrip_first in L.
  - intros c r X. unfold strip_by, rstrip_by in X.
    assert (Y : lstrip_by p (rev (lstrip_by p s)) = c :: rev r).
    { rewrite <- (rev_involutive (lstrip_by p (rev _))), X.
      now rewrite rev_app_distr. }
    now apply lstrip_first in Y.
Qed.

Lemma strip_is_bare s : bare (strip s).
Proof.
  destruct (strip_ends is_space s) as (a & b & _ & _ & _ & H1 & H2).
  split; intros c r E W; apply is_space_iff in W.
  - apply H1 in E. congruence.
  - apply H2 in E. congruence.
Qed.

(* ------------------------------------------------------------------ *)

Lemma span_exact p a c r :
  Forall (fun x => p x = true) a -> p c = false ->
  span p (a ++ c :: r) = (a, c :: r).
Proof.
  induction 1 as [| x a H _ IH]; cbn; intros E; [now rewrite E|].
  now rewrite H, (IH E).
Qed.

Lemma span_inv p s a b :
  span p s = (a, b) ->
  s = a ++ b /\ Forall (fun x => p x = true) a /\
  (forall c r, b = c :: r -> p c = false).
Proof.
  revert a b. induction s as [| x s IH]; cbn; intros a b.
  - intros [= <- <-]. easy.
  - destruct (p x) eqn:E.
    + destruct (span p s) as [a' b'] eqn:Es. intros [= <- <-].
      destruct (IH _ _ eq_refl) as (-> & H1 & H2). auto.
    + intros [= <- <-]. split; [easy|]. split; [easy|].
      intros c r [= -> ->]. easy.
Qed.

(* ------------------------------------------------------------------ *)
(** Splitting *)

Lemma split_on_none c s : ~ In c s -> split_on c s = [s].
Proof.
  induction s as [| x s IH]; [easy|]. cbn. intros H.
  destruct (Ascii.eqb x c) eqn:E.
  - apply Ascii.eqb_eq in E. tauto.
  - rewrite IH by tauto. easy.
Qed.

Lemma split_on_app c a s :
  ~ In c a -> split_on c (a ++ c :: s) = a :: split_on c s.
Proof.
  induction a as [| x a IH]; cbn; intros H.
  - now rewrite Ascii.eqb_refl.
  - destruct (Ascii.eqb x c) eqn:E.
    + apply Ascii.eqb_eq in E. tauto.
    + now rewrite IH by tauto.
Qed.

Lemma splitlines_one s :
  s <> [] -> Forall (fun c => ~ white c \/ c = ch " ") s -> splitlines s = [s].
Proof.
  intros N H. unfold splitlines.
  assert (G : forall s, Forall (fun c => ~ white c \/ c = ch " ") s ->
            forall l, lines_from s false (Some l) = [rev l ++ s]).
  { clear. induction 1 as [| c r Hc _ IH]; cbn; intros l.
    - now rewrite app_nil_r.
    - replace (is_break c) with false.
      + rewrite IH. cbn. now rewrite <- app_assoc.
      + destruct Hc as [Hc | ->]; [|reflexivity].
        symmetry. apply not_true. intros B. apply Hc. apply is_space_iff.
        revert B. clear.
        assert (K : forall c, implb (is_break c) (is_space c) = true)
          by (apply all_chars; vm_compute; reflexivity).
        specialize (K c). destruct (is_break c); cbn in K; congruence. }
  destruct s as [| c r]; [easy|]. inversion H as [| ? ? Hc Hr]; subst.
  cbn [lines_from].
  replace (is_break c) with false.
  - change (lines_from r false (Some [c]) = [c :: r]).
    exact (G r Hr [c]).
  - destruct Hc as [Hc | ->]; [|reflexivity].
    symmetry. apply not_true. intros B. apply Hc. apply is_space_iff.
    assert (K : forall c, implb (is_break c) (is_space c) = true)
      by (apply all_chars; vm_compute; reflexivity).
    specialize (K c). destruct (is_break c); cbn in K; congruence.
Qed.

Lemma splitlines_nonempty s : s <> [] -> splitlines s <> [].
Proof.
  unfold splitlines. destruct s as [| c r]; [easy|]. intros _. cbn.
  destruct (is_break c); [easy|].
  clear. generalize [c]. induction r as [| c' r IH]; cbn; intros l; [easy|].
  destruct (is_break c'); [easy|]. apply IH.
Qed.

Lemma replace1_hit c by_ a s :
  ~ In c a -> replace1 c by_ (a ++ c :: s) = a ++ by_ ++ s.
Proof.
  induction a as [| x a IH]; cbn; intros H.
  - now rewrite Ascii.eqb_refl.
  - destruct (Ascii.eqb x c) eqn:E.
    + apply Ascii.eqb_eq in E. tauto.
    + now rewrite IH by tauto.
Qed.
