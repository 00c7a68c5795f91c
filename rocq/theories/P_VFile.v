(** Reading the keywords from the text of the file (M_Version). *)
From Coq Require Import List ZArith Ascii String Bool Lia.
From Verif Require Import M_Version S_Version P_VText.
Import ListNotations.
Open Scope list_scope.

Definition Q34 : ascii := ascii_of_nat 34.

Lemma before_last_exact x :
  one_line x -> before_last Q34 (x ++ [Q34; LF]) = Some x.
Proof.
  induction x as [| c x IH]; intros H; [reflexivity|]. cbn [app before_last].
  destruct (Ascii.eqb c LF) eqn:E.
  - apply Ascii.eqb_eq in E. subst. elim H. now left.
  - rewrite IH; [reflexivity|]. intros X. apply H. now right.
Qed.

Lemma quoted_skip a r : ~ In (ch "=") a -> quoted (a ++ r) = quoted r.
Proof.
  induction a as [| c a IH]; intros H; [reflexivity|]. cbn [app quoted].
  destruct (Ascii.eqb c (ch "=")) eqn:E.
  - apply Ascii.eqb_eq in E. subst. elim H. now left.
  - apply IH. intros X. apply H. now right.
Qed.

Lemma quoted_line name x :
  ~ In (ch "=") (T name) -> one_line x -> quoted (assignment name x) = Some x.
Proof.
  intros N H. unfold assignment.
  replace (T "    " ++ T name ++ T " = " ++ [ascii_of_nat 34] ++ x ++ [ascii_of_nat 34; LF])
    with ((T "    " ++ T name ++ T " ") ++ T "= " ++ Q34 :: x ++ [Q34; LF])
    by (rewrite <- !app_assoc; reflexivity).
  rewrite quoted_skip.
  - change (T "= " ++ Q34 :: x ++ [Q34; LF])
      with (ch "=" :: ch " " :: Q34 :: x ++ [Q34; LF]).
    cbn [quoted]. rewrite Ascii.eqb_refl.
    replace (lstrip_by is_space (ch " " :: Q34 :: x ++ [Q34; LF]))
      with (Q34 :: x ++ [Q34; LF]) by reflexivity.
    rewrite Ascii.eqb_refl. fold Q34. now rewrite before_last_exact.
  - intros X. apply in_app_or in X as [X | X].
    + apply mem_in in X. discriminate X.
    + apply in_app_or in X as [X | X]; [easy|].
      apply mem_in in X. discriminate X.
Qed.

(** What stripping leaves at the front. *)
Lemma strip_starts l name a r :
  name <> [] -> (forall c q, name = c :: q -> ~ white c) ->
  (forall c q, name = q ++ [c] -> ~ white c) ->
  Forall white a -> l = a ++ name ++ r -> startswith (strip l) name = true.
Proof.
  intros N H1 H2 Ha ->. unfold strip, strip_by, rstrip_by.
  rewrite lstrip_drop by
    (revert Ha; apply Forall_impl; intros c X; now apply is_space_iff).
  destruct name as [| c q]; [easy|].
  rewrite (lstrip_keep is_space ((c :: q) ++ r)).
  2:{ intros x y E. apply not_space. apply (H1 x q). cbn in E. congruence. }
  rewrite rev_app_distr.
  destruct (lstrip_suffix is_space (rev r)) as (b & Eb & Hb).
  rewrite Eb, <- app_assoc, lstrip_drop by easy.
  destruct (lstrip_by is_space (rev r)) as [| y ys] eqn:Er.
  - cbn [app]. rewrite lstrip_keep.
    + rewrite rev_involutive. rewrite <- (app_nil_r (c :: q)) at 1.
      apply startswith_app.
    + intros x z E. apply not_space. apply (H2 x (rev z)).
      rewrite <- (rev_involutive (c :: q)), E. reflexivity.
  - rewrite lstrip_keep.
    + rewrite rev_app_distr, rev_involutive. apply startswith_app.
    + intros x z E. cbn in E. injection E as <- _.
      now apply lstrip_first in Er.
Qed.

Lemma strip_starts_inv l name :
  startswith (strip l) name = true ->
  exists a r, Forall white a /\ l = a ++ name ++ r.
Proof.
  intros H. apply startswith_iff in H as (r & E).
  destruct (strip_ends is_space l) as (a & b & El & Ha & _).
  exists a, (r ++ b). split.
  - revert Ha. apply Forall_impl. intros c. apply is_space_iff.
  - rewrite El. unfold strip in E. rewrite E. now rewrite <- app_assoc.
Qed.

Lemma other_keep k l : other_line l -> keyword_line k l = k.
Proof.
  intros H. unfold keyword_line.
  assert (G : forall name, In name ["git_refnames ="; "git_full ="; "git_date ="]%string ->
            startswith (strip l) (T name) = false).
  { intros name Hn. apply not_true. intros X.
    apply strip_starts_inv in X as (a & r & Ha & E). now apply (H name a r). }
  rewrite !G by (cbn; tauto). now destruct k.
Qed.

Lemma others_keep ls : Forall other_line ls ->
  forall k, fold_left keyword_line ls k = k.
Proof.
  induction 1 as [| l ls H _ IH]; intros k; [easy|]. cbn.
  now rewrite other_keep, IH.
Qed.

Lemma blanks : Forall white (T "    ").
Proof. repeat (apply Forall_cons; [apply is_space_iff; reflexivity|]). constructor. Qed.

Lemma assigns name n x (k : keywords) :
  In n ["git_refnames"; "git_full"; "git_date"]%string ->
  In name ["git_refnames ="; "git_full ="; "git_date ="]%string ->
  startswith (strip (assignment n x)) (T name) = teqb (T name) (T n ++ T " =").
Proof.
  intros Hn Hm.
  assert (L : exists r, assignment n x = T "    " ++ (T n ++ T " =") ++ r).
  { exists (T " " ++ [ascii_of_nat 34] ++ x ++ [ascii_of_nat 34; LF]).
    unfold assignment. rewrite <- !app_assoc. reflexivity. }
  destruct L as (r & L).
  destruct (teqb (T name) (T n ++ T " =")) eqn:E.
  - apply teqb_eq in E. rewrite E.
    apply (strip_starts _ (T n ++ T " =") (T "    ") r); try easy.
    + now destruct (T n).
    + intros c q X W. destruct Hn as [<- | [<- | [<- | []]]];
        cbn in X; injection X as <- _; apply is_space_iff in W; discriminate W.
    + intros c q X W. change (T " =") with ([ch " "] ++ [ch "="]) in X.
      rewrite app_assoc in X. apply app_inj_tail in X as [_ <-].
      apply is_space_iff in W. discriminate W.
    + apply blanks.
  - apply not_true. intros X. apply strip_starts_inv in X as (a & q & Ha & Eq).
    unfold assignment in Eq.
    (* the first solid character is the g of the name on both sides *)
    assert (A : a = T "    ").
    { assert (S1 : lstrip_by is_space (assignment n x)
                   = T n ++ T " = " ++ [ascii_of_nat 34] ++ x ++ [ascii_of_nat 34; LF]).
      { destruct Hn as [<- | [<- | [<- | []]]]; reflexivity. }
      assert (S2 : lstrip_by is_space (a ++ T name ++ q) = T name ++ q).
      { rewrite lstrip_drop by
          (revert Ha; apply Forall_impl; intros c; apply is_space_iff).
        destruct Hm as [<- | [<- | [<- | []]]]; reflexivity. }
      unfold assignment in S1. rewrite Eq in S1. rewrite S2 in S1.
      rewrite S1 in Eq. now apply app_inv_tail in Eq. }
    subst a. apply app_inv_head in Eq.
    destruct Hn as [<- | [<- | [<- | []]]], Hm as [<- | [<- | [<- | []]]];
      cbn in Eq; try discriminate Eq; discriminate E.
Qed.

Lemma keywords_read l0 l1 l2 l3 r f d :
  Forall other_line (l0 ++ l1 ++ l2 ++ l3) ->
  one_line r -> one_line f -> one_line d ->
  git_get_keywords
    (Some (l0 ++ assignment "git_refnames" r :: l1
              ++ assignment "git_full" f :: l2
              ++ assignment "git_date" d :: l3))
  = Keywords (Some r) (Some f) (Some d).
Proof.
  intros H Hr Hf Hd. apply Forall_app in H as [H0 H].
  apply Forall_app in H as [H1 H]. apply Forall_app in H as [H2 H3].
  cbn [git_get_keywords].
  rewrite fold_left_app, (others_keep l0 H0). cbn [fold_left].
  rewrite fold_left_app, (others_keep l1 H1). cbn [fold_left].
  rewrite fold_left_app, (others_keep l2 H2). cbn [fold_left].
  rewrite (others_keep l3 H3).
  assert (U : forall n x k, In n ["git_refnames"; "git_full"; "git_date"]%string ->
    one_line x -> keyword_line k (assignment n x) =
    Keywords (if teqb (T "git_refnames =") (T n ++ T " =") then Some x else k_refnames k)
             (if teqb (T "git_full =") (T n ++ T " =") then Some x else k_full k)
             (if teqb (T "git_date =") (T n ++ T " =") then Some x else k_date k)).
  { intros n x k Hn Hx. unfold keyword_line.
    rewrite !assigns by (try exact k; cbn; tauto).
    rewrite quoted_line; [reflexivity| |easy].
    destruct Hn as [<- | [<- | [<- | []]]]; intros X; apply mem_in in X; discriminate X. }
  rewrite !U by (try easy; cbn; tauto). reflexivity.
Qed.
