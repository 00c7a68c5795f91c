(** The renderers and PEP 440 (M_Version). *)
From Coq Require Import List ZArith Ascii String Bool Lia.
From Verif Require Import M_Version S_Version P_VText P_VNum P_VGit P_VPieces.
Import ListNotations.
Open Scope list_scope.

Lemma dots_app l m :
  l <> [] -> m <> [] -> dots (l ++ m) = dots l ++ T "." ++ dots m.
Proof.
  intros N M. induction l as [| x l IH]; [easy|].
  destruct l as [| y l].
  - destruct m as [| z m]; [easy|]. reflexivity.
  - change (dots ((x :: y :: l) ++ m)) with (x ++ T "." ++ dots ((y :: l) ++ m)).
    rewrite IH by easy.
    change (dots (x :: y :: l)) with (x ++ T "." ++ dots (y :: l)).
    now rewrite <- !app_assoc.
Qed.

Lemma incl_chars (A B : text) :
  forallb (fun c => mem c B) A = true -> forall c, In c A -> In c B.
Proof. rewrite forallb_forall. intros H c X. now apply mem_in, H. Qed.

Lemma all_alnum (A : text) :
  forallb (fun c => mem c (T "0123456789abcdefghijklmnopqrstuvwxyz")) A = true ->
  Forall alnum A.
Proof.
  intros H. apply Forall_forall. intros c X. revert c X.
  exact (incl_chars _ _ H).
Qed.

Lemma not_digit c : is_digit c = false -> ~ digit c.
Proof. intros H D. apply is_digit_iff in D. congruence. Qed.

Lemma number_chars s c : number s -> In c s -> digit c.
Proof. intros [_ H] X. rewrite Forall_forall in H. now apply H. Qed.

Lemma digit_alnum c : digit c -> alnum c.
Proof. unfold digit, alnum. apply incl_chars. reflexivity. Qed.

Lemma hex_alnum c : hex_digit c -> alnum c.
Proof. unfold hex_digit, alnum. apply incl_chars. reflexivity. Qed.

Lemma numeral_number s : numeral s -> number s.
Proof. intros (N & D & _). now split. Qed.

Lemma number_segment s : number s -> segment s.
Proof.
  intros [N D]. split; [easy|]. revert D. apply Forall_impl. exact digit_alnum.
Qed.

Lemma hash_segment s : hex_text s -> segment (T "g" ++ s).
Proof.
  intros [N D]. split; [easy|]. constructor; [apply mem_in; reflexivity|].
  revert D. apply Forall_impl. exact hex_alnum.
Qed.

Lemma dirty_segment : segment (T "dirty").
Proof. split; [easy|]. apply all_alnum. reflexivity. Qed.

Lemma dev0_segment : segment (T "dev0").
Proof. split; [easy|]. apply all_alnum. reflexivity. Qed.

Lemma post_segment s : number s -> segment (T "post" ++ s).
Proof.
  intros [N D]. split; [easy|]. apply Forall_app. split.
  - apply all_alnum. reflexivity.
  - revert D. apply Forall_impl. exact digit_alnum.
Qed.

Lemma zero_number : number (T "0").
Proof. split; [easy|]. constructor; [apply mem_in; reflexivity | constructor]. Qed.

(** The part of a version before the local label. *)
Definition front (q : parts) : text :=
  with_opt (fun e => e ++ T "!") (q_epoch q) ++ dots (q_release q)
  ++ with_opt (fun '(k, n) => k ++ n) (q_pre q)
  ++ with_opt (fun n => T ".post" ++ n) (q_post q)
  ++ with_opt (fun n => T ".dev" ++ n) (q_dev q).

Definition tail_of (q : parts) : text :=
  with_opt (fun l => T "+" ++ dots l) (q_local q).

Lemma spell_split q : spell q = front q ++ tail_of q.
Proof. unfold spell, front, tail_of. now rewrite <- !app_assoc. Qed.

Definition set_local (q : parts) (l : list text) : parts :=
  Parts (q_epoch q) (q_release q) (q_pre q) (q_post q) (q_dev q) (Some l).

Definition set_post_dev (q : parts) (p d : option text) : parts :=
  Parts (q_epoch q) (q_release q) (q_pre q) p d (q_local q).

Lemma dots_chars l c : In c (dots l) -> c = ch "." \/ exists x, In x l /\ In c x.
Proof.
  induction l as [| x l IH]; [easy|]. destruct l as [| y l].
  - cbn [dots]. intros H. right. exists x. split; [now left|easy].
  - change (dots (x :: y :: l)) with (x ++ T "." ++ dots (y :: l)).
    intros H. apply in_app_or in H as [H | H].
    + right. exists x. split; [now left|easy].
    + apply in_app_or in H as [H | H].
      * left. destruct H as [H | []]. now symmetry.
      * destruct (IH H) as [X | (z & Hz & X)]; auto. right. exists z.
        split; [now right|easy].
Qed.

(** Every character of the front is one of these. *)
Definition front_char (c : ascii) : Prop :=
  digit c \/ In c (T "!.abrcpostdev").

Lemma front_chars q c : parts_ok q -> In c (front q) -> front_char c.
Proof.
  intros (He & (_ & Hr) & Hp & Hs & Hd & _) H. unfold front in H.
  unfold front_char.
  apply in_app_or in H as [H | H].
  { destruct (q_epoch q) as [e |]; [|easy]. cbn in H, He.
    apply in_app_or in H as [H | H].
    - left. now apply (number_chars e).
    - right. destruct H as [<- | []]. apply mem_in; reflexivity. }
  apply in_app_or in H as [H | H].
  { apply dots_chars in H as [-> | (x & Hx & H)].
    - right. apply mem_in; reflexivity.
    - left. rewrite Forall_forall in Hr. now apply (number_chars x); auto. }
  apply in_app_or in H as [H | H].
  { destruct (q_pre q) as [[k n] |]; [|easy]. cbn in H, Hp.
    destruct Hp as [Hk Hn]. apply in_app_or in H as [H | H].
    - right. destruct Hk as [<- | [<- | [<- | []]]]; revert c H;
        apply incl_chars; reflexivity.
    - left. now apply (number_chars n). }
  apply in_app_or in H as [H | H].
  { destruct (q_post q) as [n |]; [|easy]. cbn [with_opt all_opt] in H, Hs.
    apply in_app_or in H as [H | H].
    - right. revert c H. apply incl_chars. reflexivity.
    - left. now apply (number_chars n). }
  { destruct (q_dev q) as [n |]; [|easy]. cbn [with_opt all_opt] in H, Hd.
    apply in_app_or in H as [H | H].
    - right. revert c H. apply incl_chars. reflexivity.
    - left. now apply (number_chars n). }
Qed.

Lemma front_no_plus q : parts_ok q -> ~ In (ch "+") (front q).
Proof.
  intros H X. apply (front_chars q) in X as [X | X]; try easy.
  - revert X. now apply not_digit.
  - apply mem_in in X. discriminate X.
Qed.

Lemma plus_local q : parts_ok q ->
  has (ch "+") (spell q) = match q_local q with Some _ => true | None => false end.
Proof.
  intros H. rewrite spell_split. unfold tail_of.
  destruct (q_local q) as [l |]; cbn [with_opt].
  - apply has_in. apply in_or_app. right. now left.
  - rewrite app_nil_r. apply has_not. now apply front_no_plus.
Qed.

Lemma spell_nonempty q : parts_ok q -> spell q <> [].
Proof.
  intros (_ & (N & H) & _) E. rewrite spell_split in E.
  apply app_eq_nil in E as [E _]. unfold front in E.
  apply app_eq_nil in E as [_ E]. apply app_eq_nil in E as [E _].
  destruct (q_release q) as [| x l]; [easy|]. inversion H as [| ? ? [Nx _] _]; subst.
  destruct l.
  - easy.
  - cbn [dots] in E. apply app_eq_nil in E as [E _]. easy.
Qed.

(** Adding segments to the local label: a plus sign first if there was none. *)
Definition add_local (q : parts) (m : list text) : parts :=
  set_local q (match q_local q with Some l => l ++ m | None => m end).

Lemma add_local_ok q m :
  parts_ok q -> m <> [] -> Forall segment m -> parts_ok (add_local q m).
Proof.
  intros (He & Hr & Hp & Hs & Hd & Hl) N M. unfold add_local, set_local.
  repeat (split; [easy|]). cbn.
  destruct (q_local q) as [l |]; cbn in Hl.
  - destruct Hl as [Nl Fl]. split; [now destruct l|]. apply Forall_app. now split.
  - now split.
Qed.

Definition sep (q : parts) : text :=
  match q_local q with Some _ => T "." | None => T "+" end.

Lemma add_local_spell q m :
  parts_ok q -> m <> [] -> spell (add_local q m) = spell q ++ sep q ++ dots m.
Proof.
  intros (_ & _ & _ & _ & _ & Hl) N. rewrite !spell_split.
  change (front (add_local q m)) with (front q). rewrite <- app_assoc. f_equal.
  unfold tail_of, add_local, sep. cbn [set_local q_local with_opt].
  destruct (q_local q) as [l |]; cbn [with_opt].
  - destruct Hl as [Nl _]. rewrite dots_app by easy. reflexivity.
  - reflexivity.
Qed.

Lemma truthy_spell q : parts_ok q -> truthy (Some (spell q)) = true.
Proof. intros H. apply spell_nonempty in H. now destruct (spell q). Qed.

Lemma sep_of p q d :
  tagged p q d -> plus_or_dot p = VOk (sep q).
Proof.
  intros (Ht & _ & _ & _ & Hq). unfold plus_or_dot. rewrite Ht, plus_local by easy.
  unfold sep. now destruct (q_local q).
Qed.

(** The three segments of the default style. *)
Definition mark (p : pieces) (d : Z) : list text :=
  [dec d; T "g" ++ p_short p] ++ (if p_dirty p then [T "dirty"] else []).

Lemma mark_ok p d :
  (0 <= d)%Z -> hex_text (p_short p) -> Forall segment (mark p d).
Proof.
  intros H Hs. unfold mark. constructor.
  - now apply number_segment, numeral_number, dec_numeral.
  - constructor; [now apply hash_segment|].
    destruct (p_dirty p); constructor; [apply dirty_segment | constructor].
Qed.

Lemma mark_text p d :
  dots (mark p d) = dec d ++ T ".g" ++ p_short p ++ if_dirty p ".dirty".
Proof.
  unfold mark, if_dirty. destruct (p_dirty p); cbn [app dots].
  - change (T ".g") with (T "." ++ T "g"). now rewrite <- !app_assoc.
  - rewrite T_nil || idtac. now rewrite app_nil_r.
Qed.

Lemma default_style p q d :
  tagged p q d ->
  exists q', render_pep440 p = VOk (spell q') /\ parts_ok q' /\ pub q' = pub q /\
    (q' = q \/ q_local q' = Some (match q_local q with Some l => l | None => [] end
                                  ++ mark p d)).
Proof.
  intros H. pose proof H as (Ht & Hd & Pd & Hs & Hq).
  unfold render_pep440, the_tag, changed, the_dist. rewrite Ht, Hd.
  cbn [need vbind]. rewrite truthy_spell by easy. rewrite (sep_of p q d H).
  destruct (negb (d =? 0)%Z || p_dirty p); cbn [vbind get_text].
  - exists (add_local q (mark p d)).
    rewrite add_local_spell, mark_text by easy. split; [easy|].
    split; [apply add_local_ok; try easy; now apply mark_ok|].
    split; [easy|]. right. cbn. now destruct (q_local q).
  - exists q. split; [easy|]. split; [easy|]. split; [easy|]. now left.
Qed.

(** Appending ".postN" or ".devN" where they belong, or to the label. *)
Lemma append_dev q n :
  parts_ok q -> number n -> (q_local q <> None \/ q_dev q = None) ->
  exists q', parts_ok q' /\ spell q' = spell q ++ T ".dev" ++ n /\
             (q_local q = None <-> q_local q' = None).
Proof.
  intros Hq Hn Hc. destruct (q_local q) as [l |] eqn:El.
  - exists (add_local q [T "dev" ++ n]). split; [|split].
    + apply add_local_ok; try easy. constructor; [|constructor].
      destruct Hn as [N D]. split; [easy|]. apply Forall_app. split.
      * apply all_alnum. reflexivity.
      * revert D. apply Forall_impl. exact digit_alnum.
    + rewrite add_local_spell by easy. unfold sep. rewrite El. reflexivity.
    + cbn. easy.
  - destruct Hc as [Hc | Hc]; [easy|].
    exists (set_post_dev q (q_post q) (Some n)).
    destruct Hq as (He & Hr & Hp & Hs & Hd & Hl). split; [|split].
    + unfold set_post_dev. repeat (split; [easy|]). exact Hl.
    + rewrite !spell_split. unfold front, tail_of, set_post_dev. cbn [q_epoch q_release q_pre q_post q_dev q_local].
      rewrite Hc, El. cbn [with_opt]. rewrite !app_nil_r, <- !app_assoc. reflexivity.
    + cbn. now rewrite El.
Qed.

Lemma append_post q n :
  parts_ok q -> number n ->
  (q_local q <> None \/ (q_post q = None /\ q_dev q = None)) ->
  exists q', parts_ok q' /\ spell q' = spell q ++ T ".post" ++ n /\
             (q_local q = None <-> q_local q' = None) /\
             q_dev q' = q_dev q.
Proof.
  intros Hq Hn Hc. destruct (q_local q) as [l |] eqn:El.
  - exists (add_local q [T "post" ++ n]). split; [|split; [|split]].
    + apply add_local_ok; try easy. constructor; [|constructor].
      now apply post_segment.
    + rewrite add_local_spell by easy. unfold sep. rewrite El. reflexivity.
    + cbn. easy.
    + reflexivity.
  - destruct Hc as [Hc | (Hc & Hc')]; [easy|].
    exists (set_post_dev q (Some n) (q_dev q)).
    destruct Hq as (He & Hr & Hp & Hs & Hd & Hl). split; [|split; [|split]].
    + unfold set_post_dev. repeat (split; [easy|]). exact Hl.
    + rewrite !spell_split. unfold front, tail_of, set_post_dev. cbn [q_epoch q_release q_pre q_post q_dev q_local].
      rewrite Hc, Hc', El. cbn [with_opt]. rewrite !app_nil_r, <- !app_assoc. reflexivity.
    + cbn. now rewrite El.
    + reflexivity.
Qed.

Lemma sep_same q q' :
  (q_local q = None <-> q_local q' = None) -> sep q = sep q'.
Proof.
  unfold sep. destruct (q_local q), (q_local q'); intros [A B]; try easy.
  - now specialize (B eq_refl).
  - now specialize (A eq_refl).
Qed.

Lemma pep_add q m :
  parts_ok q -> m <> [] -> Forall segment m ->
  pep440 (spell q ++ sep q ++ dots m).
Proof.
  intros Hq N M. exists (add_local q m). split; [now apply add_local_ok|].
  now rewrite add_local_spell.
Qed.

Lemma branch_style p q d :
  tagged p q d -> (q_local q <> None \/ q_dev q = None) ->
  exists v, render_pep440_branch p = VOk v /\ pep440 v.
Proof.
  intros H Hc. pose proof H as (Ht & Hd & Pd & Hs & Hq).
  unfold render_pep440_branch, the_tag, changed, the_dist. rewrite Ht, Hd.
  cbn [need vbind]. rewrite truthy_spell by easy. rewrite (sep_of p q d H).
  destruct (negb (d =? 0)%Z || p_dirty p); cbn [vbind get_text].
  2:{ exists (spell q). split; [easy|]. now exists q. }
  eexists. split; [reflexivity|]. rewrite <- mark_text. unfold if_off.
  destruct (off_master p).
  - destruct (append_dev q (T "0") Hq zero_number Hc) as (q' & Hq' & E & L).
    replace (spell q ++ T ".dev0" ++ sep q ++ dots (mark p d))
      with (spell q' ++ sep q' ++ dots (mark p d)).
    + apply pep_add; try easy. now apply mark_ok.
    + rewrite E, (sep_same q q' L). change (T ".dev0") with (T ".dev" ++ T "0").
      now rewrite <- !app_assoc.
  - cbn [app]. apply pep_add; try easy. now apply mark_ok.
Qed.

Lemma post_styles p q d :
  tagged p q d -> (q_local q <> None \/ (q_post q = None /\ q_dev q = None)) ->
  (exists v, render_pep440_post p = VOk v /\ pep440 v) /\
  (exists v, render_pep440_post_branch p = VOk v /\ pep440 v) /\
  (exists v, render_pep440_old p = VOk v /\ pep440 v).
Proof.
  intros H Hc. pose proof H as (Ht & Hd & Pd & Hs & Hq).
  unfold render_pep440_post, render_pep440_post_branch, render_pep440_old,
    the_tag, changed, the_dist. rewrite Ht, Hd.
  cbn [need vbind]. rewrite truthy_spell by easy. rewrite (sep_of p q d H).
  destruct (negb (d =? 0)%Z || p_dirty p); cbn [vbind get_text].
  2:{ repeat split; exists (spell q); (split; [easy|]); now exists q. }
  assert (Nd : number (dec d)) by now apply numeral_number, dec_numeral.
  destruct (append_post q (dec d) Hq Nd Hc) as (q1 & Hq1 & E1 & L1 & D1).
  assert (Hc1 : q_local q1 <> None \/ q_dev q1 = None).
  { destruct Hc as [Hc | (_ & Hc)].
    - left. intros X. apply Hc. now apply L1.
    - right. congruence. }
  destruct (append_dev q1 (T "0") Hq1 zero_number Hc1) as (q2 & Hq2 & E2 & L2).
  assert (S1 : sep q = sep q1) by now apply sep_same.
  assert (S2 : sep q = sep q2) by (rewrite S1; now apply sep_same).
  assert (X1 : forall r, spell q ++ T ".post" ++ dec d ++ r = spell q1 ++ r)
    by (intros r; rewrite E1, <- !app_assoc; reflexivity).
  assert (X2 : forall r, spell q ++ T ".post" ++ dec d ++ T ".dev0" ++ r
                         = spell q2 ++ r).
  { intros r. rewrite E2, E1. change (T ".dev0") with (T ".dev" ++ T "0").
    now rewrite <- !app_assoc. }
  assert (G : segment (T "g" ++ p_short p)) by now apply hash_segment.
  split; [|split]; eexists; (split; [reflexivity|]).
  - unfold if_dirty. destruct (p_dirty p).
    + rewrite X2, S2. apply (pep_add q2 [T "g" ++ p_short p]); auto; easy.
    + rewrite X1, S1. apply (pep_add q1 [T "g" ++ p_short p]); auto; easy.
  - set (m := T "g" ++ p_short p) in G.
    assert (M : exists l, l <> [] /\ Forall segment l /\
      dots l = T "g" ++ p_short p ++ if_dirty p ".dirty").
    { unfold if_dirty. destruct (p_dirty p).
      - exists [m; T "dirty"]. split; [easy|]. split.
        + repeat (apply Forall_cons; [first [easy | apply dirty_segment]|]).
          constructor.
        + cbn [dots]. unfold m. change (T ".dirty") with (T "." ++ T "dirty").
          now rewrite <- !app_assoc.
      - exists [m]. split; [easy|]. split; [constructor; [easy | constructor]|].
        cbn [dots]. unfold m. now rewrite app_nil_r. }
    destruct M as (l & Nl & Fl & <-). unfold if_off.
    destruct (off_master p).
    + rewrite X2, S2. now apply pep_add.
    + rewrite X1, S1. now apply pep_add.
  - unfold if_dirty. destruct (p_dirty p).
    + rewrite <- (app_nil_r (T ".dev0")). rewrite X2, app_nil_r. now exists q2.
    + rewrite X1, app_nil_r. now exists q1.
Qed.

(* ------------------------------------------------------------------ *)
(** The style with a post release number *)

Lemma split_none s cur :
  (forall a b, s <> a ++ T ".post" ++ b) ->
  split_at (T ".post") s 0 cur = [rev cur ++ s].
Proof.
  revert cur. induction s as [| c s IH]; intros cur H.
  - cbn. now rewrite app_nil_r.
  - cbn [split_at]. destruct (startswith (c :: s) (T ".post")) eqn:E.
    + apply startswith_iff in E as (r & E). exfalso. now apply (H [] r).
    + rewrite IH.
      * cbn. now rewrite <- app_assoc.
      * intros a b X. apply (H (c :: a) b). now rewrite X.
Qed.

Lemma split_skip n sep0 s cur :
  split_at sep0 s n cur = split_at sep0 (skipn n s) 0 cur.
Proof.
  revert s. induction n as [| n IH]; intros s; [easy|].
  destruct s as [| c s]; [easy|]. cbn. apply IH.
Qed.

Lemma split_post a b cur :
  ~ In (ch "p") a -> (forall x y, b <> x ++ T ".post" ++ y) ->
  split_at (T ".post") (a ++ T ".post" ++ b) 0 cur = [rev cur ++ a; b].
Proof.
  intros Ha Hb. revert cur. induction a as [| c a IH]; intros cur.
  - cbn [app]. rewrite app_nil_r.
    change (T ".post" ++ b) with (ch "." :: (T "post" ++ b)).
    cbn [split_at].
    replace (startswith (ch "." :: T "post" ++ b) (T ".post")) with true
      by (symmetry; exact (startswith_app (T ".post") b)).
    rewrite split_skip. change (List.length (T ".post") - 1)%nat with 4.
    change (skipn 4 (T "post" ++ b)) with b.
    rewrite split_none by easy. reflexivity.
  - cbn [app split_at].
    replace (startswith (c :: a ++ T ".post" ++ b) (T ".post")) with false.
    + rewrite IH.
      * cbn. now rewrite <- app_assoc.
      * intros X. apply Ha. now right.
    + symmetry. apply not_true. intros E. apply startswith_iff in E as (r & E).
      destruct a as [| c' a]; cbn in E.
      * discriminate E.
      * injection E as _ E _. subst c'. apply Ha. right. now left.
Qed.

Lemma no_post_digits n : number n -> forall x y, n <> x ++ T ".post" ++ y.
Proof.
  intros H x y ->. assert (D : digit (ch ".")).
  { apply (number_chars _ _ H). apply in_or_app. right. now left. }
  revert D. now apply not_digit.
Qed.

Definition stem (q : parts) : text :=
  with_opt (fun e => e ++ T "!") (q_epoch q) ++ dots (q_release q)
  ++ with_opt (fun '(k, n) => k ++ n) (q_pre q).

Lemma stem_no_p q : parts_ok q -> ~ In (ch "p") (stem q).
Proof.
  intros (He & (_ & Hr) & Hp & _) H. unfold stem in H.
  assert (N : forall s, number s -> ~ In (ch "p") s).
  { intros s Hs X. apply (number_chars _ _ Hs) in X.
    revert X. now apply not_digit. }
  apply in_app_or in H as [H | H].
  { destruct (q_epoch q) as [e |]; [|easy]. cbn [with_opt all_opt] in H, He.
    apply in_app_or in H as [H | H]; [now apply (N e)|].
    destruct H as [H | []]. discriminate H. }
  apply in_app_or in H as [H | H].
  { apply dots_chars in H as [H | (x & Hx & H)]; [discriminate H|].
    rewrite Forall_forall in Hr. now apply (N x); auto. }
  destruct (q_pre q) as [[k n] |]; [|easy]. cbn [with_opt all_opt] in H, Hp.
  destruct Hp as [Hk Hn]. apply in_app_or in H as [H | H]; [|now apply (N n)].
  destruct Hk as [<- | [<- | [<- | []]]]; cbn in H; intuition discriminate.
Qed.

Lemma pre_style p q d :
  tagged p q d -> q_local q = None -> q_dev q = None ->
  exists q', render_pep440_pre p = VOk (spell q') /\ parts_ok q' /\
    (d = 0%Z /\ q' = q \/
     d <> 0%Z /\ (q_epoch q', q_release q', q_pre q', q_local q')
                 = (q_epoch q, q_release q, q_pre q, q_local q) /\
     q_dev q' = Some (dec d) /\
     exists n, q_post q' = Some (dec n) /\
       match q_post q with
       | None => n = 0%Z
       | Some m => n = (Z.of_N (num m) + 1)%Z
       end).
Proof.
  intros H El Ed. pose proof H as (Ht & Hd & Pd & Hs & Hq).
  unfold render_pep440_pre, the_tag, the_dist. rewrite Ht, Hd.
  cbn [need vbind]. rewrite truthy_spell by easy.
  destruct (Z.eqb_spec d 0) as [-> | Nz]; cbn [negb get_text].
  { exists q. split; [easy|]. split; [easy|]. now left. }
  assert (Es : spell q = stem q ++ with_opt (fun n => T ".post" ++ n) (q_post q)).
  { rewrite spell_split. unfold front, tail_of, stem. rewrite El, Ed.
    cbn [with_opt]. now rewrite !app_nil_r, <- !app_assoc. }
  assert (Nd : number (dec d)) by now apply numeral_number, dec_numeral.
  assert (Fin : forall n, (0 <= n)%Z -> exists q',
    parts_ok q' /\
    spell q' = stem q ++ T ".post" ++ dec n ++ T ".dev" ++ dec d /\
    (q_epoch q', q_release q', q_pre q', q_local q')
      = (q_epoch q, q_release q, q_pre q, q_local q) /\
    q_dev q' = Some (dec d) /\ q_post q' = Some (dec n)).
  { intros n Pn. exists (set_post_dev q (Some (dec n)) (Some (dec d))).
    destruct Hq as (He & Hr & Hp & Hs' & Hd' & Hl).
    split; [|split; [|split; [|split]]]; try reflexivity.
    - unfold set_post_dev.
      repeat (split; [first [easy | now apply numeral_number, dec_numeral] |]).
      exact Hl.
    - rewrite spell_split. unfold front, tail_of, stem, set_post_dev. cbn [q_epoch q_release q_pre q_post q_dev q_local]. rewrite El.
      cbn [with_opt]. now rewrite app_nil_r, <- !app_assoc. }
  unfold pep440_split_post. rewrite Es. destruct (q_post q) as [m |] eqn:Ep;
    cbn [with_opt].
  - assert (Hm : number m).
    { destruct Hq as (_ & _ & _ & Hm & _). now rewrite Ep in Hm. }
    rewrite split_post by (try apply no_post_digits; try apply stem_no_p; easy).
    destruct Hm as [Nm Dm]. cbn [rev app].
    assert (Pm : match m with
                 | [] => VOk (stem q, Some 0%Z)
                 | _ :: _ => vbind (need XValue (py_int m))
                               (fun z => VOk (stem q, Some z))
                 end = VOk (stem q, Some (Z.of_N (num m)))).
    { rewrite py_int_num by easy. now destruct m. }
    rewrite Pm. cbn [vbind].
    destruct (Fin (Z.of_N (num m) + 1)%Z) as (q' & H1 & H2 & H3 & H4 & H5); [lia|].
    exists q'. rewrite H2. split; [easy|]. split; [easy|]. right.
    split; [easy|]. split; [easy|]. split; [easy|].
    now exists (Z.of_N (num m) + 1)%Z.
  - rewrite app_nil_r. rewrite split_none.
    + cbn [rev app vbind].
      destruct (Fin 0%Z) as (q' & H1 & H2 & H3 & H4 & H5); [lia|].
      exists q'. rewrite H2. split; [|split; [easy|]].
      { change (T ".post0.dev") with (T ".post" ++ T "0" ++ T ".dev").
        rewrite <- !app_assoc. reflexivity. }
      right. split; [easy|]. split; [easy|]. split; [easy|]. now exists 0%Z.
    + intros a b X. apply (stem_no_p q Hq). rewrite X. apply in_or_app. right.
      apply in_or_app. left. apply mem_in; reflexivity.
Qed.

(* ------------------------------------------------------------------ *)
(** Without a tag *)

Definition zero_parts (post dev : option text) (l : option (list text)) : parts :=
  Parts None [T "0"] None post dev l.

Lemma zero_ok post dev l :
  all_opt number post -> all_opt number dev ->
  all_opt (fun l => l <> [] /\ Forall segment l) l ->
  parts_ok (zero_parts post dev l).
Proof.
  intros H1 H2 H3. unfold zero_parts, parts_ok. cbn [q_epoch q_release q_pre q_post q_dev q_local all_opt].
  split; [easy|]. split.
  { split; [easy|]. constructor; [apply zero_number | constructor]. }
  tauto.
Qed.

Lemma untagged_styles p d s :
  bare_pieces p d ->
  In s (map T ["pep440"; "pep440-branch"; "pep440-pre"; "pep440-post";
               "pep440-post-branch"; "pep440-old"]%string) ->
  exists v, render_style s p = VOk v /\ pep440 v.
Proof.
  intros (Ht & Hd & Pd & Hs) Hin.
  assert (Nd : number (dec d)) by now apply numeral_number, dec_numeral.
  assert (Sd : segment (dec d)) by now apply number_segment.
  assert (Sg : segment (T "g" ++ p_short p)) by now apply hash_segment.
  assert (Su : segment (T "untagged"))
    by (split; [easy | apply all_alnum; reflexivity]).
  set (l1 := [T "untagged"; dec d; T "g" ++ p_short p]
               ++ if p_dirty p then [T "dirty"] else []).
  set (l2 := [T "g" ++ p_short p]
               ++ if p_dirty p then [T "dirty"] else []).
  assert (F1 : Forall segment l1).
  { unfold l1. cbn [app]. repeat (apply Forall_cons; [easy|]).
    destruct (p_dirty p); constructor; [apply dirty_segment | constructor]. }
  assert (F2 : Forall segment l2).
  { unfold l2. cbn [app]. repeat (apply Forall_cons; [easy|]).
    destruct (p_dirty p); constructor; [apply dirty_segment | constructor]. }
  assert (D1 : dots l1 = T "untagged." ++ dec d ++ T ".g" ++ p_short p
                         ++ if_dirty p ".dirty").
  { unfold l1, if_dirty. destruct (p_dirty p); cbn [app dots];
      change (T ".g") with (T "." ++ T "g");
      change (T "untagged.") with (T "untagged" ++ T ".");
      rewrite <- ?app_assoc, ?app_nil_r; reflexivity. }
  assert (D2 : dots l2 = T "g" ++ p_short p ++ if_dirty p ".dirty").
  { unfold l2, if_dirty. destruct (p_dirty p); cbn [app dots];
      rewrite <- ?app_assoc, ?app_nil_r; reflexivity. }
  assert (Off : all_opt number (if off_master p then Some (T "0") else None))
    by (destruct (off_master p); [apply zero_number | easy]).
  assert (Dir : all_opt number (if p_dirty p then Some (T "0") else None))
    by (destruct (p_dirty p); [apply zero_number | easy]).
  cbn [map] in Hin.
  repeat (destruct Hin as [<- | Hin]); [.. | easy].
  - change (render_style (T "pep440") p) with (render_pep440 p).
    unfold render_pep440, the_tag, the_dist. rewrite Ht, Hd. cbn [need vbind truthy].
    eexists. split; [reflexivity|].
    exists (zero_parts None None (Some l1)). split; [now apply zero_ok|].
    unfold spell, zero_parts. cbn [q_epoch q_release q_pre q_post q_dev q_local with_opt dots app]. rewrite D1. reflexivity.
  - change (render_style (T "pep440-branch") p) with (render_pep440_branch p).
    unfold render_pep440_branch, the_tag, the_dist. rewrite Ht, Hd. cbn [need vbind truthy].
    eexists. split; [reflexivity|].
    exists (zero_parts None (if off_master p then Some (T "0") else None) (Some l1)).
    split; [now apply zero_ok|].
    unfold spell, zero_parts, if_off. cbn [q_epoch q_release q_pre q_post q_dev q_local with_opt dots app]. rewrite D1.
    destruct (off_master p); reflexivity.
  - change (render_style (T "pep440-pre") p) with (render_pep440_pre p).
    unfold render_pep440_pre, the_tag, the_dist. rewrite Ht, Hd. cbn [need vbind truthy].
    eexists. split; [reflexivity|].
    exists (zero_parts (Some (T "0")) (Some (dec d)) None).
    split; [apply zero_ok; try easy; apply zero_number|].
    unfold spell, zero_parts. cbn [q_epoch q_release q_pre q_post q_dev q_local with_opt dots app]. rewrite app_nil_r. reflexivity.
  - change (render_style (T "pep440-post") p) with (render_pep440_post p).
    unfold render_pep440_post, the_tag, the_dist. rewrite Ht, Hd. cbn [need vbind truthy].
    eexists. split; [reflexivity|].
    exists (zero_parts (Some (dec d)) (if p_dirty p then Some (T "0") else None)
              (Some [T "g" ++ p_short p])).
    split; [apply zero_ok; try easy; split; [easy | constructor; [easy | constructor]]|].
    unfold spell, zero_parts, if_dirty. cbn [q_epoch q_release q_pre q_post q_dev q_local with_opt dots app].
    destruct (p_dirty p); rewrite <- ?app_assoc; reflexivity.
  - change (render_style (T "pep440-post-branch") p)
      with (render_pep440_post_branch p).
    unfold render_pep440_post_branch, the_tag, the_dist. rewrite Ht, Hd. cbn [need vbind truthy].
    eexists. split; [reflexivity|].
    exists (zero_parts (Some (dec d)) (if off_master p then Some (T "0") else None)
              (Some l2)).
    split; [now apply zero_ok|].
    unfold spell, zero_parts, if_off. cbn [q_epoch q_release q_pre q_post q_dev q_local with_opt dots app]. rewrite D2.
    destruct (off_master p); rewrite <- ?app_assoc; reflexivity.
  - change (render_style (T "pep440-old") p) with (render_pep440_old p).
    unfold render_pep440_old, the_tag, the_dist. rewrite Ht, Hd. cbn [need vbind truthy].
    eexists. split; [reflexivity|].
    exists (zero_parts (Some (dec d)) (if p_dirty p then Some (T "0") else None)
              None).
    split; [now apply zero_ok|].
    unfold spell, zero_parts, if_dirty. cbn [q_epoch q_release q_pre q_post q_dev q_local with_opt dots app].
    destruct (p_dirty p); rewrite <- ?app_assoc, ?app_nil_r; reflexivity.
Qed.

(* ------------------------------------------------------------------ *)
(** A version has one post release and one development number at most *)

Definition count (c : ascii) (s : text) : nat := count_occ ascii_dec s c.

Lemma count_app c a b : count c (a ++ b) = (count c a + count c b)%nat.
Proof. apply count_occ_app. Qed.

Lemma count_0 c s : ~ In c s -> count c s = 0%nat.
Proof. intros H. now apply count_occ_not_In. Qed.

Definition before_plus (v : text) : text := fst (span (fun c => negb (Ascii.eqb c (ch "+"))) v).

Lemma front_before q : parts_ok q -> before_plus (spell q) = front q.
Proof.
  intros H. rewrite spell_split. unfold before_plus.
  assert (F : Forall (fun c => negb (Ascii.eqb c (ch "+")) = true) (front q)).
  { apply Forall_forall. intros c X. apply negb_true_iff, not_true.
    intros E. apply Ascii.eqb_eq in E. subst. now apply (front_no_plus q). }
  unfold tail_of. destruct (q_local q) as [l |]; cbn [with_opt].
  - change (T "+" ++ dots l) with (ch "+" :: dots l).
    now rewrite span_exact.
  - rewrite app_nil_r. clear H.
    induction F as [| c r Hc _ IH]; [easy|]. cbn [span]. rewrite Hc.
    destruct (span _ r) as [a b]. cbn in *. now rewrite IH.
Qed.

Lemma one_post v : pep440 v -> (count (ch "p") (before_plus v) <= 1)%nat.
Proof.
  intros (q & H & ->). rewrite front_before by easy.
  replace (front q) with (stem q ++ with_opt (fun n => T ".post" ++ n) (q_post q)
                          ++ with_opt (fun n => T ".dev" ++ n) (q_dev q))
    by (unfold front, stem; now rewrite <- !app_assoc).
  rewrite !count_app, (count_0 _ (stem q)) by now apply stem_no_p.
  assert (N : forall s, number s -> count (ch "p") s = 0%nat).
  { intros s Hs. apply count_0. intros X. apply (number_chars _ _ Hs) in X.
    revert X. now apply not_digit. }
  destruct H as (_ & _ & _ & Hp & Hd & _).
  assert (K1 : count (ch "p") (T ".post") = 1%nat) by reflexivity.
  assert (K2 : count (ch "p") (T ".dev") = 0%nat) by reflexivity.
  assert (K3 : count (ch "p") [] = 0%nat) by reflexivity.
  destruct (q_post q) as [m |], (q_dev q) as [n |];
    cbn [with_opt all_opt] in *; rewrite ?count_app;
    try rewrite (N m) by easy; try rewrite (N n) by easy;
    rewrite ?K1, ?K2, ?K3; lia.
Qed.

Lemma one_dev v : pep440 v -> (count (ch "v") (before_plus v) <= 1)%nat.
Proof.
  intros (q & H & ->). rewrite front_before by easy.
  replace (front q) with (stem q ++ with_opt (fun n => T ".post" ++ n) (q_post q)
                          ++ with_opt (fun n => T ".dev" ++ n) (q_dev q))
    by (unfold front, stem; now rewrite <- !app_assoc).
  assert (N : forall s, number s -> count (ch "v") s = 0%nat).
  { intros s Hs. apply count_0. intros X. apply (number_chars _ _ Hs) in X.
    revert X. now apply not_digit. }
  assert (St : count (ch "v") (stem q) = 0%nat).
  { destruct H as (He & (_ & Hr) & Hp & _). unfold stem. rewrite !count_app.
    replace (count (ch "v") (with_opt _ (q_epoch q))) with 0%nat.
    2:{ destruct (q_epoch q); cbn [with_opt all_opt] in *; [|easy].
        now rewrite count_app, N. }
    replace (count (ch "v") (dots (q_release q))) with 0%nat.
    2:{ symmetry. apply count_0. intros X.
        apply dots_chars in X as [X | (x & Hx & X)]; [discriminate X|].
        rewrite Forall_forall in Hr. specialize (N x (Hr x Hx)).
        apply count_occ_not_In in N. easy. }
    destruct (q_pre q) as [[k n] |]; cbn [with_opt all_opt] in *; [|easy].
    destruct Hp as [Hk Hn]. rewrite count_app, (N n) by easy.
    destruct Hk as [<- | [<- | [<- | []]]]; reflexivity. }
  rewrite !count_app, St.
  destruct H as (_ & _ & _ & Hp & Hd & _).
  assert (K1 : count (ch "v") (T ".post") = 0%nat) by reflexivity.
  assert (K2 : count (ch "v") (T ".dev") = 1%nat) by reflexivity.
  assert (K3 : count (ch "v") [] = 0%nat) by reflexivity.
  destruct (q_post q) as [m |], (q_dev q) as [n |];
    cbn [with_opt all_opt] in *; rewrite ?count_app;
    try rewrite (N m) by easy; try rewrite (N n) by easy;
    rewrite ?K1, ?K2, ?K3; lia.
Qed.

(* ------------------------------------------------------------------ *)

Lemma value_num s : Forall digit s -> value s = Z.of_N (num s).
Proof.
  intros H. unfold value, num.
  assert (G : forall s, Forall digit s -> forall a,
    fold_left (fun a c => 10 * a + (Z.of_N (code c) - 48))%Z s (Z.of_N a)
    = Z.of_N (fold_left (fun a c => (10 * a + (code c - 48))%N) s a)).
  { clear. induction 1 as [| c r Hc _ IH]; intros a; [reflexivity|].
    cbn [fold_left]. rewrite <- IH. f_equal.
    assert (48 <= code c)%N.
    { apply is_digit_iff in Hc. unfold is_digit in Hc.
      apply andb_true_iff in Hc as [Hc _]. now apply N.leb_le. }
    lia. }
  exact (G s H 0%N).
Qed.

Lemma value_dec n : (0 <= n)%Z -> value (dec n) = n.
Proof.
  intros H. rewrite value_num; [now apply num_dec|].
  now destruct (dec_numeral n H) as (_ & D & _).
Qed.

(** The statements of the theorem file. *)
Lemma default_shape p q d :
  tagged p q d ->
  exists q', render_pep440 p = VOk (spell q') /\ parts_ok q' /\ pub q' = pub q /\
   (d = 0%Z /\ p_dirty p = false /\ q' = q \/
     (d <> 0%Z \/ p_dirty p = true) /\
    exists n, numeral n /\ value n = d /\
      q_local q' = Some (label q ++ [n; T "g" ++ p_short p]
                          ++ (if p_dirty p then [T "dirty"] else []))).
Proof.
  intros H. pose proof H as (Ht & Hd & Pd & Hs & Hq).
  unfold render_pep440, the_tag, changed, the_dist. rewrite Ht, Hd.
  cbn [need vbind]. rewrite truthy_spell by easy. rewrite (sep_of p q d H).
  destruct (negb (d =? 0)%Z || p_dirty p) eqn:C; cbn [vbind get_text].
  - exists (add_local q (mark p d)).
    rewrite add_local_spell, mark_text by easy. split; [easy|].
    split; [apply add_local_ok; try easy; now apply mark_ok|].
    split; [easy|]. right. split.
    { apply orb_true_iff in C as [C | C]; [left | now right].
      apply negb_true_iff, Z.eqb_neq in C. exact C. }
    exists (dec d). split; [now apply dec_numeral|].
    split; [now apply value_dec|]. cbn. unfold label, mark.
    now destruct (q_local q).
  - apply orb_false_iff in C as [C1 C2]. apply negb_false_iff, Z.eqb_eq in C1.
    exists q. split; [easy|]. split; [easy|]. split; [easy|]. now left.
Qed.

Lemma pre_shape p q d :
  tagged p q d -> q_local q = None -> q_dev q = None ->
  exists q', render_pep440_pre p = VOk (spell q') /\ parts_ok q' /\
   (d = 0%Z /\ q' = q \/
     d <> 0%Z /\
    exists n m, number n /\ number m /\ value n = d /\
      value m = match q_post q with None => 0%Z | Some k => (value k + 1)%Z end /\
      q' = Parts (q_epoch q) (q_release q) (q_pre q) (Some m) (Some n) None).
Proof.
  intros H El Ed. pose proof H as (Ht & Hd & Pd & Hs & Hq).
  destruct (pre_style p q d H El Ed) as (q' & E & Ok & [(-> & ->) | C]).
  - exists q. split; [easy|]. split; [easy|]. now left.
  - destruct C as (Nz & X & Dv & n & Pn & Vn).
    exists q'. split; [easy|]. split; [easy|]. right. split; [easy|].
    assert (N0 : (0 <= n)%Z).
    { destruct (q_post q); lia. }
    exists (dec d), (dec n). split; [now apply numeral_number, dec_numeral|].
    split; [now apply numeral_number, dec_numeral|].
    split; [now apply value_dec|]. split.
    + rewrite value_dec by easy. destruct (q_post q) as [k |] eqn:Ep; [|easy].
      destruct Hq as (_ & _ & _ & Hk & _). rewrite Ep in Hk.
      destruct Hk as [_ Hk]. now rewrite value_num.
    + destruct q' as [a b c e g h]. cbn in *. injection X as -> -> -> ->.
      congruence.
Qed.
