(** The version of an archive made by git (M_Version). *)
From Coq Require Import List ZArith Ascii String Bool Lia Sorted.
From Verif Require Import M_Version S_Version P_VText P_VNum P_VGit P_VPieces.
Import ListNotations.
Open Scope list_scope.

Lemma code_inj x y : code x = code y -> x = y.
Proof.
  unfold code. intros E. rewrite <- (ascii_N_embedding x), E.
  apply ascii_N_embedding.
Qed.

Lemma alpha_cons x a b : alpha_lt a b -> alpha_lt (x :: a) (x :: b).
Proof.
  intros [(y & r & ->) | (p & y & z & a' & b' & -> & -> & L)].
  - left. now exists y, r.
  - right. now exists (x :: p), y, z, a', b'.
Qed.

Lemma tlt_alpha a b : tlt a b = true <-> alpha_lt a b.
Proof.
  split.
  - revert b. induction a as [| x a IH]; intros [| y b] H; try easy.
    + left. now exists y, b.
    + cbn in H. destruct (N.ltb_spec (code x) (code y)) as [L | L].
      * right. now exists [], x, y, a, b.
      * destruct (N.ltb_spec (code y) (code x)) as [L' | L']; [easy|].
        assert (x = y) by (apply code_inj; lia). subst y.
        now apply alpha_cons, IH.
  - intros [(y & r & ->) | (p & y & z & a' & b' & -> & -> & L)].
    + induction a as [| x a IH]; [easy|]. cbn. now rewrite N.ltb_irrefl.
    + induction p as [| x p IH]; cbn.
      * now rewrite (proj2 (N.ltb_lt _ _) L).
      * now rewrite N.ltb_irrefl.
Qed.

Lemma tlt_trans a b c : tlt a b = true -> tlt b c = true -> tlt a c = true.
Proof.
  revert b c. induction a as [| x a IH]; intros [| y b] [| z c]; cbn; try easy.
  destruct (N.ltb_spec (code x) (code y)), (N.ltb_spec (code y) (code x)),
    (N.ltb_spec (code y) (code z)), (N.ltb_spec (code z) (code y)),
    (N.ltb_spec (code x) (code z)), (N.ltb_spec (code z) (code x));
    try easy; try lia. apply IH.
Qed.

Lemma tlt_total a b : tlt a b = false -> tlt b a = false -> a = b.
Proof.
  revert b. induction a as [| x a IH]; intros [| y b]; cbn; try easy.
  destruct (N.ltb_spec (code x) (code y)), (N.ltb_spec (code y) (code x));
    try easy; try lia.
  intros H1 H2. f_equal; [apply code_inj; lia | now apply IH].
Qed.

Lemma insert_in x l t : In t (insert x l) <-> t = x \/ In t l.
Proof.
  induction l as [| y l IH]; cbn; [intuition|].
  destruct (tlt x y) eqn:E1; [cbn; intuition|].
  destruct (tlt y x) eqn:E2; cbn.
  - rewrite IH. intuition.
  - rewrite (tlt_total x y) by easy. intuition.
Qed.

Lemma sorted_in l t : In t (sorted_set l) <-> In t l.
Proof.
  induction l as [| x l IH]; cbn; [easy|]. rewrite insert_in, IH. intuition.
Qed.

Definition lt_t (a b : text) : Prop := tlt a b = true.

Lemma insert_sorted x l :
  StronglySorted lt_t l -> StronglySorted lt_t (insert x l).
Proof.
  induction 1 as [| y l H IH F]; cbn.
  - repeat constructor.
  - destruct (tlt x y) eqn:E1.
    + constructor; [now constructor|]. constructor; [easy|].
      revert F. apply Forall_impl. intros z. now apply tlt_trans.
    + destruct (tlt y x) eqn:E2; [|now constructor].
      constructor; [easy|]. rewrite Forall_forall in *.
      intros z Hz. apply insert_in in Hz as [-> | Hz]; auto.
Qed.

Lemma sorted_sorted l : StronglySorted lt_t (sorted_set l).
Proof.
  induction l as [| x l IH]; [constructor|]. cbn. now apply insert_sorted.
Qed.

Lemma pick_some l r :
  StronglySorted lt_t l -> pick [] l = Some r ->
  In r l /\ starts_digit r /\
  (forall t, In t l -> starts_digit t -> t = r \/ alpha_lt r t).
Proof.
  induction 1 as [| x l H IH F]; cbn; [easy|].
  replace (startswith x []) with true by (now destruct x).
  rewrite Forall_forall in F.
  destruct x as [| c x].
  - intros E. destruct (IH E) as (H1 & H2 & H3). split; [now right|].
    split; [easy|]. intros t [<- | Ht] D; [|now apply H3].
    destruct D as (c & q & D & _). discriminate D.
  - destruct (is_digit c) eqn:Ec.
    + intros [= <-]. split; [now left|]. split.
      { exists c, x. split; [easy|]. now apply is_digit_iff. }
      intros t [<- | Ht] D; [now left|]. right. apply tlt_alpha.
      now apply F.
    + intros E. destruct (IH E) as (H1 & H2 & H3). split; [now right|].
      split; [easy|]. intros t [<- | Ht] D; [|now apply H3].
      destruct D as (c' & q & D & Dc). injection D as <- <-.
      apply is_digit_iff in Dc. congruence.
Qed.

Lemma pick_none l :
  pick [] l = None -> forall t, In t l -> ~ starts_digit t.
Proof.
  induction l as [| x l IH]; cbn; [easy|].
  replace (startswith x []) with true by (now destruct x).
  destruct x as [| c x].
  - intros E t [<- | Ht]; [|now apply IH]. intros (c & q & D & _).
    discriminate D.
  - destruct (is_digit c) eqn:Ec; [easy|].
    intros E t [<- | Ht]; [|now apply IH]. intros (c' & q & D & Dc).
    injection D as <- <-. apply is_digit_iff in Dc. congruence.
Qed.

(* ------------------------------------------------------------------ *)

Lemma tags_candidate rs t : In t (tags_of rs) <-> candidate rs t.
Proof.
  unfold tags_of, candidate.
  assert (M : forall u,
    In u (map (skipn 5) (filter (fun r => startswith r (T "tag: ")) rs)) <->
    In (T "tag: " ++ u) rs).
  { intros u. rewrite in_map_iff. split.
    - intros (r & <- & H). apply filter_In in H as [H1 H2].
      apply startswith_iff in H2 as (q & ->). exact H1.
    - intros H. exists (T "tag: " ++ u). split; [reflexivity|].
      apply filter_In. split; [easy|]. apply startswith_app. }
  destruct (map (skipn 5) (filter (fun r => startswith r (T "tag: ")) rs))
    as [| u0 us] eqn:E.
  - rewrite filter_In, existsb_exists. split.
    + intros (H1 & c & Hc & D). right. split.
      { intros u X. apply M in X. easy. }
      split; [easy|]. exists c. split; [easy|]. now apply is_digit_iff.
    + intros [H | (_ & H1 & c & Hc & D)].
      * apply M in H. easy.
      * split; [easy|]. exists c. split; [easy|]. now apply is_digit_iff.
  - rewrite <- M. split; [now left|]. intros [H | (H & _)]; [easy|].
    exfalso. apply (H u0), M. now left.
Qed.

Lemma split_commas rs :
  rs <> [] -> Forall ref_name rs ->
  exists bs, split_on (ch ",") (commas rs) = bs /\ map strip bs = rs.
Proof.
  intros N H. eexists. split; [reflexivity|].
  assert (G : forall r rs, ref_name r -> Forall ref_name rs ->
    forall sp, sp = [] \/ sp = T " " ->
    map strip (split_on (ch ",") (sp ++ commas (r :: rs))) = r :: rs).
  { clear. intros r rs Hr H. revert r Hr.
    induction H as [| r' rs Hr' H IH]; intros r Hr sp Hs.
    - cbn [commas]. rewrite split_on_none.
      + cbn [map]. f_equal. destruct Hr as (_ & B & _).
        unfold strip. rewrite <- (app_nil_r r) at 1.
        apply strip_exact; try constructor.
        * destruct Hs as [-> | ->]; [constructor|].
          constructor; [reflexivity|constructor].
        * intros c q E. apply not_space. now apply (proj1 B c q).
        * intros c q E. apply not_space. now apply (proj2 B c q).
      + intros X. apply in_app_or in X as [X | X].
        * destruct Hs as [-> | ->]; [easy|]. destruct X as [X | []].
          discriminate X.
        * destruct Hr as (_ & _ & C & _). easy.
    - change (commas (r :: r' :: rs)) with (r ++ T ", " ++ commas (r' :: rs)).
      change (T ", ") with (ch "," :: T " "). cbn [app].
      rewrite app_assoc, split_on_app.
      + cbn [map]. f_equal.
        * destruct Hr as (_ & B & _).
          unfold strip. rewrite <- (app_nil_r r) at 1.
          apply strip_exact; try constructor.
          -- destruct Hs as [-> | ->]; [constructor|].
             constructor; [reflexivity|constructor].
          -- intros c q E. apply not_space. now apply (proj1 B c q).
          -- intros c q E. apply not_space. now apply (proj2 B c q).
        * apply (IH r' Hr' (T " ")). now right.
      + intros X. apply in_app_or in X as [X | X].
        * destruct Hs as [-> | ->]; [easy|]. destruct X as [X | []].
          discriminate X.
        * destruct Hr as (_ & _ & C & _). easy. }
  destruct rs as [| r rs]; [easy|]. inversion H; subst.
  apply (G r rs) with (sp := []); auto.
Qed.

Definition paren (c : ascii) : bool :=
  Ascii.eqb c (ch "(") || Ascii.eqb c (ch ")").

Lemma commas_chars rs c :
  In c (commas rs) -> c = ch "," \/ c = ch " " \/ exists r, In r rs /\ In c r.
Proof.
  induction rs as [| r rs IH]; [easy|].
  destruct rs as [| r' rs].
  - cbn [commas]. intros H. right. right. exists r. split; [now left|easy].
  - change (commas (r :: r' :: rs)) with (r ++ T ", " ++ commas (r' :: rs)).
    intros H. apply in_app_or in H as [H | H].
    + right. right. exists r. split; [now left|easy].
    + apply in_app_or in H as [H | H].
      * destruct H as [H | [H | []]]; [left | right; left]; symmetry; exact H.
      * destruct (IH H) as [X | [X | (q & Hq & X)]]; auto.
        right. right. exists q. split; [now right|easy].
Qed.

Lemma refs_exact txt rs :
  decoration txt rs ->
  startswith (strip txt) (T "$Format") = false /\
  (rs = [] -> refs_of (strip txt) = [[]]) /\
  (rs <> [] -> refs_of (strip txt) = rs).
Proof.
  intros (Hr & [(-> & H) | (N & a & b & Ha & Hb & ->)]).
  - assert (E : strip txt = []).
    { unfold strip. rewrite <- (app_nil_r txt). change (@nil ascii) with (@nil ascii ++ @nil ascii) at 1.
      apply (strip_exact is_space txt [] []); try constructor; try easy.
      - revert H. apply Forall_impl. intros c X. now apply is_space_iff, blank_white.
      - intros c [| ? ?] X; discriminate X. }
    rewrite E. split; [reflexivity|]. split; [|easy]. intros _. reflexivity.
  - assert (E : strip (a ++ T "(" ++ commas rs ++ T ")" ++ b)
                = T "(" ++ commas rs ++ T ")").
    { unfold strip.
      replace (a ++ T "(" ++ commas rs ++ T ")" ++ b)
        with (a ++ (T "(" ++ commas rs ++ T ")") ++ b)
        by (rewrite <- !app_assoc; reflexivity).
      apply strip_exact.
      - revert Ha. apply Forall_impl. intros c X.
        now apply is_space_iff, blank_white.
      - revert Hb. apply Forall_impl. intros c X.
        now apply is_space_iff, blank_white.
      - intros c r X. cbn in X. injection X as <- _. reflexivity.
      - intros c r X. rewrite app_assoc in X. apply app_inj_tail in X as [_ <-].
        reflexivity. }
    rewrite E. split; [reflexivity|]. split; [easy|]. intros _.
    unfold refs_of. fold paren.
    assert (P : strip_by paren (T "(" ++ commas rs ++ T ")") = commas rs).
    { assert (K : forall c, In c (commas rs) -> paren c = false).
      { intros c X. apply commas_chars in X as [-> | [-> | (r & Hi & X)]];
          try reflexivity.
        rewrite Forall_forall in Hr. destruct (Hr r Hi) as (_ & _ & _ & H1 & H2).
        unfold paren. apply orb_false_iff.
        split; apply not_true; intros Q; apply Ascii.eqb_eq in Q; subst; easy. }
      apply strip_exact.
      - constructor; [reflexivity|constructor].
      - constructor; [reflexivity|constructor].
      - intros c r X. apply K. rewrite X. now left.
      - intros c r X. apply K. rewrite X. apply in_or_app. right. now left. }
    change (fun c => Ascii.eqb c (ch "(") || Ascii.eqb c (ch ")")) with paren.
    rewrite P. now destruct (split_commas rs N Hr) as (bs & -> & ->).
Qed.

(** No refs or one empty ref: there are no candidates either way. *)
Lemma cand_none t : candidate [[]] t -> False.
Proof.
  intros [[H | []] | (_ & [<- | []] & c & [] & _)]. discriminate H.
Qed.

Lemma keywords_run k txt rs full :
  k_refnames k = Some txt -> decoration txt rs -> k_full k = Some full ->
  (k_date k = None \/
   exists d1 d2 d3, date_parts d1 d2 d3 /\
                    k_date k = Some (d1 ++ T " " ++ d2 ++ T " " ++ d3)) ->
  exists v,
    (forall sy, get_versions k sy = VOk v) /\
    v_full v = Some (strip full) /\ v_dirty v = Some false /\
    ((v_error v = None /\
      (v_date v = None /\ k_date k = None \/
       exists d1 d2 d3, date_parts d1 d2 d3 /\
         k_date k = Some (d1 ++ T " " ++ d2 ++ T " " ++ d3) /\
         v_date v = Some (d1 ++ T "T" ++ d2 ++ d3)) /\
      candidate rs (v_version v) /\ starts_digit (v_version v) /\
      (forall t, candidate rs t -> starts_digit t ->
                 t = v_version v \/ alpha_lt (v_version v) t)) \/
     (v_version v = T "0+unknown" /\ v_error v = Some (T "no suitable tags") /\
      v_date v = None /\ forall t, candidate rs t -> ~ starts_digit t)).
Proof.
  intros Hk Hd Hf Dt.
  destruct (refs_exact txt rs Hd) as (F & R1 & R2).
  assert (C : forall t, In t (tags_of (refs_of (strip txt))) <-> candidate rs t).
  { intros t. rewrite tags_candidate. destruct rs as [| r rs].
    - rewrite (R1 eq_refl). split; intros X; exfalso.
      + now apply cand_none in X.
      + destruct X as [[] | (_ & [] & _)].
    - now rewrite R2. }
  assert (D : exists dt,
    match k_date k with
    | None => VOk None
    | Some d => vbind (fix_date d) (fun d => VOk (Some d))
    end = VOk dt /\
    (dt = None /\ k_date k = None \/
       exists d1 d2 d3, date_parts d1 d2 d3 /\
         k_date k = Some (d1 ++ T " " ++ d2 ++ T " " ++ d3) /\
         dt = Some (d1 ++ T "T" ++ d2 ++ d3))).
  { destruct Dt as [-> | (d1 & d2 & d3 & Dp & Ed)].
    - exists None. split; [easy|]. now left.
    - exists (Some (d1 ++ T "T" ++ d2 ++ d3)). rewrite Ed. fold (date_text d1 d2 d3).
      rewrite date_fixed by easy. cbn [vbind]. split; [easy|]. right.
      now exists d1, d2, d3. }
  destruct D as (dt & D & Ddt).
  assert (G : forall v sy, git_versions_from_keywords k cfg_tag_prefix = VOk v ->
                           get_versions k sy = VOk v).
  { intros v sy E. unfold get_versions. rewrite E. reflexivity. }
  unfold git_versions_from_keywords in G. rewrite Hk, Hf in G.
  cbn [need vbind] in G. rewrite D in G. cbn [vbind] in G.
  rewrite F in G. unfold cfg_tag_prefix in G. rewrite T_nil in G.
  pose proof (pick_some (sorted_set (tags_of (refs_of (strip txt))))) as PS.
  pose proof (pick_none (sorted_set (tags_of (refs_of (strip txt))))) as PN.
  destruct (pick [] (sorted_set (tags_of (refs_of (strip txt))))) as [r |].
  - eexists. split; [intros sy; now apply G|]. cbn.
    split; [easy|]. split; [easy|]. left. split; [easy|]. split; [easy|].
    destruct (PS r (sorted_sorted _) eq_refl) as (H1 & H2 & H3).
    apply sorted_in, C in H1. split; [easy|]. split; [easy|].
    intros t Ht Dg. apply H3; [|easy]. now apply sorted_in, C.
  - eexists. split; [intros sy; now apply G|]. cbn.
    split; [easy|]. split; [easy|]. right. split; [easy|]. split; [easy|].
    split; [easy|]. intros t Ht. apply (PN eq_refl). now apply sorted_in, C.
Qed.

Lemma release_first k txt rs full sy v t s :
  k_refnames k = Some txt -> decoration txt rs -> k_full k = Some full ->
  (k_date k = None \/
   exists d1 d2 d3, date_parts d1 d2 d3 /\
                    k_date k = Some (d1 ++ T " " ++ d2 ++ T " " ++ d3)) ->
  candidate rs t -> starts_digit t -> s <> [] ->
  package_version k sy = VOk v -> v <> t ++ s.
Proof.
  intros H1 H2 H3 H4 Ct Dt Ns Ev Ex.
  destruct (keywords_run k txt rs full H1 H2 H3 H4) as (w & Hw & _ & _ & Q).
  unfold package_version in Ev. rewrite Hw in Ev. cbn in Ev.
  assert (Ew : v_version w = v) by congruence. rewrite Ew in Q.
  destruct Q as [(_ & _ & _ & _ & Q) | (_ & _ & _ & Q)]; [|now apply (Q t)].
  assert (L : alpha_lt t (t ++ s)).
  { left. destruct s as [| c s]; [easy|]. now exists c, s. }
  destruct (Q t Ct Dt) as [E | E].
  - rewrite <- E in Ex. rewrite <- (app_nil_r t) in Ex at 1.
    apply app_inv_head in Ex. now subst.
  - rewrite Ex in E. apply tlt_alpha in E, L.
    pose proof (tlt_trans _ _ _ E L) as X.
    apply tlt_alpha in X. destruct X as [(y & r & X) | (p & y & z & a & b & X & Y & Z0)].
    + rewrite <- (app_nil_r (t ++ s)) in X at 1. rewrite <- app_assoc in X at 1.
      rewrite <- app_assoc in X. apply app_inv_head in X.
      apply app_inv_head in X. discriminate X.
    + rewrite X in Y. apply app_inv_head in Y. injection Y as -> _. lia.
Qed.
