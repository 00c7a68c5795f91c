(** The exact versions of the other styles, and branch names (M_Version). *)
From Coq Require Import List ZArith Ascii String Bool Lia.
From Verif Require Import M_Version S_Version P_VText P_VNum P_VGit P_VPieces P_VFall P_VPep.
Import ListNotations.
Open Scope list_scope.

Lemma off_text p dev : dev_off p dev ->
  if_off p ".dev0" = with_opt (fun n => T ".dev" ++ n) dev.
Proof.
  unfold dev_off, if_off, off_master. destruct (p_branch p) as [b |].
  - destruct (teqb b (T "master")) eqn:E; intros [(H & ->) | (H & ->)]; cbn [negb];
      try reflexivity.
    + apply teqb_eq in E. congruence.
    + assert (X : b = T "master") by congruence. apply teqb_eq in X. congruence.
  - intros [(H & ->) | (H & ->)]; [discriminate H|reflexivity].
Qed.

Lemma dirty_dev p dev : dev_dirty p dev ->
  if_dirty p ".dev0" = with_opt (fun n => T ".dev" ++ n) dev.
Proof. unfold if_dirty. intros [(-> & ->) | (-> & ->)]; reflexivity. Qed.

Lemma hash_label p l : marks p [] l ->
  dots l = T "g" ++ p_short p ++ if_dirty p ".dirty".
Proof.
  intros ->. unfold if_dirty. destruct (p_dirty p); cbn [app dots].
  - rewrite <- app_assoc. reflexivity.
  - now rewrite app_nil_r.
Qed.

Lemma dist_label p n l : marks p [n] l ->
  dots l = n ++ T ".g" ++ p_short p ++ if_dirty p ".dirty".
Proof.
  intros ->. change (T ".g") with (T "." ++ T "g"). unfold if_dirty.
  destruct (p_dirty p); cbn [app dots]; rewrite <- ?app_assoc; [reflexivity|].
  now rewrite app_nil_r.
Qed.

Lemma zero_label p n l : marks p [T "untagged"; n] l ->
  dots l = T "untagged." ++ n ++ T ".g" ++ p_short p ++ if_dirty p ".dirty".
Proof.
  intros ->. change (T ".g") with (T "." ++ T "g").
  change (T "untagged.") with (T "untagged" ++ T "."). unfold if_dirty.
  destruct (p_dirty p); cbn [app dots]; rewrite <- ?app_assoc; [reflexivity|].
  now rewrite app_nil_r.
Qed.

Lemma unchanged p q d s :
  tagged p q d -> d = 0%Z -> p_dirty p = false -> In s six_styles ->
  render_style s p = VOk (spell q).
Proof.
  intros (Ht & Hd & Pd & Hs & Hq) -> D H.
  assert (Tr := truthy_spell q Hq).
  destruct H as [<- | [<- | [<- | [<- | [<- | [<- | []]]]]]].
  - change (render_pep440 p = VOk (spell q)).
    unfold render_pep440, changed, the_tag, the_dist. rewrite Ht, Hd, D.
    cbn [need vbind]. rewrite Tr. reflexivity.
  - change (render_pep440_branch p = VOk (spell q)).
    unfold render_pep440_branch, changed, the_tag, the_dist. rewrite Ht, Hd, D.
    cbn [need vbind]. rewrite Tr. reflexivity.
  - change (render_pep440_pre p = VOk (spell q)).
    unfold render_pep440_pre, the_tag, the_dist. rewrite Ht, Hd.
    cbn [need vbind]. rewrite Tr. reflexivity.
  - change (render_pep440_post p = VOk (spell q)).
    unfold render_pep440_post, changed, the_tag, the_dist. rewrite Ht, Hd, D.
    cbn [need vbind]. rewrite Tr. reflexivity.
  - change (render_pep440_post_branch p = VOk (spell q)).
    unfold render_pep440_post_branch, changed, the_tag, the_dist. rewrite Ht, Hd, D.
    cbn [need vbind]. rewrite Tr. reflexivity.
  - change (render_pep440_old p = VOk (spell q)).
    unfold render_pep440_old, changed, the_tag, the_dist. rewrite Ht, Hd, D.
    cbn [need vbind]. rewrite Tr. reflexivity.
Qed.

Lemma is_changed d (b : bool) : (d <> 0%Z \/ b = true) -> negb (d =? 0)%Z || b = true.
Proof.
  intros [H | ->]; [|apply orb_true_r].
  apply Z.eqb_neq in H. now rewrite H.
Qed.

Lemma changed_styles p q d off dd l0 l1 :
  tagged p q d -> q_local q = None -> q_dev q = None ->
  (d <> 0%Z \/ p_dirty p = true) ->
  dev_off p off -> dev_dirty p dd -> marks p [] l0 ->
  exists n, numeral n /\ value n = d /\
    (marks p [n] l1 ->
     render_style (T "pep440-branch") p =
     VOk (spell (Parts (q_epoch q) (q_release q) (q_pre q) (q_post q) off (Some l1)))) /\
    (q_post q = None ->
     render_style (T "pep440-post") p =
     VOk (spell (Parts (q_epoch q) (q_release q) (q_pre q) (Some n) dd
                       (Some [T "g" ++ p_short p]))) /\
     render_style (T "pep440-post-branch") p =
     VOk (spell (Parts (q_epoch q) (q_release q) (q_pre q) (Some n) off (Some l0))) /\
     render_style (T "pep440-old") p =
     VOk (spell (Parts (q_epoch q) (q_release q) (q_pre q) (Some n) dd None))).
Proof.
  intros H El Ed Hc Ho Hdd Hl0. pose proof H as (Ht & Hd & Pd & Hs & Hq).
  exists (dec d). split; [now apply dec_numeral|]. split; [now apply value_dec|].
  assert (Tr := truthy_spell q Hq). assert (Sp := sep_of p q d H).
  unfold sep in Sp. rewrite El in Sp. apply is_changed in Hc.
  apply off_text in Ho. apply dirty_dev in Hdd. apply hash_label in Hl0.
  split.
  - intros Hl1. apply dist_label in Hl1.
    change (render_style (T "pep440-branch") p) with (render_pep440_branch p).
    unfold render_pep440_branch, changed, the_tag, the_dist. rewrite Ht, Hd.
    cbn [need vbind]. rewrite Tr, Hc, Sp. cbn [vbind get_text]. rewrite Ho.
    unfold spell. cbn [q_epoch q_release q_pre q_post q_dev q_local with_opt].
    rewrite El, Ed, Hl1. cbn [with_opt]. rewrite !app_nil_r, <- !app_assoc. reflexivity.
  - intros Ep. split; [|split].
    + change (render_style (T "pep440-post") p) with (render_pep440_post p).
      unfold render_pep440_post, changed, the_tag, the_dist. rewrite Ht, Hd.
      cbn [need vbind]. rewrite Tr, Hc, Sp. cbn [vbind get_text]. rewrite Hdd.
      unfold spell. cbn [q_epoch q_release q_pre q_post q_dev q_local with_opt dots].
      rewrite El, Ed, Ep. cbn [with_opt]. rewrite !app_nil_r, <- !app_assoc. reflexivity.
    + change (render_style (T "pep440-post-branch") p) with (render_pep440_post_branch p).
      unfold render_pep440_post_branch, changed, the_tag, the_dist. rewrite Ht, Hd.
      cbn [need vbind]. rewrite Tr, Hc, Sp. cbn [vbind get_text]. rewrite Ho.
      unfold spell. cbn [q_epoch q_release q_pre q_post q_dev q_local with_opt dots].
      rewrite El, Ed, Ep, Hl0. cbn [with_opt]. rewrite !app_nil_r, <- !app_assoc. reflexivity.
    + change (render_style (T "pep440-old") p) with (render_pep440_old p).
      unfold render_pep440_old, changed, the_tag, the_dist. rewrite Ht, Hd.
      cbn [need vbind]. rewrite Tr, Hc. cbn [vbind get_text]. rewrite Hdd.
      unfold spell. cbn [q_epoch q_release q_pre q_post q_dev q_local with_opt dots].
      rewrite El, Ed, Ep. cbn [with_opt]. rewrite !app_nil_r, <- !app_assoc. reflexivity.
Qed.

Lemma zero_styles p d off dd l0 l1 :
  bare_pieces p d -> dev_off p off -> dev_dirty p dd -> marks p [] l0 ->
  exists n, numeral n /\ value n = d /\
    (marks p [T "untagged"; n] l1 ->
     render_style (T "pep440") p = VOk (spell (Parts None [T "0"] None None None (Some l1))) /\
     render_style (T "pep440-branch") p =
     VOk (spell (Parts None [T "0"] None None off (Some l1)))) /\
    render_style (T "pep440-pre") p =
    VOk (spell (Parts None [T "0"] None (Some (T "0")) (Some n) None)) /\
    render_style (T "pep440-post") p =
    VOk (spell (Parts None [T "0"] None (Some n) dd (Some [T "g" ++ p_short p]))) /\
    render_style (T "pep440-post-branch") p =
    VOk (spell (Parts None [T "0"] None (Some n) off (Some l0))) /\
    render_style (T "pep440-old") p =
    VOk (spell (Parts None [T "0"] None (Some n) dd None)).
Proof.
  intros (Ht & Hd & Pd & Hs) Ho Hdd Hl0.
  exists (dec d). split; [now apply dec_numeral|]. split; [now apply value_dec|].
  apply off_text in Ho. apply dirty_dev in Hdd. apply hash_label in Hl0.
  split; [|split; [|split; [|split]]].
  - intros Hl1. apply zero_label in Hl1. split.
    + change (render_style (T "pep440") p) with (render_pep440 p).
      unfold render_pep440, the_tag, the_dist. rewrite Ht, Hd. cbn [need vbind truthy].
      unfold spell. cbn [q_epoch q_release q_pre q_post q_dev q_local with_opt].
      rewrite Hl1. reflexivity.
    + change (render_style (T "pep440-branch") p) with (render_pep440_branch p).
      unfold render_pep440_branch, the_tag, the_dist. rewrite Ht, Hd.
      cbn [need vbind truthy].
      unfold spell. cbn [q_epoch q_release q_pre q_post q_dev q_local with_opt].
      rewrite Hl1, Ho. reflexivity.
  - change (render_style (T "pep440-pre") p) with (render_pep440_pre p).
    unfold render_pep440_pre, the_tag, the_dist. rewrite Ht, Hd. cbn [need vbind truthy].
    unfold spell. cbn [q_epoch q_release q_pre q_post q_dev q_local with_opt].
    rewrite !app_nil_r. reflexivity.
  - change (render_style (T "pep440-post") p) with (render_pep440_post p).
    unfold render_pep440_post, the_tag, the_dist. rewrite Ht, Hd. cbn [need vbind truthy].
    unfold spell. cbn [q_epoch q_release q_pre q_post q_dev q_local with_opt dots].
    rewrite Hdd, <- !app_assoc. reflexivity.
  - change (render_style (T "pep440-post-branch") p) with (render_pep440_post_branch p).
    unfold render_pep440_post_branch, the_tag, the_dist. rewrite Ht, Hd.
    cbn [need vbind truthy].
    unfold spell. cbn [q_epoch q_release q_pre q_post q_dev q_local with_opt dots].
    rewrite Ho, Hl0, <- !app_assoc. reflexivity.
  - change (render_style (T "pep440-old") p) with (render_pep440_old p).
    unfold render_pep440_old, the_tag, the_dist. rewrite Ht, Hd. cbn [need vbind truthy].
    unfold spell. cbn [q_epoch q_release q_pre q_post q_dev q_local with_opt dots].
    rewrite Hdd, app_nil_r, <- !app_assoc. reflexivity.
Qed.

(* ------------------------------------------------------------------ *)

Lemma short_round_trip sy root tag ds hex (dirty : bool) full pre d1 d2 d3 p :
  tag <> [] -> one_line tag -> numeral ds -> hex_text hex ->
  succeeds sy root cmd_dir ->
  shows sy root (cmd_describe sy) (described tag ds hex dirty) ->
  shows sy root cmd_head full -> branch_known sy root ->
  date_parts d1 d2 d3 -> above pre ->
  shows sy root cmd_show (pre ++ d1 ++ T " " ++ d2 ++ T " " ++ d3) ->
  git_pieces_from_vcs sy [] root = VOk p ->
  (ds = T "0" -> render_style (T "git-describe") p =
                 VOk (tag ++ T (if dirty then "-dirty" else ""))) /\
  (ds <> T "0" -> render_style (T "git-describe") p = VOk (described tag ds hex dirty)).
Proof.
  intros Nt Lt Hd Hh Cd Cs Cf Cb Dp Ab Cw Ep.
  destruct (pieces_tagged sy root tag ds hex dirty full pre d1 d2 d3)
    as (br & E); try easy.
  rewrite E in Ep. injection Ep as <-.
  change (render_style (T "git-describe")) with render_git_describe.
  unfold render_git_describe, the_tag, the_dist, if_dirty.
  cbn [p_tag p_dist need vbind p_short p_dirty get_text].
  replace (truthy (Some tag)) with true by (now destruct tag).
  split.
  - intros ->. cbn. now destruct dirty.
  - intros N. destruct (Z.eqb_spec (Z.of_N (num ds)) 0) as [Z0 | _].
    + elim N. rewrite <- (dec_num ds Hd), Z0. reflexivity.
    + cbn [negb]. rewrite dec_num by easy. unfold described. rewrite <- !app_assoc.
      now destruct dirty.
Qed.

(** Branch names. *)
Lemma split_lines a bs :
  one_line a -> Forall one_line bs ->
  split_on LF (a ++ List.concat (map (fun b => LF :: T "  " ++ b) bs)) =
  a :: map (fun b => T "  " ++ b) bs.
Proof.
  intros Ha Hb. revert a Ha. induction Hb as [| b bs Hb _ IH]; intros a Ha.
  - cbn [map List.concat]. rewrite app_nil_r. induction a as [| c a IHa]; [reflexivity|].
    cbn [split_on]. destruct (Ascii.eqb c LF) eqn:E.
    + apply Ascii.eqb_eq in E. subst. elim Ha. now left.
    + rewrite IHa; [reflexivity|]. intros X. apply Ha. now right.
  - cbn [map List.concat].
    induction a as [| c a IHa].
    + cbn [app split_on]. rewrite Ascii.eqb_refl.
      change (ch " " :: ch " " :: b ++ List.concat (map (fun b => LF :: T "  " ++ b) bs))
        with ((T "  " ++ b) ++ List.concat (map (fun b => LF :: T "  " ++ b) bs)).
      f_equal. apply (IH (T "  " ++ b)). intros X. apply in_app_or in X as [X | X].
      * apply mem_in in X. discriminate X.
      * now apply Hb.
    + cbn [app split_on]. destruct (Ascii.eqb c LF) eqn:E.
      * apply Ascii.eqb_eq in E. subst. elim Ha. now left.
      * cbn [app] in IHa. rewrite IHa; [reflexivity|]. intros X. apply Ha. now right.
Qed.

Lemma skip_blanks bs : map (skipn 2) (map (fun b => T "  " ++ b) bs) = bs.
Proof. rewrite map_map. rewrite <- (map_id bs) at 2. now apply map_ext. Qed.

Lemma detached_choice h bs :
  one_line h -> Forall one_line bs ->
  chosen_branch bs (detached_branch (detached_list h bs)).
Proof.
  intros Hh Hb. unfold detached_branch, detached_list.
  replace (T "* (HEAD detached at " ++ h ++ T ")"
           ++ List.concat (map (fun b => LF :: T "  " ++ b) bs))
    with ((T "* (HEAD detached at " ++ h ++ T ")")
          ++ List.concat (map (fun b => LF :: T "  " ++ b) bs))
    by (rewrite <- !app_assoc; reflexivity).
  rewrite split_lines; [|intros X; apply in_app_or in X as [X | X]|easy].
  2:{ apply mem_in in X. discriminate X. }
  2:{ apply in_app_or in X as [X | X]; [now apply Hh|]. apply mem_in in X. discriminate X. }
  replace (has (ch "(") (T "* (HEAD detached at " ++ h ++ T ")")) with true.
  2:{ symmetry. unfold has. rewrite existsb_app. reflexivity. }
  rewrite skip_blanks. unfold chosen_branch.
  destruct (existsb (teqb (T "master")) bs) eqn:E.
  - left. split; [|reflexivity]. apply existsb_exists in E as (x & Hx & Ex).
    apply teqb_eq in Ex. now rewrite Ex.
  - right. split.
    + intros X. assert (Y : existsb (teqb (T "master")) bs = true).
      { apply existsb_exists. exists (T "master"). split; [easy|]. now apply teqb_eq. }
      congruence.
    + now destruct bs.
Qed.

Lemma pieces_branch sy root b p :
  shows sy root cmd_branch b -> git_pieces_from_vcs sy [] root = VOk p ->
  (b <> T "HEAD" -> p_branch p = Some b) /\
  (b = T "HEAD" -> forall out, shows sy root cmd_contains out ->
     p_branch p = detached_branch out).
Proof.
  intros Hb. unfold git_pieces_from_vcs, git.
  change (map T ["rev-parse"; "--abbrev-ref"; "HEAD"]%string) with cmd_branch.
  change (map T ["branch"; "--contains"]%string) with cmd_contains.
  rewrite (run_shows _ _ _ _ Hb). cbn [rc_bad Z.eqb negb].
  destruct (run_command sy (gits sy) (map T ["rev-parse"; "--git-dir"]%string) root) as [? rc].
  destruct (rc_bad rc); [discriminate|].
  match goal with |- (let '(_, _) := ?x in _) = _ -> _ => destruct x as [[desc |] ?] end;
    cbn [need vbind]; [|discriminate].
  match goal with |- (let '(_, _) := ?x in _) = _ -> _ => destruct x as [[full |] ?] end;
    cbn [need vbind]; [|discriminate].
  rewrite (strip_bare b) by apply Hb.
  assert (G : forall br,
    (let! branch := br in
     let dirty := endswith (strip desc) (T "-dirty") in
     let body := if dirty then firstn (List.length (strip desc) - 6) (strip desc) else strip desc in
     let failed e :=
       VOk (Pieces (strip full) (firstn 7 (strip full)) (Some e) branch dirty None None None) in
     let finish short tag dist :=
       let '(d, _) := run_command sy (gits sy) (map T ["show"; "-s"; "--format=%ci"; "HEAD"]%string) root in
       let! d := need XAttribute d in
       let! d := fix_date (strip d) in
       VOk (Pieces (strip full) short None branch dirty (Some tag) (Some dist) (Some d)) in
     if has (ch "-") body then
       match describe_match body with
       | None =>
           failed (T "unable to parse git-describe output: '" ++ strip desc ++ T "'")
       | Some (tag, dig, hex) =>
           if negb (startswith tag []) then
             failed (T "tag '" ++ tag ++ T "' doesn't start with prefix '"
                       ++ [] ++ T "'")
           else
             finish hex (Some (skipn (List.length (@nil ascii)) tag))
                    (Z.of_N (M_Version.num dig))
       end
     else
       let '(cnt, _) := run_command sy (gits sy) (map T ["rev-list"; "HEAD"; "--count"]%string) root in
       let! cnt := need XType cnt in
       let! dist := need XValue (py_int cnt) in
       finish (firstn 7 (strip full)) None dist) = VOk p ->
    br = VOk (p_branch p)).
  { intros [branch | e]; cbn [vbind]; [|discriminate]. cbn zeta.
    destruct (run_command sy (gits sy) (map T ["show"; "-s"; "--format=%ci"; "HEAD"]%string) root)
      as [[d |] ?]; cbn [need vbind];
      [destruct (fix_date (strip d)) as [dd | ?]; cbn [vbind]|];
      (match goal with |- (if ?c then _ else _) = _ -> _ => destruct c end;
       [destruct (describe_match _) as [[[tag dig] hex] |];
        [destruct (negb (startswith tag []))|]
       |destruct (run_command sy (gits sy) (map T ["rev-list"; "HEAD"; "--count"]%string) root)
          as [[cnt |] ?]; cbn [need vbind]; [destruct (py_int cnt); cbn [need vbind]|]]);
      try discriminate; intros X; injection X as <-; reflexivity. }
  intros X. apply G in X. split.
  - intros N. destruct (teqb b (T "HEAD")) eqn:E; [apply teqb_eq in E; contradiction|].
    assert (Some b = p_branch p) by congruence. easy.
  - intros -> out Ho. replace (teqb (T "HEAD") (T "HEAD")) with true in X by reflexivity.
    rewrite (run_shows _ _ _ _ Ho) in X. cbn [rc_bad Z.eqb negb need vbind] in X.
    assert (detached_branch out = p_branch p) by congruence. easy.
Qed.

Lemma detached_pieces sy root h bs p :
  shows sy root cmd_branch (T "HEAD") ->
  shows sy root cmd_contains (detached_list h bs) -> one_line h -> Forall one_line bs ->
  git_pieces_from_vcs sy [] root = VOk p -> chosen_branch bs (p_branch p).
Proof.
  intros Hb Ho Hh Hbs E.
  rewrite (proj2 (pieces_branch sy root (T "HEAD") p Hb E) eq_refl _ Ho).
  now apply detached_choice.
Qed.

Lemma attached_pieces sy root b p :
  shows sy root cmd_branch b -> b <> T "HEAD" ->
  git_pieces_from_vcs sy [] root = VOk p -> p_branch p = Some b.
Proof. intros Hb N E. now apply (pieces_branch sy root b p Hb E). Qed.

Lemma no_file sy :
  sy_file sy = None ->
  get_versions raw_keywords sy =
  VOk (Version (T "0+unknown") None None
         (Some (T "unable to find root of source tree")) None).
Proof.
  intros E. unfold get_versions. change cfg_tag_prefix with (T "") .
  replace (git_versions_from_keywords raw_keywords (T "")) with (@VErr version NotThisMethod)
    by (symmetry; apply raw_unexpanded).
  cbn [otherwise]. now rewrite E.
Qed.
