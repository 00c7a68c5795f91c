(** The version of a checked out tree (M_Version). *)
From Coq Require Import List ZArith Ascii String Bool Lia.
From Verif Require Import M_Version S_Version P_VText P_VNum P_VGit.
Import ListNotations.
Open Scope list_scope.

Lemma describe_args sy :
  map T ["describe"; "--tags"; "--dirty"; "--always"; "--long";
         "--match"]%string ++ [[] ++ tag_glob sy] = cmd_describe sy.
Proof. unfold tag_glob, cmd_describe. now destruct (sy_win sy). Qed.

Lemma hex_not_y c : hex_digit c -> c <> ch "y".
Proof. intros H ->. unfold hex_digit in H. cbn in H. intuition discriminate. Qed.

Lemma hex_not_dash c : hex_digit c -> c <> ch "-".
Proof. intros H ->. unfold hex_digit in H. cbn in H. intuition discriminate. Qed.

Lemma T_nil : T "" = [].
Proof. reflexivity. Qed.

Lemma not_dirty s hex :
  hex_text hex -> endswith (s ++ hex) (T "-dirty") = false.
Proof.
  intros [N H]. apply not_true. rewrite endswith_iff. intros (r & E).
  destruct (exists_last N) as (h & c & ->). apply Forall_app in H as [_ H].
  inversion H as [| ? ? Hc _]; subst. apply (hex_not_y c Hc).
  apply (f_equal (@rev ascii)) in E. rewrite !rev_app_distr in E.
  now injection E.
Qed.

Definition dirt (dirty : bool) : text := T (if dirty then "-dirty" else "").

Lemma dirty_body s hex dirty :
  hex_text hex ->
  endswith (s ++ hex ++ dirt dirty) (T "-dirty") = dirty /\
  (if dirty
   then firstn (List.length (s ++ hex ++ dirt dirty) - 6) (s ++ hex ++ dirt dirty)
   else s ++ hex ++ dirt dirty) = s ++ hex.
Proof.
  intros H. destruct dirty; unfold dirt.
  - split.
    + apply endswith_iff. exists (s ++ hex). now rewrite app_assoc.
    + rewrite (app_assoc s). rewrite app_length.
      change (List.length (T "-dirty")) with 6.
      rewrite Nat.add_sub. apply firstn_app_exact.
  - rewrite T_nil, app_nil_r. split; [|easy]. now apply not_dirty.
Qed.

(** The date: the words joined as the code does. *)
Lemma solid_words x : Forall (fun c => ~ white c) x ->
  ~ In (ch " ") x.
Proof.
  intros H X. rewrite Forall_forall in H. apply (H _ X).
  unfold white. cbn. tauto.
Qed.

Definition date_text (d1 d2 d3 : text) : text :=
  d1 ++ T " " ++ d2 ++ T " " ++ d3.

Lemma date_bare d1 d2 d3 : date_parts d1 d2 d3 -> bare (date_text d1 d2 d3).
Proof.
  intros H.
  destruct (H d1) as [N1 H1]; [cbn; tauto|].
  destruct (H d3) as [N3 H3]; [cbn; tauto|].
  split; intros c r E.
  - destruct d1 as [| x d1]; [easy|]. unfold date_text in E. cbn in E.
    injection E as -> _. now inversion H1.
  - destruct (exists_last N3) as (h & x & ->). unfold date_text in E.
    rewrite !app_assoc in E. apply app_inj_tail in E as [_ <-].
    apply Forall_app in H3 as [_ H3]. now inversion H3.
Qed.

Lemma date_fixed d1 d2 d3 :
  date_parts d1 d2 d3 ->
  fix_date (date_text d1 d2 d3) = VOk (d1 ++ T "T" ++ d2 ++ d3).
Proof.
  intros H. unfold fix_date. pose proof (date_bare _ _ _ H) as B.
  destruct (H d1) as [N1 H1]; [cbn; tauto|].
  destruct (H d2) as [N2 H2]; [cbn; tauto|].
  destruct (H d3) as [N3 H3]; [cbn; tauto|].
  rewrite splitlines_one.
  - cbn [rev app]. rewrite strip_bare by easy. unfold date_text.
    change (T " ") with [ch " "]. cbn [app].
    rewrite (replace1_hit (ch " ") (T "T") d1) by now apply solid_words.
    change (T "T") with [ch "T"]. cbn [app].
    replace (d1 ++ ch "T" :: d2 ++ ch " " :: d3)
      with ((d1 ++ ch "T" :: d2) ++ ch " " :: d3)
      by (rewrite <- app_assoc; reflexivity).
    rewrite replace1_hit.
    + rewrite <- app_assoc. reflexivity.
    + intros X. apply in_app_or in X as [X | [X | X]].
      * revert X. now apply solid_words.
      * discriminate X.
      * revert X. now apply solid_words.
  - unfold date_text. now destruct d1.
  - assert (G : forall x, Forall (fun c => ~ white c) x ->
              Forall (fun c => ~ white c \/ c = ch " ") x).
    { intros x. apply Forall_impl. tauto. }
    unfold date_text. repeat (apply Forall_app; split); auto;
      constructor; auto.
Qed.

Lemma lines_above a s : forall cr cur,
  exists L, lines_from (a ++ LF :: s) cr cur = L ++ lines_from s false None.
Proof.
  induction a as [| c a IH]; intros cr cur.
  - cbn [app lines_from]. change (is_break LF) with true. cbn iota.
    change (Ascii.eqb LF LF) with true. change (Ascii.eqb LF CR) with false.
    destruct cr; cbn [andb]; [now exists []|].
    now exists [match cur with Some l => rev l | None => [] end].
  - cbn [app lines_from]. destruct (is_break c).
    + destruct (cr && Ascii.eqb c LF); [apply IH|].
      destruct (IH (Ascii.eqb c CR) None) as (L & E). rewrite E.
      now exists (match cur with Some l => rev l | None => [] end :: L).
    + apply IH.
Qed.

Lemma last_date pre d1 d2 d3 :
  date_parts d1 d2 d3 -> above pre ->
  fix_date (pre ++ date_text d1 d2 d3) = VOk (d1 ++ T "T" ++ d2 ++ d3).
Proof.
  intros H [-> | (a & ->)]; [now apply date_fixed|].
  rewrite <- (date_fixed d1 d2 d3 H). unfold fix_date, splitlines.
  rewrite <- app_assoc. cbn [app].
  destruct (lines_above a (date_text d1 d2 d3) false None) as (L & ->).
  rewrite rev_app_distr.
  destruct (rev (lines_from (date_text d1 d2 d3) false None)) as [| l r] eqn:E;
    [|reflexivity].
  exfalso. pose proof (date_fixed d1 d2 d3 H) as X. unfold fix_date, splitlines in X.
  now rewrite E in X.
Qed.

(* ------------------------------------------------------------------ *)

(** The commands before git describe is read. *)
Lemma pieces_tagged sy root tag ds hex dirty full pre d1 d2 d3 :
  tag <> [] -> one_line tag -> numeral ds -> hex_text hex ->
  succeeds sy root cmd_dir ->
  shows sy root (cmd_describe sy) (described tag ds hex dirty) ->
  shows sy root cmd_head full -> branch_known sy root ->
  date_parts d1 d2 d3 -> above pre ->
  shows sy root cmd_show (pre ++ date_text d1 d2 d3) ->
  exists br,
    git_pieces_from_vcs sy [] root =
    VOk (Pieces full hex None br dirty (Some (Some tag))
           (Some (Z.of_N (num ds))) (Some (d1 ++ T "T" ++ d2 ++ d3))).
Proof.
  intros Nt Lt Hd Hh Cd Cs Cf (b & Cb & Cc) Dp Ab Cw.
  assert (Bs : bare (described tag ds hex dirty)) by apply Cs.
  assert (Bf : bare full) by apply Cf.
  assert (Bb : bare b) by apply Cb.
  unfold git_pieces_from_vcs, git.
  fold cmd_dir cmd_head cmd_branch cmd_contains cmd_show cmd_count.
  rewrite describe_args.
  destruct (run_succeeds _ _ _ Cd) as (t0 & ->). cbn [rc_bad Z.eqb negb].
  rewrite (run_shows _ _ _ _ Cs). cbn [need vbind].
  rewrite (run_shows _ _ _ _ Cf). cbn [need vbind].
  rewrite (run_shows _ _ _ _ Cb). cbn [rc_bad Z.eqb negb need vbind].
  rewrite !strip_bare by easy.
  assert (Br : exists br,
    (if teqb b (T "HEAD")
     then let '(bs, rc) := run_command sy (gits sy) cmd_contains root in
          vbind (need NotThisMethod (if rc_bad rc then None else bs))
                (fun bs => VOk (detached_branch bs))
     else VOk (Some b)) = VOk br).
  { destruct (teqb b (T "HEAD")) eqn:E; [|eauto].
    apply teqb_eq in E. destruct (run_succeeds _ _ _ (Cc E)) as (t1 & ->).
    cbn. eauto. }
  destruct Br as (br & ->). cbn [vbind]. exists br.
  pose proof (dirty_body (tag ++ T "-" ++ ds ++ T "-g") hex dirty Hh)
    as [Dd Db].
  replace ((tag ++ T "-" ++ ds ++ T "-g") ++ hex ++ dirt dirty)
    with (described tag ds hex dirty) in *
    by (unfold described, dirt; rewrite <- !app_assoc; reflexivity).
  rewrite Dd, Db.
  replace (has (ch "-") ((tag ++ T "-" ++ ds ++ T "-g") ++ hex)) with true.
  2:{ symmetry. apply has_in. apply in_or_app. left. apply in_or_app. right.
      now left. }
  replace ((tag ++ T "-" ++ ds ++ T "-g") ++ hex)
    with (tag ++ T "-" ++ ds ++ T "-g" ++ hex)
    by (rewrite <- !app_assoc; reflexivity).
  destruct Hd as (Nd & Fd & Cd').
  rewrite match_exact by easy. cbn [startswith negb].
  replace (startswith tag []) with true by (now destruct tag).
  cbn [negb].
  rewrite (run_shows _ _ _ _ Cw). cbn [need vbind].
  rewrite strip_bare by apply Cw.
  rewrite last_date by easy. cbn [vbind skipn List.length]. reflexivity.
Qed.

Lemma pieces_untagged sy root h ds dirty full pre d1 d2 d3 :
  hex_text h -> numeral ds ->
  succeeds sy root cmd_dir ->
  shows sy root (cmd_describe sy) (h ++ dirt dirty) ->
  shows sy root cmd_head full -> branch_known sy root ->
  shows sy root cmd_count ds ->
  date_parts d1 d2 d3 -> above pre ->
  shows sy root cmd_show (pre ++ date_text d1 d2 d3) ->
  exists br,
    git_pieces_from_vcs sy [] root =
    VOk (Pieces full (firstn 7 full) None br dirty (Some None)
           (Some (Z.of_N (num ds))) (Some (d1 ++ T "T" ++ d2 ++ d3))).
Proof.
  intros Hh Hd Cd Cs Cf (b & Cb & Cc) Cn Dp Ab Cw.
  assert (Bs : bare (h ++ dirt dirty)) by apply Cs.
  assert (Bf : bare full) by apply Cf.
  assert (Bb : bare b) by apply Cb.
  unfold git_pieces_from_vcs, git.
  fold cmd_dir cmd_head cmd_branch cmd_contains cmd_show cmd_count.
  rewrite describe_args.
  destruct (run_succeeds _ _ _ Cd) as (t0 & ->). cbn [rc_bad Z.eqb negb].
  rewrite (run_shows _ _ _ _ Cs). cbn [need vbind].
  rewrite (run_shows _ _ _ _ Cf). cbn [need vbind].
  rewrite (run_shows _ _ _ _ Cb). cbn [rc_bad Z.eqb negb need vbind].
  rewrite !strip_bare by easy.
  assert (Br : exists br,
    (if teqb b (T "HEAD")
     then let '(bs, rc) := run_command sy (gits sy) cmd_contains root in
          vbind (need NotThisMethod (if rc_bad rc then None else bs))
                (fun bs => VOk (detached_branch bs))
     else VOk (Some b)) = VOk br).
  { destruct (teqb b (T "HEAD")) eqn:E; [|eauto].
    apply teqb_eq in E. destruct (run_succeeds _ _ _ (Cc E)) as (t1 & ->).
    cbn. eauto. }
  destruct Br as (br & ->). cbn [vbind]. exists br.
  pose proof (dirty_body [] h dirty Hh) as [Dd Db]. cbn [app] in Dd, Db.
  rewrite Dd, Db.
  replace (has (ch "-") h) with false.
  2:{ symmetry. apply has_not. intros X. destruct Hh as [_ Hh].
      rewrite Forall_forall in Hh. now apply (hex_not_dash _ (Hh _ X)). }
  rewrite (run_shows _ _ _ _ Cn). cbn [need vbind].
  destruct Hd as (Nd & Fd & Cd').
  rewrite py_int_num by easy. cbn [need vbind].
  rewrite (run_shows _ _ _ _ Cw). cbn [need vbind].
  rewrite strip_bare by apply Cw.
  rewrite last_date by easy. reflexivity.
Qed.

(** git describe printed something else. *)
Lemma pieces_unparsed sy root desc full :
  (forall tag ds hex dirty, number ds -> hex_text hex -> tag <> [] ->
     desc <> described tag ds hex dirty) ->
  (exists body dirty, desc = body ++ dirt dirty /\ In (ch "-") body /\
     (dirty = false -> forall r, body <> r ++ T "-dirty")) ->
  one_line desc ->
  succeeds sy root cmd_dir ->
  shows sy root (cmd_describe sy) desc ->
  shows sy root cmd_head full -> branch_known sy root ->
  exists br dirty,
    git_pieces_from_vcs sy [] root =
    VOk (Pieces full (firstn 7 full)
           (Some (T "unable to parse git-describe output: '" ++ desc ++ T "'"))
           br dirty None None None).
Proof.
  intros No (body & dirty & Ed & Hb & Nb) Ol Cd Cs Cf (b & Cb & Cc).
  assert (Bs : bare desc) by apply Cs.
  assert (Bf : bare full) by apply Cf.
  assert (Bb : bare b) by apply Cb.
  unfold git_pieces_from_vcs, git.
  fold cmd_dir cmd_head cmd_branch cmd_contains cmd_show cmd_count.
  rewrite describe_args.
  destruct (run_succeeds _ _ _ Cd) as (t0 & ->). cbn [rc_bad Z.eqb negb].
  rewrite (run_shows _ _ _ _ Cs). cbn [need vbind].
  rewrite (run_shows _ _ _ _ Cf). cbn [need vbind].
  rewrite (run_shows _ _ _ _ Cb). cbn [rc_bad Z.eqb negb need vbind].
  rewrite !strip_bare by easy.
  assert (Br : exists br,
    (if teqb b (T "HEAD")
     then let '(bs, rc) := run_command sy (gits sy) cmd_contains root in
          vbind (need NotThisMethod (if rc_bad rc then None else bs))
                (fun bs => VOk (detached_branch bs))
     else VOk (Some b)) = VOk br).
  { destruct (teqb b (T "HEAD")) eqn:E; [|eauto].
    apply teqb_eq in E. destruct (run_succeeds _ _ _ (Cc E)) as (t1 & ->).
    cbn. eauto. }
  destruct Br as (br & ->). cbn [vbind]. exists br, dirty.
  assert (Dd : endswith desc (T "-dirty") = dirty).
  { destruct dirty.
    - apply endswith_iff. exists body. exact Ed.
    - apply not_true. rewrite endswith_iff. intros (r & X).
      rewrite Ed in X. unfold dirt in X. rewrite T_nil, app_nil_r in X.
      now apply (Nb eq_refl r). }
  assert (Db : (if dirty then firstn (List.length desc - 6) desc else desc)
               = body).
  { rewrite Ed. destruct dirty; unfold dirt.
    - rewrite app_length. change (List.length (T "-dirty")) with 6.
      rewrite Nat.add_sub. apply firstn_app_exact.
    - now rewrite T_nil, app_nil_r. }
  rewrite Dd, Db, (proj2 (has_in _ _) Hb).
  destruct (describe_match body) as [[[tag dig] hex] |] eqn:M; [|reflexivity].
  exfalso. apply match_inv in M as (Nt & _ & Nd & Fd & Hh & M).
  apply (No tag dig hex dirty); try easy.
  replace (chop body) with body in M.
  - rewrite Ed, M. unfold described, dirt. now rewrite <- !app_assoc.
  - unfold chop. destruct (rev body) as [| c r] eqn:R; [easy|].
    destruct (Ascii.eqb c LF) eqn:E; [|easy]. exfalso.
    apply Ascii.eqb_eq in E. subst c. apply Ol. rewrite Ed.
    apply in_or_app. left. apply in_rev. rewrite R. now left.
Qed.

(* ------------------------------------------------------------------ *)

Lemma raw_unexpanded :
  git_versions_from_keywords raw_keywords cfg_tag_prefix = VErr NotThisMethod.
Proof. vm_compute. reflexivity. Qed.

Lemma from_git sy root p :
  installed sy root ->
  git_pieces_from_vcs sy [] root = VOk p ->
  get_versions raw_keywords sy =
  match render p (Some cfg_style) with
  | VErr NotThisMethod => get_versions raw_keywords sy
  | r => r
  end.
Proof.
  intros I E. unfold get_versions. rewrite raw_unexpanded. cbn [otherwise].
  assert (F : exists f, sy_file sy = Some f) by (destruct I as (_ & _ & I); eauto).
  destruct F as (f & F). rewrite F.
  rewrite (root_installed sy root f I F). unfold cfg_tag_prefix.
  rewrite T_nil, E. cbn [vbind]. now destruct (render p (Some cfg_style)) as [|[]].
Qed.

Lemma render_default p :
  render p (Some cfg_style) =
  if truthy (p_error p) then
    VOk (Version (T "unknown") (Some (p_long p)) None (p_error p) None)
  else
    vbind (render_pep440 p) (fun r =>
      VOk (Version r (Some (p_long p)) (Some (p_dirty p)) None (p_date p))).
Proof. reflexivity. Qed.

Lemma render_tagged p tag ds hex :
  p_error p = None -> p_tag p = Some (Some tag) -> tag <> [] -> numeral ds ->
  p_short p = hex -> p_dist p = Some (Z.of_N (num ds)) ->
  exists v, tagged_version tag ds hex (p_dirty p) v /\
    render p (Some cfg_style) =
    VOk (Version v (Some (p_long p)) (Some (p_dirty p)) None (p_date p)).
Proof.
  intros He Ht Nt Hd Hs Hn. rewrite render_default, He. cbn [truthy].
  unfold render_pep440, the_tag, changed, the_dist, plus_or_dot, if_dirty.
  rewrite Ht, Hn. cbn [need vbind].
  replace (truthy (Some tag)) with true by (now destruct tag).
  cbv iota. rewrite num_0, dec_num by easy. cbn [get_text].
  destruct (teqb ds (T "0")) eqn:E0.
  - apply teqb_eq in E0. destruct (p_dirty p) eqn:Edi; cbn [negb orb vbind].
    + eexists. split; [|reflexivity]. right. split; [now right|].
      exists (if has (ch "+") tag then T "." else T "+"). split.
      * destruct (has (ch "+") tag) eqn:Ep.
        -- left. split; [now apply has_in|easy].
        -- right. split; [now apply has_not|easy].
      * now rewrite Hs.
    + eexists. split; [|reflexivity]. left. easy.
  - assert (N0 : ds <> T "0") by (intros X; apply teqb_eq in X; congruence).
    cbn [negb orb vbind]. eexists. split; [|reflexivity]. right.
    split; [now left|].
    exists (if has (ch "+") tag then T "." else T "+"). split.
    + destruct (has (ch "+") tag) eqn:Ep.
      * left. split; [now apply has_in|easy].
      * right. split; [now apply has_not|easy].
    + rewrite Hs. now destruct (p_dirty p).
Qed.

Lemma version_tagged sy root tag ds hex dirty full pre d1 d2 d3 :
  installed sy root ->
  tag <> [] -> one_line tag -> numeral ds -> hex_text hex ->
  succeeds sy root cmd_dir ->
  shows sy root (cmd_describe sy) (described tag ds hex dirty) ->
  shows sy root cmd_head full -> branch_known sy root ->
  date_parts d1 d2 d3 -> above pre ->
  shows sy root cmd_show (pre ++ d1 ++ T " " ++ d2 ++ T " " ++ d3) ->
  exists v, tagged_version tag ds hex dirty v /\
    package_version raw_keywords sy = VOk v /\
    get_versions raw_keywords sy =
    VOk (Version v (Some full) (Some dirty) None
           (Some (d1 ++ T "T" ++ d2 ++ d3))).
Proof.
  intros I Nt Lt Hd Hh Cd Cs Cf Cb Dp Ab Cw.
  destruct (pieces_tagged sy root tag ds hex dirty full pre d1 d2 d3)
    as (br & E); try easy.
  match type of E with _ = VOk ?q => set (p := q) in * end.
  destruct (render_tagged p tag ds hex) as (v & Hv & R); try easy.
  exists v. split; [exact Hv|].
  assert (G := from_git sy root p I E). rewrite R in G.
  split; [|exact G]. unfold package_version. rewrite G. reflexivity.
Qed.

Lemma version_untagged sy root h ds (dirty : bool) full pre d1 d2 d3 :
  installed sy root -> hex_text h -> numeral ds ->
  succeeds sy root cmd_dir ->
  shows sy root (cmd_describe sy) (h ++ T (if dirty then "-dirty" else "")) ->
  shows sy root cmd_head full -> branch_known sy root ->
  shows sy root cmd_count ds ->
  date_parts d1 d2 d3 -> above pre ->
  shows sy root cmd_show (pre ++ d1 ++ T " " ++ d2 ++ T " " ++ d3) ->
  get_versions raw_keywords sy =
  VOk (Version (T "0+untagged." ++ ds ++ T ".g" ++ firstn 7 full
                  ++ T (if dirty then ".dirty" else ""))
         (Some full) (Some dirty) None (Some (d1 ++ T "T" ++ d2 ++ d3))).
Proof.
  intros I Hh Hd Cd Cs Cf Cb Cn Dp Ab Cw.
  destruct (pieces_untagged sy root h ds dirty full pre d1 d2 d3)
    as (br & E); try easy.
  rewrite (from_git sy root _ I E), render_default. cbn [p_error truthy].
  unfold render_pep440, the_tag, the_dist, if_dirty. cbn [p_tag p_dist need vbind truthy].
  rewrite dec_num by easy. cbn [p_short p_dirty p_long p_date].
  now destruct dirty.
Qed.

Lemma version_unparsed sy root desc full :
  installed sy root ->
  (forall tag ds hex dirty, number ds -> hex_text hex -> tag <> [] ->
     desc <> described tag ds hex dirty) ->
  (exists body (dirty : bool), desc = body ++ T (if dirty then "-dirty" else "")
     /\ In (ch "-") body /\
     (dirty = false -> forall r, body <> r ++ T "-dirty")) ->
  one_line desc ->
  succeeds sy root cmd_dir ->
  shows sy root (cmd_describe sy) desc ->
  shows sy root cmd_head full -> branch_known sy root ->
  get_versions raw_keywords sy =
  VOk (Version (T "unknown") (Some full) None
         (Some (T "unable to parse git-describe output: '" ++ desc ++ T "'"))
         None).
Proof.
  intros I No Hb Ol Cd Cs Cf Cb.
  destruct (pieces_unparsed sy root desc full) as (br & di & E); try easy.
  rewrite (from_git sy root _ I E). reflexivity.
Qed.

Lemma long_round_trip sy root tag ds hex dirty full pre d1 d2 d3 p :
  tag <> [] -> one_line tag -> numeral ds -> hex_text hex ->
  succeeds sy root cmd_dir ->
  shows sy root (cmd_describe sy) (described tag ds hex dirty) ->
  shows sy root cmd_head full -> branch_known sy root ->
  date_parts d1 d2 d3 -> above pre ->
  shows sy root cmd_show (pre ++ d1 ++ T " " ++ d2 ++ T " " ++ d3) ->
  git_pieces_from_vcs sy [] root = VOk p ->
  render_git_describe_long p = VOk (described tag ds hex dirty).
Proof.
  intros Nt Lt Hd Hh Cd Cs Cf Cb Dp Ab Cw Ep.
  destruct (pieces_tagged sy root tag ds hex dirty full pre d1 d2 d3)
    as (br & E); try easy.
  rewrite E in Ep. injection Ep as <-.
  unfold render_git_describe_long, the_tag, the_dist, if_dirty.
  cbn [p_tag p_dist need vbind p_short p_dirty get_text].
  replace (truthy (Some tag)) with true by (now destruct tag).
  rewrite dec_num by easy. unfold described. now destruct dirty.
Qed.
