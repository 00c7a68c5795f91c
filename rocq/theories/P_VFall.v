(** Falling back to the directory name, and failing (M_Version). *)
From Coq Require Import List ZArith Ascii String Bool Lia.
From Verif Require Import M_Version S_Version P_VText P_VNum P_VGit P_VPieces.
Import ListNotations.
Open Scope list_scope.

Lemma bad_rc sy root args t rc :
  run_command sy (gits sy) args root = (t, rc) ->
  ~ succeeds sy root args -> rc_bad rc = true.
Proof.
  intros E N. destruct (rc_bad rc) eqn:B; [easy|]. exfalso. apply N.
  apply run_rc. rewrite E. exact B.
Qed.

Lemma no_text sy root args t rc :
  run_command sy (gits sy) args root = (t, rc) ->
  ~ succeeds sy root args -> t = None.
Proof.
  intros E N. destruct t as [t |]; [|easy]. exfalso. apply N.
  apply run_some in E as (out & E & _). now exists out.
Qed.

Lemma pieces_no_git sy root :
  no_git sy root -> git_pieces_from_vcs sy [] root = VErr NotThisMethod.
Proof.
  intros H. unfold git_pieces_from_vcs, git.
  fold cmd_dir cmd_head cmd_branch cmd_contains cmd_show cmd_count.
  rewrite describe_args.
  destruct (run_command sy (gits sy) cmd_dir root) as [t0 rc0] eqn:E0.
  destruct (rc_bad rc0) eqn:B0; [reflexivity|].
  destruct H as [H | H].
  { apply (bad_rc _ _ _ _ _ E0) in H. congruence. }
  destruct (run_command sy (gits sy) (cmd_describe sy) root)
    as [t1 rc1] eqn:E1.
  destruct t1 as [t1 |]; [|reflexivity]. cbn [need vbind].
  destruct H as [H | H].
  { apply (no_text _ _ _ _ _ E1) in H. discriminate H. }
  destruct (run_command sy (gits sy) cmd_head root) as [t2 rc2] eqn:E2.
  destruct t2 as [t2 |]; [|reflexivity]. cbn [need vbind].
  destruct H as [H | H].
  { apply (no_text _ _ _ _ _ E2) in H. discriminate H. }
  destruct (run_command sy (gits sy) cmd_branch root) as [t3 rc3] eqn:E3.
  destruct (rc_bad rc3) eqn:B3; [reflexivity|].
  destruct t3 as [t3 |]; [|reflexivity]. cbn [need vbind].
  destruct H as [H | (H & H')].
  { apply (no_text _ _ _ _ _ E3) in H. discriminate H. }
  rewrite (run_shows _ _ _ _ H) in E3.
  assert (t3 = T "HEAD") by congruence. subst t3.
  change (teqb (strip (T "HEAD")) (T "HEAD")) with true. cbv iota.
  destruct (run_command sy (gits sy) cmd_contains root) as [t4 rc4] eqn:E4.
  rewrite (bad_rc _ _ _ _ _ E4 H'). reflexivity.
Qed.

(* ------------------------------------------------------------------ *)

Lemma upto_none s : ~ In (ch "/") s -> forall r,
  upto_slash (s ++ ch "/" :: r) = (s, ch "/" :: r).
Proof.
  induction s as [| c s IH]; intros H r; [reflexivity|].
  cbn [app upto_slash]. destruct (Ascii.eqb c (ch "/")) eqn:E.
  - apply Ascii.eqb_eq in E. subst. elim H. now left.
  - rewrite IH; [easy|]. intros X. apply H. now right.
Qed.

Lemma basename_app p c :
  ~ In (ch "/") c -> basename (p ++ T "/" ++ c) = c.
Proof.
  intros H. unfold basename.
  replace (rev (p ++ T "/" ++ c)) with (rev c ++ ch "/" :: rev p).
  2:{ rewrite !rev_app_distr. cbn [T list_ascii_of_string rev app].
      now rewrite <- app_assoc. }
  rewrite upto_none.
  - apply rev_involutive.
  - now rewrite <- in_rev.
Qed.

Lemma path_snoc cs c : path (cs ++ [c]) = path cs ++ T "/" ++ c.
Proof.
  unfold path. rewrite map_app, concat_app. cbn [map List.concat].
  now rewrite app_nil_r.
Qed.

Lemma snoc_case (cs : list text) :
  cs = [] \/ exists (ds : list text) (d : text), cs = ds ++ [d].
Proof.
  destruct (rev cs) as [| c r] eqn:E; apply (f_equal (@rev text)) in E;
    rewrite rev_involutive in E; cbn in E; eauto.
Qed.

Lemma path_no_slash cs :
  Forall component cs -> forall r, path cs <> r ++ T "/".
Proof.
  intros H r E. destruct (snoc_case cs) as [-> | (ds & c & ->)].
  - destruct r; discriminate E.
  - rewrite path_snoc in E.
    apply Forall_app in H as [_ H]. inversion H as [| ? ? [Nc Hc] _]; subst.
    destruct (exists_last Nc) as (d & x & ->).
    rewrite !app_assoc in E. apply app_inj_tail in E as [_ E].
    apply Hc. apply in_or_app. right. left. exact E.
Qed.

Lemma path_nonempty cs c : path (cs ++ [c]) <> [].
Proof. rewrite path_snoc. now destruct (path cs). Qed.

Definition top (cs : list text) : text :=
  match cs with [] => T "/" | _ => path cs end.

Lemma top_snoc cs c : top (cs ++ [c]) = path (cs ++ [c]).
Proof. now destruct cs. Qed.

Lemma dirname_path cs c :
  Forall component (cs ++ [c]) ->
  dirname (path (cs ++ [c])) = top cs.
Proof.
  intros H. apply Forall_app in H as [H Hc].
  inversion Hc as [| ? ? [Nc Sc] _]; subst.
  rewrite path_snoc. destruct (snoc_case cs) as [-> | (ds & d & ->)].
  - cbn [path map List.concat app]. unfold dirname.
    replace (rev (T "/" ++ c)) with (rev c ++ ch "/" :: []).
    2:{ rewrite rev_app_distr. reflexivity. }
    rewrite upto_none; [reflexivity|]. now rewrite <- in_rev.
  - rewrite dirname_app.
    + now destruct ds.
    + apply path_nonempty.
    + now apply path_no_slash.
    + easy.
Qed.

Lemma not_named d : (forall u, ~ named d u) -> startswith d (T "pyrichlet-") = false.
Proof.
  intros H. apply not_true. rewrite startswith_iff. intros (r & E). now apply (H r).
Qed.

Lemma named_dec d : (exists u, named d u) \/ (forall u, ~ named d u).
Proof.
  destruct (startswith d (T "pyrichlet-")) eqn:E.
  - left. apply startswith_iff in E as (r & ->). now exists r.
  - right. intros u ->. rewrite startswith_app in E. discriminate E.
Qed.

(** At the root directory nothing more is found. *)
Lemma parent_root n :
  parentdir n (T "pyrichlet-") (T "/") = VErr NotThisMethod.
Proof. induction n as [| n IH]; [reflexivity|]. exact IH. Qed.

Fixpoint scan (n : nat) (dirs : list text) : option text :=
  match n, dirs with
  | S m, d :: more =>
      if startswith d (T "pyrichlet-") then Some (skipn 10 d) else scan m more
  | _, _ => None
  end.

Lemma parent_scan n : forall cs,
  Forall component cs ->
  parentdir n (T "pyrichlet-") (top cs) =
  match scan n (rev cs) with
  | Some t => VOk (Version t None (Some false) None None)
  | None => VErr NotThisMethod
  end.
Proof.
  induction n as [| n IH]; intros cs H; [reflexivity|].
  destruct (snoc_case cs) as [-> | (ds & d & ->)].
  - apply parent_root.
  - rewrite top_snoc.
    cbn [parentdir]. rewrite rev_app_distr. cbn [rev app scan].
    pose proof H as H0. apply Forall_app in H0 as [H1 H2].
    inversion H2 as [| ? ? [Nd Sd] _]; subst.
    replace (basename (path (ds ++ [d]))) with d
      by (rewrite path_snoc; symmetry; now apply basename_app).
    destruct (startswith d (T "pyrichlet-")) eqn:E.
    + reflexivity.
    + rewrite dirname_path by easy. now apply IH.
Qed.

Lemma scan_some n dirs t :
  scan n dirs = Some t ->
  exists inner c outer, dirs = inner ++ c :: outer /\
    (List.length inner < n)%nat /\ named c t /\
    forall d u, In d inner -> ~ named d u.
Proof.
  revert dirs. induction n as [| n IH]; intros [| d dirs]; cbn [scan]; try easy.
  destruct (startswith d (T "pyrichlet-")) eqn:E.
  - apply startswith_iff in E as (r & ->). intros [= <-].
    exists [], (T "pyrichlet-" ++ r), dirs. split; [easy|].
    split; [cbn; lia|]. split; [reflexivity|]. intros d u [].
  - intros X. destruct (IH _ X) as (inner & c & outer & -> & L & Nm & Hn).
    exists (d :: inner), c, outer. split; [easy|]. split; [cbn; lia|].
    split; [easy|]. intros d' u [<- | Hd]; [|now apply Hn]. intros ->.
    rewrite startswith_app in E. discriminate E.
Qed.

Lemma scan_none n dirs :
  scan n dirs = None -> forall inner c outer,
  dirs = inner ++ c :: outer -> (List.length inner < n)%nat ->
  forall t, ~ named c t.
Proof.
  revert dirs. induction n as [| n IH]; intros dirs H inner c outer E L t Nm;
    [lia|].
  destruct inner as [| d inner]; cbn in E; subst; cbn [scan] in H.
  - rewrite Nm, startswith_app in H. discriminate H.
  - destruct (startswith d (T "pyrichlet-")); [discriminate H|].
    apply (IH _ H inner c outer eq_refl) in Nm; [easy|]. cbn in L. lia.
Qed.

Lemma fallback sy comps :
  installed sy (path comps) -> Forall component comps ->
  no_git sy (path comps) ->
  (exists t, nearest (rev comps) t /\
     get_versions raw_keywords sy =
     VOk (Version t None (Some false) None None)) \/
  ((forall t, ~ nearest (rev comps) t) /\
   get_versions raw_keywords sy =
   VOk (Version (T "0+unknown") None None
          (Some (T "unable to compute version")) None)).
Proof.
  intros I H G. unfold get_versions. rewrite raw_unexpanded. cbn [otherwise].
  assert (F : exists f, sy_file sy = Some f) by (destruct I as (_ & _ & I); eauto).
  destruct F as (f & F). rewrite F.
  rewrite (root_installed sy _ f I F). unfold cfg_tag_prefix.
  rewrite T_nil, (pieces_no_git _ _ G). cbn [vbind otherwise].
  unfold versions_from_parentdir, cfg_parentdir_prefix.
  pose proof (parent_scan 3 comps H) as P.
  replace (top comps) with (path comps) in P.
  2:{ destruct comps; [|easy]. destruct I as (I & _). now elim I. }
  rewrite P. destruct (scan 3 (rev comps)) as [t |] eqn:E; cbn [otherwise].
  - left. exists t. split; [|reflexivity].
    destruct (scan_some _ _ _ E) as (inner & c & outer & E1 & L & Nm & Hn).
    exists inner, c, outer. repeat split; try easy. lia.
  - right. split; [|reflexivity].
    intros t (inner & c & outer & E1 & L & Nm & _).
    apply (scan_none _ _ E inner c outer E1) in Nm; [easy|]. lia.
Qed.

(* ------------------------------------------------------------------ *)

Lemma fix_date_fails s e :
  fix_date s = VErr e -> e = XIndex /\ s = [].
Proof.
  unfold fix_date. destruct (rev (splitlines s)) as [| l r] eqn:E; [|easy].
  intros [= <-]. split; [easy|].
  destruct s as [| c s]; [easy|]. exfalso.
  apply (splitlines_nonempty (c :: s)); [easy|].
  apply (f_equal (@rev text)) in E. now rewrite rev_involutive in E.
Qed.

Lemma strip_nil p s :
  strip_by p s = [] -> Forall (fun c => p c = true) s.
Proof.
  intros H. destruct (strip_ends p s) as (a & b & E & Ha & Hb & _).
  rewrite E, H. apply Forall_app. split; [easy|]. exact Hb.
Qed.

Lemma both_nil s : strip (strip_by is_bspace s) = [] -> Forall white s.
Proof.
  intros H. destruct (strip_ends is_bspace s) as (a & b & E & Ha & Hb & _).
  apply strip_nil in H. rewrite E.
  assert (K : forall l, Forall (fun c => is_bspace c = true) l -> Forall white l).
  { intros l. apply Forall_impl. intros c X. now apply blank_white, is_bspace_iff. }
  apply Forall_app. split; [auto|]. apply Forall_app. split; [|auto].
  revert H. apply Forall_impl. intros c X. now apply is_space_iff.
Qed.

Definition printed_blank (sy : system) (root : text) (args : list text) : Prop :=
  exists out, outcome sy root args = PRan out 0 /\ Forall white out.

Lemma pieces_fail sy root e :
  git_pieces_from_vcs sy [] root = VErr e ->
  e = NotThisMethod \/
  (succeeds sy root cmd_dir /\ succeeds sy root (cmd_describe sy) /\
   succeeds sy root cmd_head /\ succeeds sy root cmd_branch /\
   ((e = XAttribute /\ ~ succeeds sy root cmd_show) \/
    (e = XIndex /\ printed_blank sy root cmd_show) \/
    (e = XType /\ ~ succeeds sy root cmd_count) \/
    (e = XValue /\ succeeds sy root cmd_count /\
     ~ exists ds, number ds /\ shows sy root cmd_count ds))).
Proof.
  unfold git_pieces_from_vcs, git.
  fold cmd_dir cmd_head cmd_branch cmd_contains cmd_show cmd_count.
  rewrite describe_args.
  destruct (run_command sy (gits sy) cmd_dir root) as [t0 rc0] eqn:E0.
  destruct (rc_bad rc0) eqn:B0; [intros [= <-]; now left|].
  assert (S0 : succeeds sy root cmd_dir) by (apply run_rc; now rewrite E0).
  destruct (run_command sy (gits sy) (cmd_describe sy) root)
    as [t1 rc1] eqn:E1.
  destruct t1 as [t1 |]; [|intros [= <-]; now left]. cbn [need vbind].
  assert (S1 : succeeds sy root (cmd_describe sy))
    by (apply run_some in E1 as (o & E1 & _); now exists o).
  destruct (run_command sy (gits sy) cmd_head root) as [t2 rc2] eqn:E2.
  destruct t2 as [t2 |]; [|intros [= <-]; now left]. cbn [need vbind].
  assert (S2 : succeeds sy root cmd_head)
    by (apply run_some in E2 as (o & E2 & _); now exists o).
  destruct (run_command sy (gits sy) cmd_branch root) as [t3 rc3] eqn:E3.
  destruct (rc_bad rc3) eqn:B3; [intros [= <-]; now left|].
  assert (S3 : succeeds sy root cmd_branch) by (apply run_rc; now rewrite E3).
  destruct t3 as [t3 |]; [|intros [= <-]; now left]. cbn [need vbind].
  set (br := if teqb (strip t3) (T "HEAD") then _ else _).
  assert (Hbr : (exists b, br = VOk b) \/ br = VErr NotThisMethod).
  { unfold br. destruct (teqb (strip t3) (T "HEAD")); [|eauto].
    destruct (run_command sy (gits sy) cmd_contains root) as [t4 rc4].
    destruct (rc_bad rc4); [now right|]. destruct t4; [|now right].
    cbn. eauto. }
  clearbody br. destruct Hbr as [(b & ->) | ->];
    [|intros [= <-]; now left]. cbn [vbind].
  intros H. right. split; [easy|]. split; [easy|]. split; [easy|].
  split; [easy|].
  set (dirty := endswith (strip t1) (T "-dirty")) in *.
  set (body := if dirty then _ else _) in *. clearbody body dirty.
  assert (Fin : forall short tag dist,
    (let '(d, _) := run_command sy (gits sy) cmd_show root in
     vbind (need XAttribute d) (fun d =>
     vbind (fix_date (strip d)) (fun d =>
     VOk (Pieces (strip t2) short None b dirty (Some tag) (Some dist)
                 (Some d))))) = VErr e ->
    (e = XAttribute /\ ~ succeeds sy root cmd_show) \/
    (e = XIndex /\ printed_blank sy root cmd_show)).
  { intros short tag dist.
    destruct (run_command sy (gits sy) cmd_show root) as [d rc] eqn:Ew.
    destruct d as [d |].
    - cbn [need vbind]. destruct (fix_date (strip d)) as [dd | ee] eqn:Ef;
        cbn [vbind]; [easy|]. intros [= <-].
      apply fix_date_fails in Ef as [-> En]. right. split; [easy|].
      apply run_some in Ew as (o & Eo & _ & ->). exists o. split; [easy|].
      now apply both_nil.
    - cbn. intros [= <-]. left. split; [easy|].
      now destruct (run_none _ _ _ _ Ew). }
  destruct (has (ch "-") body).
  - destruct (describe_match body) as [[[tag dig] hex] |]; [|easy].
    destruct (negb (startswith tag [])); [easy|].
    apply Fin in H. tauto.
  - destruct (run_command sy (gits sy) cmd_count root) as [c rc] eqn:Ec.
    destruct c as [c |].
    + cbn [need vbind] in H. destruct (py_int c) as [z |] eqn:Ez.
      * cbn [need vbind] in H. apply Fin in H. tauto.
      * cbn in H. injection H as <-. right. right. right. split; [easy|].
        split; [apply run_some in Ec as (o & Ec & _); now exists o|].
        intros (ds & (Nd & Fd) & Sh). rewrite (run_shows _ _ _ _ Sh) in Ec.
        injection Ec as <- _. rewrite py_int_num in Ez by easy. discriminate Ez.
    + cbn in H. injection H as <-. right. right. left. split; [easy|].
      now destruct (run_none _ _ _ _ Ec).
Qed.

(** A dictionary that was read is rendered without an exception. *)
Lemma pieces_keys sy root p :
  git_pieces_from_vcs sy [] root = VOk p ->
  truthy (p_error p) = true \/
  exists t d, p_tag p = Some t /\ p_dist p = Some d.
Proof.
  unfold git_pieces_from_vcs, git.
  fold cmd_dir cmd_head cmd_branch cmd_contains cmd_show cmd_count.
  rewrite describe_args.
  destruct (run_command sy (gits sy) cmd_dir root) as [t0 rc0].
  destruct (rc_bad rc0); [easy|].
  destruct (run_command sy (gits sy) (cmd_describe sy) root) as [t1 rc1].
  destruct t1 as [t1 |]; [|easy]. cbn [need vbind].
  destruct (run_command sy (gits sy) cmd_head root) as [t2 rc2].
  destruct t2 as [t2 |]; [|easy]. cbn [need vbind].
  destruct (run_command sy (gits sy) cmd_branch root) as [t3 rc3].
  destruct (rc_bad rc3); [easy|]. destruct t3 as [t3 |]; [|easy].
  cbn [need vbind].
  set (br := if teqb (strip t3) (T "HEAD") then _ else _). clearbody br.
  destruct br as [b | e]; cbn [vbind]; [|easy].
  set (dirty := endswith (strip t1) (T "-dirty")) in *.
  set (body := if dirty then _ else _) in *. clearbody body dirty.
  destruct (run_command sy (gits sy) cmd_show root) as [d rc].
  assert (Fin : forall short tag dist,
    vbind (need XAttribute d) (fun d =>
    vbind (fix_date (strip d)) (fun d =>
    VOk (Pieces (strip t2) short None b dirty (Some tag) (Some dist)
                (Some d)))) = VOk p ->
    exists t d, p_tag p = Some t /\ p_dist p = Some d).
  { intros short tag dist. destruct d as [d |]; cbn [need vbind]; [|easy].
    destruct (fix_date (strip d)); cbn [vbind]; [|easy].
    intros [= <-]. cbn. eauto. }
  destruct (has (ch "-") body).
  - destruct (describe_match body) as [[[tag dig] hex] |].
    + destruct (negb (startswith tag [])).
      * intros [= <-]. left. reflexivity.
      * intros H. apply Fin in H. now right.
    + intros [= <-]. left. reflexivity.
  - destruct (run_command sy (gits sy) cmd_count root) as [c rcc].
    destruct c as [c |]; cbn [need vbind]; [|easy].
    destruct (py_int c) as [z |]; cbn [need vbind]; [|easy].
    intros H. apply Fin in H. now right.
Qed.

Lemma render_ok p :
  (truthy (p_error p) = true \/
   exists t d, p_tag p = Some t /\ p_dist p = Some d) ->
  exists v, render p (Some cfg_style) = VOk v.
Proof.
  intros H. rewrite render_default. destruct (truthy (p_error p)); [eauto|].
  destruct H as [H | (t & d & Ht & Hd)]; [easy|].
  unfold render_pep440, the_tag, changed, the_dist, plus_or_dot.
  rewrite Ht, Hd. cbn [need vbind].
  destruct t as [[| c t] |]; cbn [truthy need vbind]; eauto.
  destruct (negb (d =? 0)%Z || p_dirty p); cbn [vbind need]; eauto.
Qed.

Lemma parent_fails n p root e :
  parentdir n p root = VErr e -> e = NotThisMethod.
Proof.
  revert root. induction n as [| n IH]; cbn; intros root.
  - congruence.
  - destruct (startswith (basename root) p); [easy|]. apply IH.
Qed.

Lemma import_fails sy root e :
  installed sy root -> get_versions raw_keywords sy = VErr e ->
  succeeds sy root cmd_dir /\ succeeds sy root (cmd_describe sy) /\
  succeeds sy root cmd_head /\ succeeds sy root cmd_branch /\
  ((e = XAttribute /\ ~ succeeds sy root cmd_show) \/
   (e = XIndex /\ exists out, outcome sy root cmd_show = PRan out 0 /\
                              Forall white out) \/
   (e = XType /\ ~ succeeds sy root cmd_count) \/
   (e = XValue /\ succeeds sy root cmd_count /\
    ~ exists ds, number ds /\ shows sy root cmd_count ds)).
Proof.
  intros I. unfold get_versions. rewrite raw_unexpanded. cbn [otherwise].
  assert (F : exists f, sy_file sy = Some f) by (destruct I as (_ & _ & I); eauto).
  destruct F as (f & F). rewrite F.
  rewrite (root_installed sy _ f I F). unfold cfg_tag_prefix. rewrite T_nil.
  destruct (git_pieces_from_vcs sy [] root) as [p | e'] eqn:E; cbn [vbind].
  - destruct (render_ok p (pieces_keys _ _ _ E)) as (v & ->). easy.
  - intros H. destruct (pieces_fail _ _ _ E) as [-> | K].
    + exfalso. cbn [otherwise] in H.
      destruct (versions_from_parentdir cfg_parentdir_prefix root)
        as [v | e'] eqn:P; [discriminate H|].
      apply parent_fails in P. subst e'. discriminate H.
    + assert (e' = e).
      { destruct K as (_ & _ & _ & _ & [(-> & _) | [(-> & _) | [(-> & _) | (-> & _)]]]);
          cbn in H; congruence. }
      subst e'. exact K.
Qed.
