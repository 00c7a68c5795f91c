(** Distinct versions, failing imports and example systems (M_Version). *)
From Coq Require Import List ZArith Ascii String Bool Lia.
From Verif Require Import M_Version S_Version P_VText P_VNum P_VGit P_VPieces
  P_VFall P_VPep.
Import ListNotations.
Open Scope list_scope.

Lemma cut_eq (c : ascii) a r a' r' :
  ~ In c a -> ~ In c a' -> a ++ c :: r = a' ++ c :: r' -> a = a' /\ r = r'.
Proof.
  revert a'. induction a as [| x a IH]; intros [| y a'] H H' E; cbn in E.
  - now injection E.
  - injection E as <- _. elim H'. now left.
  - injection E as -> _. elim H. now left.
  - injection E as <- E. destruct (IH a') as [-> ->]; try easy.
    + intros X. apply H. now right.
    + intros X. apply H'. now right.
Qed.

Lemma cut_none (c : ascii) a r b : ~ In c a -> a <> b ++ c :: r.
Proof. intros H ->. apply H. apply in_or_app. right. now left. Qed.

Lemma digits_no_dot s : Forall digit s -> ~ In (ch ".") s.
Proof.
  intros H X. rewrite Forall_forall in H. apply H in X. revert X.
  now apply not_digit.
Qed.

Lemma hex_no_dot s : hex_text s -> ~ In (ch ".") s.
Proof.
  intros [_ H] X. rewrite Forall_forall in H. apply H in X.
  apply is_hex_iff in X. discriminate X.
Qed.

Lemma hex_dirt_inj h h' d d' :
  hex_text h -> hex_text h' ->
  h ++ T (if d : bool then ".dirty" else "") =
  h' ++ T (if d' : bool then ".dirty" else "") -> h = h' /\ d = d'.
Proof.
  intros H H' E. apply hex_no_dot in H, H'. destruct d, d'.
  - split; [|easy]. now apply (cut_eq (ch ".")) in E.
  - exfalso. rewrite T_nil, app_nil_r in E. symmetry in E. revert E.
    now apply cut_none.
  - exfalso. rewrite T_nil, app_nil_r in E. revert E. now apply cut_none.
  - split; [|easy]. rewrite !T_nil, !app_nil_r in E. exact E.
Qed.

Lemma distinct tag ds hex dirty tag' ds' hex' dirty' v :
  ~ In (ch "+") tag -> ~ In (ch "+") tag' ->
  numeral ds -> numeral ds' -> hex_text hex -> hex_text hex' ->
  tagged_version tag ds hex dirty v ->
  tagged_version tag' ds' hex' dirty' v ->
  tag = tag' /\ ds = ds' /\ dirty = dirty' /\
  ((ds = T "0" /\ dirty = false) \/ hex = hex').
Proof.
  intros Ht Ht' Hd Hd' Hh Hh' [(-> & -> & ->) | (C & s & Hs & ->)]
    [(E1 & E2 & E3) | (C' & s' & Hs' & E)].
  - subst. split; [easy|]. split; [easy|]. split; [easy|]. now left.
  - exfalso. destruct Hs' as [(X & _) | (_ & ->)]; [easy|].
    revert E. now apply cut_none.
  - exfalso. destruct Hs as [(X & _) | (_ & ->)]; [easy|].
    symmetry in E3. revert E3. now apply cut_none.
  - destruct Hs as [(X & _) | (_ & ->)]; [easy|].
    destruct Hs' as [(X & _) | (_ & ->)]; [easy|].
    apply (cut_eq (ch "+")) in E as [-> E]; try easy.
    destruct Hd as (_ & Dd & _), Hd' as (_ & Dd' & _).
    apply (cut_eq (ch ".")) in E as [-> E]; try now apply digits_no_dot.
    injection E as E. apply hex_dirt_inj in E as [-> ->]; try easy.
    split; [easy|]. split; [easy|]. split; [easy|]. now right.
Qed.

(* ------------------------------------------------------------------ *)

Lemma failing_show sy root tag ds hex dirty full :
  installed sy root ->
  tag <> [] -> one_line tag -> numeral ds -> hex_text hex ->
  succeeds sy root cmd_dir ->
  shows sy root (cmd_describe sy) (described tag ds hex dirty) ->
  shows sy root cmd_head full -> branch_known sy root ->
  ~ succeeds sy root cmd_show ->
  get_versions raw_keywords sy = VErr XAttribute.
Proof.
  intros I Nt Lt Hd Hh Cd Cs Cf (b & Cb & Cc) Cw.
  assert (Bs : bare (described tag ds hex dirty)) by apply Cs.
  assert (Bf : bare full) by apply Cf.
  assert (Bb : bare b) by apply Cb.
  unfold get_versions. rewrite raw_unexpanded. cbn [otherwise].
  assert (F : exists f, sy_file sy = Some f) by (destruct I as (_ & _ & I); eauto).
  destruct F as (f & F). rewrite F.
  rewrite (root_installed sy _ f I F). unfold cfg_tag_prefix. rewrite T_nil.
  unfold git_pieces_from_vcs, git.
  fold cmd_dir cmd_head cmd_branch cmd_contains cmd_show cmd_count.
  rewrite describe_args.
  destruct (run_succeeds _ _ _ Cd) as (t0 & ->). cbn [rc_bad Z.eqb negb].
  rewrite (run_shows _ _ _ _ Cs). cbn [need vbind].
  rewrite (run_shows _ _ _ _ Cf). cbn [need vbind].
  rewrite (run_shows _ _ _ _ Cb). cbn [rc_bad Z.eqb negb need vbind].
  rewrite !strip_bare by easy.
  assert (Br : exists br,
    (if teqb b (T "HEAD")
     then let '(bs, rc) := run_command sy (gits sy) cmd_contains root in
          vbind (need NotThisMethod (if rc_bad rc then None else bs))
                (fun bs => VOk (detached_branch bs))
     else VOk (Some b)) = VOk br).
  { destruct (teqb b (T "HEAD")) eqn:E; [|eauto].
    apply teqb_eq in E. destruct (run_succeeds _ _ _ (Cc E)) as (t1 & ->).
    cbn. eauto. }
  destruct Br as (br & ->). cbn [vbind].
  pose proof (dirty_body (tag ++ T "-" ++ ds ++ T "-g") hex dirty Hh)
    as [Dd Db].
  replace ((tag ++ T "-" ++ ds ++ T "-g") ++ hex ++ dirt dirty)
    with (described tag ds hex dirty) in *
    by (unfold described, dirt; rewrite <- !app_assoc; reflexivity).
  rewrite Dd, Db.
  replace (has (ch "-") ((tag ++ T "-" ++ ds ++ T "-g") ++ hex)) with true.
  2:{ symmetry. apply has_in. apply in_or_app. left. apply in_or_app. right.
      now left. }
  replace ((tag ++ T "-" ++ ds ++ T "-g") ++ hex)
    with (tag ++ T "-" ++ ds ++ T "-g" ++ hex)
    by (rewrite <- !app_assoc; reflexivity).
  destruct Hd as (Nd & Fd & Cd').
  rewrite match_exact by easy.
  replace (startswith tag []) with true by (now destruct tag).
  cbn [negb].
  destruct (run_command sy (gits sy) cmd_show root) as [w rc] eqn:Ew.
  rewrite (no_text _ _ _ _ _ Ew Cw). reflexivity.
Qed.

Lemma failing_count sy root h dirty full :
  installed sy root -> hex_text h ->
  succeeds sy root cmd_dir ->
  shows sy root (cmd_describe sy) (h ++ T (if dirty : bool then "-dirty" else "")) ->
  shows sy root cmd_head full -> branch_known sy root ->
  ~ succeeds sy root cmd_count ->
  get_versions raw_keywords sy = VErr XType.
Proof.
  intros I Hh Cd Cs Cf (b & Cb & Cc) Cn. fold (dirt dirty) in Cs.
  assert (Bs : bare (h ++ dirt dirty)) by apply Cs.
  assert (Bf : bare full) by apply Cf.
  assert (Bb : bare b) by apply Cb.
  unfold get_versions. rewrite raw_unexpanded. cbn [otherwise].
  assert (F : exists f, sy_file sy = Some f) by (destruct I as (_ & _ & I); eauto).
  destruct F as (f & F). rewrite F.
  rewrite (root_installed sy _ f I F). unfold cfg_tag_prefix. rewrite T_nil.
  unfold git_pieces_from_vcs, git.
  fold cmd_dir cmd_head cmd_branch cmd_contains cmd_show cmd_count.
  rewrite describe_args.
  destruct (run_succeeds _ _ _ Cd) as (t0 & ->). cbn [rc_bad Z.eqb negb].
  rewrite (run_shows _ _ _ _ Cs). cbn [need vbind].
  rewrite (run_shows _ _ _ _ Cf). cbn [need vbind].
  rewrite (run_shows _ _ _ _ Cb). cbn [rc_bad Z.eqb negb need vbind].
  rewrite !strip_bare by easy.
  assert (Br : exists br,
    (if teqb b (T "HEAD")
     then let '(bs, rc) := run_command sy (gits sy) cmd_contains root in
          vbind (need NotThisMethod (if rc_bad rc then None else bs))
                (fun bs => VOk (detached_branch bs))
     else VOk (Some b)) = VOk br).
  { destruct (teqb b (T "HEAD")) eqn:E; [|eauto].
    apply teqb_eq in E. destruct (run_succeeds _ _ _ (Cc E)) as (t1 & ->).
    cbn. eauto. }
  destruct Br as (br & ->). cbn [vbind].
  pose proof (dirty_body [] h dirty Hh) as [Dd Db]. cbn [app] in Dd, Db.
  rewrite Dd, Db.
  replace (has (ch "-") h) with false.
  2:{ symmetry. apply has_not. intros X. destruct Hh as [_ Hh].
      rewrite Forall_forall in Hh. now apply (hex_not_dash _ (Hh _ X)). }
  destruct (run_command sy (gits sy) cmd_count root) as [w rc] eqn:Ew.
  rewrite (no_text _ _ _ _ _ Ew Cn). reflexivity.
Qed.

Lemma white_strips out : Forall white out -> strip (strip_by is_bspace out) = [].
Proof.
  intros H. assert (G : Forall white (strip_by is_bspace out)).
  { destruct (strip_ends is_bspace out) as (a & b & E & _). rewrite E in H.
    apply Forall_app in H as [_ H]. now apply Forall_app in H as [H _]. }
  destruct (strip_ends is_space (strip_by is_bspace out)) as (a & b & E & _ & _ & F & _).
  unfold strip. destruct (strip_by is_space (strip_by is_bspace out)) as [| c r] eqn:X;
    [easy|]. specialize (F c r eq_refl). rewrite E in G.
  apply Forall_app in G as [_ G]. inversion G as [| ? ? W]. apply is_space_iff in W.
  congruence.
Qed.

Lemma no_digits out : bare out -> out <> [] -> Forall (fun c => ~ digit c) out ->
  py_int out = None.
Proof.
  intros B N H. unfold py_int. rewrite strip_bare by easy.
  assert (G : forall s, Forall (fun c => ~ digit c) s -> digits_ok s false = false).
  { intros [| c s] F; [easy|]. inversion F as [| ? ? D]. cbn.
    destruct (is_digit c) eqn:E.
    - elim D. now apply is_digit_iff.
    - now rewrite andb_false_r. }
  destruct out as [| c r]; [easy|]. inversion H as [| ? ? D F].
  destruct (Ascii.eqb c (ch "-")); [now rewrite G|].
  destruct (Ascii.eqb c (ch "+")); [now rewrite G|]. now rewrite G.
Qed.

Lemma blank_show sy root tag ds hex dirty full :
  installed sy root ->
  tag <> [] -> one_line tag -> numeral ds -> hex_text hex ->
  succeeds sy root cmd_dir ->
  shows sy root (cmd_describe sy) (described tag ds hex dirty) ->
  shows sy root cmd_head full -> branch_known sy root ->
  (exists out, outcome sy root cmd_show = PRan out 0 /\ Forall white out) ->
  get_versions raw_keywords sy = VErr XIndex.
Proof.
  intros I Nt Lt Hd Hh Cd Cs Cf (b & Cb & Cc) Cw.
  assert (Bs : bare (described tag ds hex dirty)) by apply Cs.
  assert (Bf : bare full) by apply Cf.
  assert (Bb : bare b) by apply Cb.
  unfold get_versions. rewrite raw_unexpanded. cbn [otherwise].
  assert (F : exists f, sy_file sy = Some f) by (destruct I as (_ & _ & I); eauto).
  destruct F as (f & F). rewrite F.
  rewrite (root_installed sy _ f I F). unfold cfg_tag_prefix. rewrite T_nil.
  unfold git_pieces_from_vcs, git.
  fold cmd_dir cmd_head cmd_branch cmd_contains cmd_show cmd_count.
  rewrite describe_args.
  destruct (run_succeeds _ _ _ Cd) as (t0 & ->). cbn [rc_bad Z.eqb negb].
  rewrite (run_shows _ _ _ _ Cs). cbn [need vbind].
  rewrite (run_shows _ _ _ _ Cf). cbn [need vbind].
  rewrite (run_shows _ _ _ _ Cb). cbn [rc_bad Z.eqb negb need vbind].
  rewrite !strip_bare by easy.
  assert (Br : exists br,
    (if teqb b (T "HEAD")
     then let '(bs, rc) := run_command sy (gits sy) cmd_contains root in
          vbind (need NotThisMethod (if rc_bad rc then None else bs))
                (fun bs => VOk (detached_branch bs))
     else VOk (Some b)) = VOk br).
  { destruct (teqb b (T "HEAD")) eqn:E; [|eauto].
    apply teqb_eq in E. destruct (run_succeeds _ _ _ (Cc E)) as (t1 & ->).
    cbn. eauto. }
  destruct Br as (br & ->). cbn [vbind].
  pose proof (dirty_body (tag ++ T "-" ++ ds ++ T "-g") hex dirty Hh)
    as [Dd Db].
  replace ((tag ++ T "-" ++ ds ++ T "-g") ++ hex ++ dirt dirty)
    with (described tag ds hex dirty) in *
    by (unfold described, dirt; rewrite <- !app_assoc; reflexivity).
  rewrite Dd, Db.
  replace (has (ch "-") ((tag ++ T "-" ++ ds ++ T "-g") ++ hex)) with true.
  2:{ symmetry. apply has_in. apply in_or_app. left. apply in_or_app. right.
      now left. }
  replace ((tag ++ T "-" ++ ds ++ T "-g") ++ hex)
    with (tag ++ T "-" ++ ds ++ T "-g" ++ hex)
    by (rewrite <- !app_assoc; reflexivity).
  destruct Hd as (Nd & Fd & Cd').
  rewrite match_exact by easy.
  replace (startswith tag []) with true by (now destruct tag).
  cbn [negb].
  destruct Cw as (out & Eo & Wo). rewrite run_outcome, Eo. cbn [Z.eqb need vbind].
  rewrite white_strips by easy. reflexivity.
Qed.

Lemma bad_count sy root h dirty full :
  installed sy root -> hex_text h ->
  succeeds sy root cmd_dir ->
  shows sy root (cmd_describe sy) (h ++ T (if dirty : bool then "-dirty" else "")) ->
  shows sy root cmd_head full -> branch_known sy root ->
  (exists out, shows sy root cmd_count out /\ out <> [] /\
     Forall (fun c => ~ digit c) out) ->
  get_versions raw_keywords sy = VErr XValue.
Proof.
  intros I Hh Cd Cs Cf (b & Cb & Cc) Cn. fold (dirt dirty) in Cs.
  assert (Bs : bare (h ++ dirt dirty)) by apply Cs.
  assert (Bf : bare full) by apply Cf.
  assert (Bb : bare b) by apply Cb.
  unfold get_versions. rewrite raw_unexpanded. cbn [otherwise].
  assert (F : exists f, sy_file sy = Some f) by (destruct I as (_ & _ & I); eauto).
  destruct F as (f & F). rewrite F.
  rewrite (root_installed sy _ f I F). unfold cfg_tag_prefix. rewrite T_nil.
  unfold git_pieces_from_vcs, git.
  fold cmd_dir cmd_head cmd_branch cmd_contains cmd_show cmd_count.
  rewrite describe_args.
  destruct (run_succeeds _ _ _ Cd) as (t0 & ->). cbn [rc_bad Z.eqb negb].
  rewrite (run_shows _ _ _ _ Cs). cbn [need vbind].
  rewrite (run_shows _ _ _ _ Cf). cbn [need vbind].
  rewrite (run_shows _ _ _ _ Cb). cbn [rc_bad Z.eqb negb need vbind].
  rewrite !strip_bare by easy.
  assert (Br : exists br,
    (if teqb b (T "HEAD")
     then let '(bs, rc) := run_command sy (gits sy) cmd_contains root in
          vbind (need NotThisMethod (if rc_bad rc then None else bs))
                (fun bs => VOk (detached_branch bs))
     else VOk (Some b)) = VOk br).
  { destruct (teqb b (T "HEAD")) eqn:E; [|eauto].
    apply teqb_eq in E. destruct (run_succeeds _ _ _ (Cc E)) as (t1 & ->).
    cbn. eauto. }
  destruct Br as (br & ->). cbn [vbind].
  pose proof (dirty_body [] h dirty Hh) as [Dd Db]. cbn [app] in Dd, Db.
  rewrite Dd, Db.
  replace (has (ch "-") h) with false.
  2:{ symmetry. apply has_not. intros X. destruct Hh as [_ Hh].
      rewrite Forall_forall in Hh. now apply (hex_not_dash _ (Hh _ X)). }
  destruct Cn as (out & So & No & Do). rewrite (run_shows _ _ _ _ So). cbn [need vbind].
  rewrite no_digits by (try easy; apply So). reflexivity.
Qed.

(* ------------------------------------------------------------------ *)
(** Example systems: a table from arguments to outcomes. *)

Fixpoint args_eqb (a b : list text) : bool :=
  match a, b with
  | [], [] => true
  | x :: a', y :: b' => teqb x y && args_eqb a' b'
  | _, _ => false
  end.

Fixpoint look (tbl : list (list text * popen)) (args : list text) : popen :=
  match tbl with
  | [] => PRan (T "") 128
  | (a, r) :: more => if args_eqb a args then r else look more args
  end.

Definition table_system (root : text) (tbl : list (list text * popen)) : system :=
  System false (fun _ _ args => look tbl args)
         (Some (root ++ T "/pyrichlet/_version.py")).

Definition ex_root : text := T "/home/user/pyrichlet-src".

Definition nl (s : string) : popen := PRan (T s ++ [LF]) 0.

Definition full_id : string := "0123456789abcdef0123456789abcdef01234567".

Definition ex_table (desc : string) (rest : list (list text * popen)) :=
  (map T ["describe"; "--tags"; "--dirty"; "--always"; "--long"; "--match";
          "*"]%string, nl desc)
  :: (cmd_dir, nl ".git") :: (cmd_head, nl full_id)
  :: (cmd_branch, nl "master") :: rest.

Definition ex_date : popen := nl "2024-03-01 10:20:30 +0100".

(** On a tag with hyphens, three commits later, with local changes. *)
Definition sys_tagged : system :=
  table_system ex_root (ex_table "1.0-rc-2-3-g0123456-dirty"
                          [(cmd_show, ex_date)]).
(** Without tags. *)
Definition sys_untagged : system :=
  table_system ex_root (ex_table "0123456" [(cmd_count, nl "42");
                                            (cmd_show, ex_date)]).
Definition sys_odd : system :=
  table_system ex_root (ex_table "1.0-3-gxyz" [(cmd_show, ex_date)]).
Definition sys_no_show : system :=
  table_system ex_root (ex_table "1.0-3-g0123456" []).
Definition sys_no_count : system :=
  table_system ex_root (ex_table "0123456" [(cmd_show, ex_date)]).
Definition sys_bad_count : system :=
  table_system ex_root (ex_table "0123456" [(cmd_count, nl "many");
                                            (cmd_show, ex_date)]).
Definition sys_blank_show : system :=
  table_system ex_root (ex_table "1.0-3-g0123456" [(cmd_show, nl " ")]).
Definition sys_none : system :=
  table_system (T "/tmp/pyrichlet-1.2/build/lib") [].
Definition sys_far : system :=
  table_system (T "/tmp/pyrichlet-1.2/a/b/c") [].

Lemma bare_b t :
  match t with [] => true | c :: _ => negb (is_space c) end &&
  match rev t with [] => true | c :: _ => negb (is_space c) end = true ->
  bare t.
Proof.
  intros H. apply andb_true_iff in H as [H1 H2]. split; intros c r -> W;
    apply is_space_iff in W.
  - now rewrite W in H1.
  - rewrite rev_app_distr in H2. cbn in H2. now rewrite W in H2.
Qed.

Lemma shows_nl sy root args s :
  outcome sy root args = nl s ->
  match T s with [] => true | c :: _ => negb (is_space c) end &&
  match rev (T s) with [] => true | c :: _ => negb (is_space c) end = true ->
  shows sy root args (T s).
Proof.
  intros E B. split; [now apply bare_b|].
  exists [], [LF]. split; [constructor|]. split.
  - constructor; [|constructor]. apply is_bspace_iff. reflexivity.
  - exact E.
Qed.

Lemma installed_table root tbl :
  root <> [] -> (forall r, root <> r ++ T "/") ->
  installed (table_system root tbl) root.
Proof. intros N H. split; [easy|]. split; [easy|]. reflexivity. Qed.

Lemma ends_b s (c : ascii) :
  match rev s with [] => true | x :: _ => negb (Ascii.eqb x c) end = true ->
  forall r, s <> r ++ [c].
Proof.
  intros H r ->. rewrite rev_app_distr in H. cbn in H.
  now rewrite Ascii.eqb_refl in H.
Qed.

Lemma numeral_b s :
  match s with [] => false | c :: _ => teqb s (T "0") || negb (Ascii.eqb c (ch "0")) end
  && forallb is_digit s = true -> numeral s.
Proof.
  intros H. apply andb_true_iff in H as [H1 H2]. destruct s as [| c r]; [easy|].
  split; [easy|]. split.
  - apply Forall_dig. apply Forall_forall. now apply forallb_forall.
  - apply orb_true_iff in H1 as [H1 | H1].
    + left. now apply teqb_eq.
    + right. intros [= ->]. now rewrite Ascii.eqb_refl in H1.
Qed.

Lemma hex_b s :
  match s with [] => false | _ => true end && forallb is_hex s = true -> hex_text s.
Proof.
  intros H. apply andb_true_iff in H as [H1 H2]. split.
  - now destruct s.
  - apply Forall_hex. apply Forall_forall. now apply forallb_forall.
Qed.

Lemma solid_b s :
  match s with [] => false | _ => true end && forallb (fun c => negb (is_space c)) s
  = true -> s <> [] /\ Forall (fun c => ~ white c) s.
Proof.
  intros H. apply andb_true_iff in H as [H1 H2]. split.
  - now destruct s.
  - apply Forall_forall. rewrite forallb_forall in H2. intros c X W.
    apply H2 in X. apply is_space_iff in W. now rewrite W in X.
Qed.

Lemma ex_dates : date_parts (T "2024-03-01") (T "10:20:30") (T "+0100").
Proof.
  intros x [<- | [<- | [<- | []]]]; apply solid_b; reflexivity.
Qed.

Lemma branch_master sy root :
  outcome sy root cmd_branch = nl "master" -> branch_known sy root.
Proof.
  intros E. exists (T "master"). split; [now apply shows_nl|]. discriminate.
Qed.
