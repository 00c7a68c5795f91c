(** Counterexamples and final forms for C95-C98. *)
From Coq Require Import List ZArith Ascii String Bool Lia.
From Verif Require Import M_Version S_Version P_VText P_VNum P_VGit P_VPieces P_VKeys
  P_VFall P_VPep P_VMore.
Import ListNotations.
Open Scope list_scope.

Lemma root_ok : forall r, ex_root <> r ++ T "/".
Proof. apply (ends_b ex_root (ch "/")). reflexivity. Qed.

Lemma ex_installed tbl : installed (table_system ex_root tbl) ex_root.
Proof. apply installed_table; [discriminate|exact root_ok]. Qed.

(** A repository with the tag 0+untagged. *)
Definition sys_clash : system :=
  table_system ex_root (ex_table "0+untagged-42-g0123456" [(cmd_show, ex_date)]).

Lemma collision :
  exists sy sy' root v,
    installed sy root /\ installed sy' root /\
    shows sy root (cmd_describe sy) (T "0123456") /\
    shows sy' root (cmd_describe sy') (described (T "0+untagged") (T "42") (T "0123456") false) /\
    get_versions raw_keywords sy = VOk v /\ get_versions raw_keywords sy' = VOk v.
Proof.
  exists sys_untagged, sys_clash, ex_root.
  eexists. split; [apply ex_installed|]. split; [apply ex_installed|].
  split; [apply shows_nl; reflexivity|].
  split; [apply (shows_nl _ _ _ "0+untagged-42-g0123456"); reflexivity|].
  split; vm_compute; reflexivity.
Qed.

Definition two_refs : list text := [T "HEAD -> master"; T "tag: 2.0"; T "tag: 1.0"]%string.
Definition two_tags : keywords :=
  Keywords (Some (T " (HEAD -> master, tag: 2.0, tag: 1.0)")) (Some (T full_id))
           (Some (T "2024-03-01 10:20:30 +0100")).

Lemma ref_b r :
  match r with [] => false | _ => true end &&
  (match r with [] => true | c :: _ => negb (is_space c) end &&
   match rev r with [] => true | c :: _ => negb (is_space c) end) &&
  negb (mem (ch ",") r) && negb (mem (ch "(") r) && negb (mem (ch ")") r) = true ->
  ref_name r.
Proof.
  intros H. rewrite !andb_true_iff, !negb_true_iff in H.
  destruct H as ((((H1 & H2) & H3) & H4) & H5).
  split; [now destruct r|]. split; [apply bare_b; now rewrite !andb_true_iff|].
  split; [|split]; intros X; apply mem_in in X; congruence.
Qed.

Lemma two_decorated : decoration (T " (HEAD -> master, tag: 2.0, tag: 1.0)") two_refs.
Proof.
  split.
  - apply Forall_forall. intros r [<- | [<- | [<- | []]]]; apply ref_b; reflexivity.
  - right. split; [discriminate|]. exists [ch " "], []. split.
    + constructor; [|constructor]. apply is_bspace_iff. reflexivity.
    + split; [constructor|]. reflexivity.
Qed.

Lemma lowest_tag :
  exists k txt rs, k_refnames k = Some txt /\ decoration txt rs /\
    In (T "tag: 1.0") rs /\ In (T "tag: 2.0") rs /\
    forall sy, package_version k sy = VOk (T "1.0").
Proof.
  exists two_tags, (T " (HEAD -> master, tag: 2.0, tag: 1.0)"), two_refs.
  split; [reflexivity|]. split; [exact two_decorated|].
  split; [right; right; now left|]. split; [right; now left|].
  intros sy. vm_compute. reflexivity.
Qed.

Lemma keywords_final k txt rs full :
  k_refnames k = Some txt -> decoration txt rs -> k_full k = Some full -> bare full ->
  (k_date k = None \/
   exists d1 d2 d3, date_parts d1 d2 d3 /\
                    k_date k = Some (d1 ++ T " " ++ d2 ++ T " " ++ d3)) ->
  exists v,
    (forall sy, get_versions k sy = VOk v) /\
    v_full v = Some full /\ v_dirty v = Some false /\
    ((v_error v = None /\
      (v_date v = None /\ k_date k = None \/
       exists d1 d2 d3, date_parts d1 d2 d3 /\
         k_date k = Some (d1 ++ T " " ++ d2 ++ T " " ++ d3) /\
         v_date v = Some (d1 ++ T "T" ++ d2 ++ d3)) /\
      candidate rs (v_version v) /\ starts_digit (v_version v) /\
      (forall t, candidate rs t -> starts_digit t ->
                 t = v_version v \/ alpha_lt (v_version v) t)) \/
     (v_version v = T "0+unknown" /\ v_error v = Some (T "no suitable tags") /\
      v_date v = None /\ forall t, candidate rs t -> ~ starts_digit t)).
Proof.
  intros Hk Hd Hf B Dt.
  destruct (keywords_run k txt rs full Hk Hd Hf Dt) as (v & E & F & R).
  exists v. rewrite (strip_bare full B) in F. easy.
Qed.

(** Tags with .post or .dev. *)
Definition q_of (post dev : option text) : parts :=
  Parts None [T "1"; T "0"] None post dev None.
Definition pcs (post dev : option text) : pieces :=
  Pieces (T full_id) (T "0123456") None (Some (T "master")) false
         (Some (Some (spell (q_of post dev)))) (Some 3%Z) None.

Lemma digits_b s : match s with [] => false | _ => true end && forallb is_digit s = true
  -> number s.
Proof.
  intros H. apply andb_true_iff in H as [H1 H2]. split; [now destruct s|].
  apply Forall_dig. apply Forall_forall. now apply forallb_forall.
Qed.

Lemma pcs_ok post dev : all_opt number post -> all_opt number dev ->
  tagged (pcs post dev) (q_of post dev) 3.
Proof.
  intros Hp Hd. split; [reflexivity|]. split; [reflexivity|]. split; [lia|].
  split; [apply hex_b; reflexivity|].
  split; [exact I|]. split; [|split; [exact I|]].
  - split; [discriminate|].
    constructor; [apply digits_b; reflexivity|].
    constructor; [apply digits_b; reflexivity|]. constructor.
  - split; [exact Hp|]. split; [exact Hd|exact I].
Qed.

Lemma post_twice :
  exists p q d v, tagged p q d /\ render_style (T "pep440-post") p = VOk v /\ ~ pep440 v.
Proof.
  exists (pcs (Some (T "1")) None), (q_of (Some (T "1")) None), 3%Z.
  eexists. split; [apply pcs_ok; [apply digits_b; reflexivity|exact I]|].
  split; [vm_compute; reflexivity|].
  intros X. apply one_post in X. vm_compute in X. lia.
Qed.


Lemma pre_fails :
  exists p q d, tagged p q d /\ render_style (T "pep440-pre") p = VErr XValue.
Proof.
  exists (pcs (Some (T "1")) (Some (T "2"))), (q_of (Some (T "1")) (Some (T "2"))), 3%Z.
  split; [apply pcs_ok; apply digits_b; reflexivity|]. vm_compute. reflexivity.
Qed.

Definition on_branch (b : text) (p : pieces) : pieces :=
  Pieces (p_long p) (p_short p) (p_error p) (Some b) (p_dirty p) (p_tag p) (p_dist p)
         (p_date p).

Lemma dev_twice :
  exists p q d, tagged p q d /\
    (exists v, render_style (T "pep440-branch") p = VOk v /\ ~ pep440 v) /\
    (exists v, render_style (T "pep440-pre") p = VOk v /\ ~ pep440 v).
Proof.
  exists (on_branch (T "topic") (pcs None (Some (T "2")))), (q_of None (Some (T "2"))), 3%Z.
  split.
  { apply (pcs_ok None (Some (T "2"))); [exact I|apply digits_b; reflexivity]. }
  split; eexists; (split; [vm_compute; reflexivity|]);
    intros X; apply one_dev in X; vm_compute in X; lia.
Qed.

(** On a detached HEAD. *)
Definition sys_detached : system :=
  table_system ex_root
    [(cmd_branch, nl "HEAD");
     (cmd_contains, PRan (detached_list (T "0123456") [T "topic"; T "master"] ++ [LF]) 0);
     (map T ["describe"; "--tags"; "--dirty"; "--always"; "--long"; "--match"; "*"]%string,
      nl "1.0-3-g0123456");
     (cmd_dir, nl ".git"); (cmd_head, nl full_id); (cmd_show, ex_date)].

Lemma detached_shows : shows sys_detached ex_root cmd_contains
    (detached_list (T "0123456") [T "topic"; T "master"]).
Proof.
  split; [apply bare_b; reflexivity|].
  exists [], [LF]. split; [constructor|]. split.
  - constructor; [|constructor]. apply is_bspace_iff. reflexivity.
  - reflexivity.
Qed.
