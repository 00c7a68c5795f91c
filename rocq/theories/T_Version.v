(* C95-C98: the version of the package (pyrichlet/_version.py). *)
From Coq Require Import List ZArith Ascii String Bool Lia.
From Verif Require Import M_Version S_Version P_VText P_VPieces P_VKeys P_VFall P_VPep
  P_VMore P_VFile P_VRef P_VShape.
Import ListNotations.
Open Scope list_scope.

(* ---- C95: a git checkout ---- *)

(* whatever hyphens the tag has, TAG-NUM-gHEX[-dirty] is read back exactly *)
Theorem c95_tagged : forall sy root tag num hex dirty full pre d1 d2 d3,
  installed sy root ->
  tag <> [] -> one_line tag -> numeral num -> hex_text hex ->
  succeeds sy root cmd_dir ->
  shows sy root (cmd_describe sy) (described tag num hex dirty) ->
  shows sy root cmd_head full -> branch_known sy root ->
  date_parts d1 d2 d3 -> above pre ->
  shows sy root cmd_show (pre ++ d1 ++ T " " ++ d2 ++ T " " ++ d3) ->
  exists v, tagged_version tag num hex dirty v /\
    package_version raw_keywords sy = VOk v /\
    get_versions raw_keywords sy =
    VOk (Version v (Some full) (Some dirty) None (Some (d1 ++ T "T" ++ d2 ++ d3))).
Proof. exact version_tagged. Qed.
Print Assumptions c95_tagged.

(* no tag: the number of commits and seven characters of the full hash *)
Theorem c95_untagged : forall sy root h num (dirty : bool) full pre d1 d2 d3,
  installed sy root -> hex_text h -> numeral num ->
  succeeds sy root cmd_dir ->
  shows sy root (cmd_describe sy) (h ++ T (if dirty then "-dirty" else "")) ->
  shows sy root cmd_head full -> branch_known sy root ->
  shows sy root cmd_count num ->
  date_parts d1 d2 d3 -> above pre ->
  shows sy root cmd_show (pre ++ d1 ++ T " " ++ d2 ++ T " " ++ d3) ->
  get_versions raw_keywords sy =
  VOk (Version (T "0+untagged." ++ num ++ T ".g" ++ firstn 7 full
                  ++ T (if dirty then ".dirty" else ""))
         (Some full) (Some dirty) None (Some (d1 ++ T "T" ++ d2 ++ d3))).
Proof. exact version_untagged. Qed.
Print Assumptions c95_untagged.

(* anything else with a hyphen is reported, not raised *)
Theorem c95_unparsed : forall sy root desc full,
  installed sy root ->
  (forall tag num hex dirty, number num -> hex_text hex -> tag <> [] ->
     desc <> described tag num hex dirty) ->
  (exists body (dirty : bool), desc = body ++ T (if dirty then "-dirty" else "")
     /\ In (ch "-") body /\ (dirty = false -> forall r, body <> r ++ T "-dirty")) ->
  one_line desc ->
  succeeds sy root cmd_dir ->
  shows sy root (cmd_describe sy) desc ->
  shows sy root cmd_head full -> branch_known sy root ->
  get_versions raw_keywords sy =
  VOk (Version (T "unknown") (Some full) None
         (Some (T "unable to parse git-describe output: '" ++ desc ++ T "'")) None).
Proof. exact version_unparsed. Qed.
Print Assumptions c95_unparsed.

(* the style git-describe-long prints what git printed *)
Theorem c95_long_round_trip : forall sy root tag num hex dirty full pre d1 d2 d3 p,
  tag <> [] -> one_line tag -> numeral num -> hex_text hex ->
  succeeds sy root cmd_dir ->
  shows sy root (cmd_describe sy) (described tag num hex dirty) ->
  shows sy root cmd_head full -> branch_known sy root ->
  date_parts d1 d2 d3 -> above pre ->
  shows sy root cmd_show (pre ++ d1 ++ T " " ++ d2 ++ T " " ++ d3) ->
  git_pieces_from_vcs sy [] root = VOk p ->
  render_git_describe_long p = VOk (described tag num hex dirty).
Proof. exact long_round_trip. Qed.
Print Assumptions c95_long_round_trip.

(* the style git-describe leaves out distance and hash on the tag itself *)
Theorem c95_describe_style : forall sy root tag num hex (dirty : bool) full pre d1 d2 d3 p,
  tag <> [] -> one_line tag -> numeral num -> hex_text hex ->
  succeeds sy root cmd_dir ->
  shows sy root (cmd_describe sy) (described tag num hex dirty) ->
  shows sy root cmd_head full -> branch_known sy root ->
  date_parts d1 d2 d3 -> above pre ->
  shows sy root cmd_show (pre ++ d1 ++ T " " ++ d2 ++ T " " ++ d3) ->
  git_pieces_from_vcs sy [] root = VOk p ->
  (num = T "0" -> render_style (T "git-describe") p =
                  VOk (tag ++ T (if dirty then "-dirty" else ""))) /\
  (num <> T "0" -> render_style (T "git-describe") p = VOk (described tag num hex dirty)).
Proof. exact short_round_trip. Qed.
Print Assumptions c95_describe_style.

(* the branch: git's answer, or on a detached HEAD master if it contains the
   commit, else the first branch that does *)
Theorem c95_branch : forall sy root b p,
  shows sy root cmd_branch b -> b <> T "HEAD" ->
  git_pieces_from_vcs sy [] root = VOk p -> p_branch p = Some b.
Proof. exact attached_pieces. Qed.
Print Assumptions c95_branch.

Theorem c95_detached_branch : forall sy root h bs p,
  shows sy root cmd_branch (T "HEAD") ->
  shows sy root cmd_contains (detached_list h bs) -> one_line h -> Forall one_line bs ->
  git_pieces_from_vcs sy [] root = VOk p -> chosen_branch bs (p_branch p).
Proof. exact detached_pieces. Qed.
Print Assumptions c95_detached_branch.

(* tags without a plus sign: equal versions come from the same tag, distance,
   state, and (unless exactly on the tag) commit *)
Theorem c95_distinct : forall tag num hex dirty tag' num' hex' dirty' v,
  ~ In (ch "+") tag -> ~ In (ch "+") tag' ->
  numeral num -> numeral num' -> hex_text hex -> hex_text hex' ->
  tagged_version tag num hex dirty v -> tagged_version tag' num' hex' dirty' v ->
  tag = tag' /\ num = num' /\ dirty = dirty' /\
  ((num = T "0" /\ dirty = false) \/ hex = hex').
Proof. exact distinct. Qed.
Print Assumptions c95_distinct.

(* with one, a tagged and an untagged repository can have the same version *)
Theorem c95_collision_refuted : exists sy sy' root v,
    installed sy root /\ installed sy' root /\
    shows sy root (cmd_describe sy) (T "0123456") /\
    shows sy' root (cmd_describe sy')
      (described (T "0+untagged") (T "42") (T "0123456") false) /\
    get_versions raw_keywords sy = VOk v /\ get_versions raw_keywords sy' = VOk v.
Proof. exact collision. Qed.
Print Assumptions c95_collision_refuted.

Example c95_ex :
  installed sys_tagged ex_root /\ one_line (T "1.0-rc-2") /\ numeral (T "3") /\
  hex_text (T "0123456") /\ succeeds sys_tagged ex_root cmd_dir /\
  shows sys_tagged ex_root (cmd_describe sys_tagged)
    (described (T "1.0-rc-2") (T "3") (T "0123456") true) /\
  shows sys_tagged ex_root cmd_head (T full_id) /\ branch_known sys_tagged ex_root /\
  date_parts (T "2024-03-01") (T "10:20:30") (T "+0100") /\
  package_version raw_keywords sys_tagged = VOk (T "1.0-rc-2+3.g0123456.dirty").
Proof.
  split; [apply ex_installed|]. split; [intros X; apply mem_in in X; discriminate X|].
  split; [apply numeral_b; reflexivity|]. split; [apply hex_b; reflexivity|].
  split; [eexists; reflexivity|].
  split; [apply (shows_nl _ _ _ "1.0-rc-2-3-g0123456-dirty"); reflexivity|].
  split; [apply shows_nl; reflexivity|]. split; [apply branch_master; reflexivity|].
  split; [exact ex_dates|]. vm_compute. reflexivity.
Qed.
Example c95_ex_untagged :
  installed sys_untagged ex_root /\ shows sys_untagged ex_root cmd_count (T "42") /\
  shows sys_untagged ex_root (cmd_describe sys_untagged) (T "0123456") /\
  package_version raw_keywords sys_untagged = VOk (T "0+untagged.42.g0123456").
Proof.
  split; [apply ex_installed|]. split; [apply shows_nl; reflexivity|].
  split; [apply shows_nl; reflexivity|]. vm_compute. reflexivity.
Qed.
Example c95_ex_detached :
  shows sys_detached ex_root cmd_branch (T "HEAD") /\
  shows sys_detached ex_root cmd_contains
    (detached_list (T "0123456") [T "topic"; T "master"]) /\
  match git_pieces_from_vcs sys_detached [] ex_root with
  | VOk p => p_branch p = Some (T "master")
  | VErr _ => False
  end.
Proof.
  split; [apply shows_nl; reflexivity|]. split; [exact detached_shows|].
  vm_compute. reflexivity.
Qed.
Example c95_ex_odd :
  package_version raw_keywords sys_odd = VOk (T "unknown").
Proof. vm_compute. reflexivity. Qed.

(* ---- C96: an archive made by git ---- *)

(* the keyword lines of the file are read back whatever else is in it *)
Theorem c96_keywords_read : forall l0 l1 l2 l3 r f d,
  Forall other_line (l0 ++ l1 ++ l2 ++ l3) -> one_line r -> one_line f -> one_line d ->
  git_get_keywords
    (Some (l0 ++ assignment "git_refnames" r :: l1 ++ assignment "git_full" f :: l2
              ++ assignment "git_date" d :: l3))
  = Keywords (Some r) (Some f) (Some d).
Proof. exact keywords_read. Qed.
Print Assumptions c96_keywords_read.

(* the alphabetically first candidate with a digit in front, on every system *)
Theorem c96_archive : forall k txt rs full,
  k_refnames k = Some txt -> decoration txt rs -> k_full k = Some full -> bare full ->
  (k_date k = None \/
   exists d1 d2 d3, date_parts d1 d2 d3 /\
                    k_date k = Some (d1 ++ T " " ++ d2 ++ T " " ++ d3)) ->
  exists v,
    (forall sy, get_versions k sy = VOk v) /\
    v_full v = Some full /\ v_dirty v = Some false /\
    ((v_error v = None /\
      (v_date v = None /\ k_date k = None \/
       exists d1 d2 d3, date_parts d1 d2 d3 /\
         k_date k = Some (d1 ++ T " " ++ d2 ++ T " " ++ d3) /\
         v_date v = Some (d1 ++ T "T" ++ d2 ++ d3)) /\
      candidate rs (v_version v) /\ starts_digit (v_version v) /\
      (forall t, candidate rs t -> starts_digit t ->
                 t = v_version v \/ alpha_lt (v_version v) t)) \/
     (v_version v = T "0+unknown" /\ v_error v = Some (T "no suitable tags") /\
      v_date v = None /\ forall t, candidate rs t -> ~ starts_digit t)).
Proof. exact keywords_final. Qed.
Print Assumptions c96_archive.

(* a release wins over its own release candidates *)
Theorem c96_release_first : forall k txt rs full sy v t s,
  k_refnames k = Some txt -> decoration txt rs -> k_full k = Some full ->
  (k_date k = None \/
   exists d1 d2 d3, date_parts d1 d2 d3 /\
                    k_date k = Some (d1 ++ T " " ++ d2 ++ T " " ++ d3)) ->
  candidate rs t -> starts_digit t -> s <> [] ->
  package_version k sy = VOk v -> v <> t ++ s.
Proof. exact release_first. Qed.
Print Assumptions c96_release_first.

(* but the highest of two releases on a commit does not *)
Theorem c96_highest_refuted : exists k txt rs,
  k_refnames k = Some txt /\ decoration txt rs /\
  In (T "tag: 1.0") rs /\ In (T "tag: 2.0") rs /\
  forall sy, package_version k sy = VOk (T "1.0").
Proof. exact lowest_tag. Qed.
Print Assumptions c96_highest_refuted.

Example c96_ex :
  decoration (T " (HEAD -> master, tag: 2.0, tag: 1.0)") two_refs /\
  bare (T full_id) /\ candidate two_refs (T "1.0") /\ starts_digit (T "1.0").
Proof.
  split; [exact two_decorated|]. split; [apply bare_b; reflexivity|].
  split; [left; right; right; now left|].
  exists (ch "1"), (T ".0"). split; [reflexivity|]. apply mem_in. reflexivity.
Qed.
Example c96_ex_file :
  git_get_keywords (Some [T "def get_keywords():"; assignment "git_refnames" (T "(tag: 1.0)");
    assignment "git_full" (T full_id); assignment "git_date" (T "2024");
    T "    return keywords"])
  = Keywords (Some (T "(tag: 1.0)")) (Some (T full_id)) (Some (T "2024")).
Proof. vm_compute. reflexivity. Qed.
Example c96_ex_no_tag :
  package_version (Keywords (Some (T " (HEAD -> master)")) (Some (T full_id)) None) sys_none
  = VOk (T "0+unknown").
Proof. vm_compute. reflexivity. Qed.

(* ---- C97: no git, and failures at import ---- *)

(* the nearest of three directories named pyrichlet-X gives X *)
Theorem c97_fallback : forall sy comps,
  installed sy (path comps) -> Forall component comps -> no_git sy (path comps) ->
  (exists t, nearest (rev comps) t /\
     get_versions raw_keywords sy = VOk (Version t None (Some false) None None)) \/
  ((forall t, ~ nearest (rev comps) t) /\
   get_versions raw_keywords sy =
   VOk (Version (T "0+unknown") None None (Some (T "unable to compute version")) None)).
Proof. exact fallback. Qed.
Print Assumptions c97_fallback.

(* every way in which computing the version can raise *)
Theorem c97_import_fails_only : forall sy root e,
  installed sy root -> get_versions raw_keywords sy = VErr e ->
  succeeds sy root cmd_dir /\ succeeds sy root (cmd_describe sy) /\
  succeeds sy root cmd_head /\ succeeds sy root cmd_branch /\
  ((e = XAttribute /\ ~ succeeds sy root cmd_show) \/
   (e = XIndex /\ exists out, outcome sy root cmd_show = PRan out 0 /\ Forall white out) \/
   (e = XType /\ ~ succeeds sy root cmd_count) \/
   (e = XValue /\ succeeds sy root cmd_count /\
    ~ exists ds, number ds /\ shows sy root cmd_count ds)).
Proof. exact import_fails. Qed.
Print Assumptions c97_import_fails_only.

(* so "any failing git command falls back" is false: git show, *)
Theorem c97_failing_show_raises : forall sy root tag num hex dirty full,
  installed sy root ->
  tag <> [] -> one_line tag -> numeral num -> hex_text hex ->
  succeeds sy root cmd_dir ->
  shows sy root (cmd_describe sy) (described tag num hex dirty) ->
  shows sy root cmd_head full -> branch_known sy root ->
  ~ succeeds sy root cmd_show -> get_versions raw_keywords sy = VErr XAttribute.
Proof. exact failing_show. Qed.
Print Assumptions c97_failing_show_raises.

(* and git rev-list --count without tags *)
Theorem c97_failing_count_raises : forall sy root h (dirty : bool) full,
  installed sy root -> hex_text h ->
  succeeds sy root cmd_dir ->
  shows sy root (cmd_describe sy) (h ++ T (if dirty then "-dirty" else "")) ->
  shows sy root cmd_head full -> branch_known sy root ->
  ~ succeeds sy root cmd_count -> get_versions raw_keywords sy = VErr XType.
Proof. exact failing_count. Qed.
Print Assumptions c97_failing_count_raises.

(* git show that prints nothing, *)
Theorem c97_blank_show_raises : forall sy root tag num hex dirty full,
  installed sy root ->
  tag <> [] -> one_line tag -> numeral num -> hex_text hex ->
  succeeds sy root cmd_dir ->
  shows sy root (cmd_describe sy) (described tag num hex dirty) ->
  shows sy root cmd_head full -> branch_known sy root ->
  (exists out, outcome sy root cmd_show = PRan out 0 /\ Forall white out) ->
  get_versions raw_keywords sy = VErr XIndex.
Proof. exact blank_show. Qed.
Print Assumptions c97_blank_show_raises.

(* a count that is no number *)
Theorem c97_bad_count_raises : forall sy root h (dirty : bool) full,
  installed sy root -> hex_text h ->
  succeeds sy root cmd_dir ->
  shows sy root (cmd_describe sy) (h ++ T (if dirty then "-dirty" else "")) ->
  shows sy root cmd_head full -> branch_known sy root ->
  (exists out, shows sy root cmd_count out /\ out <> [] /\
     Forall (fun c => ~ digit c) out) ->
  get_versions raw_keywords sy = VErr XValue.
Proof. exact bad_count. Qed.
Print Assumptions c97_bad_count_raises.

(* no __file__ (frozen programs) *)
Theorem c97_no_file : forall sy, sy_file sy = None ->
  get_versions raw_keywords sy =
  VOk (Version (T "0+unknown") None None
         (Some (T "unable to find root of source tree")) None).
Proof. exact no_file. Qed.
Print Assumptions c97_no_file.

Example c97_ex :
  package_version raw_keywords sys_none = VOk (T "1.2") /\
  package_version raw_keywords sys_far = VOk (T "0+unknown") /\
  no_git sys_none (path [T "tmp"; T "pyrichlet-1.2"; T "build"; T "lib"]) /\
  nearest (rev [T "tmp"; T "pyrichlet-1.2"; T "build"; T "lib"]) (T "1.2").
Proof.
  split; [vm_compute; reflexivity|]. split; [vm_compute; reflexivity|].
  split; [left; intros [out X]; discriminate X|].
  exists [T "lib"; T "build"], (T "pyrichlet-1.2"), [T "tmp"].
  split; [reflexivity|]. split; [cbn; lia|]. split; [reflexivity|].
  intros d u [<- | [<- | []]] X; discriminate X.
Qed.
Example c97_ex_raise :
  get_versions raw_keywords sys_no_show = VErr XAttribute /\
  get_versions raw_keywords sys_blank_show = VErr XIndex /\
  get_versions raw_keywords sys_no_count = VErr XType /\
  get_versions raw_keywords sys_bad_count = VErr XValue.
Proof. repeat split; vm_compute; reflexivity. Qed.

(* ---- C98: PEP 440 ---- *)

(* the configured style: a PEP 440 tag gives a PEP 440 version with the same
   public part *)
Theorem c98_default : forall p q d, tagged p q d ->
  exists q', render_style (T "pep440") p = VOk (spell q') /\ parts_ok q' /\
   pub q' = pub q /\
   (d = 0%Z /\ p_dirty p = false /\ q' = q \/
     (d <> 0%Z \/ p_dirty p = true) /\
    exists n, numeral n /\ value n = d /\
      q_local q' = Some (label q ++ [n; T "g" ++ p_short p]
                          ++ (if p_dirty p then [T "dirty"] else []))).
Proof. exact default_shape. Qed.
Print Assumptions c98_default.

(* pep440-pre: the next post release, as a development version *)
Theorem c98_pre : forall p q d, tagged p q d -> q_local q = None -> q_dev q = None ->
  exists q', render_style (T "pep440-pre") p = VOk (spell q') /\ parts_ok q' /\
   (d = 0%Z /\ q' = q \/
     d <> 0%Z /\
    exists n m, number n /\ number m /\ value n = d /\
      value m = match q_post q with None => 0%Z | Some k => (value k + 1)%Z end /\
      q' = Parts (q_epoch q) (q_release q) (q_pre q) (Some m) (Some n) None).
Proof. exact pre_shape. Qed.
Print Assumptions c98_pre.

Theorem c98_branch : forall p q d, tagged p q d -> (q_local q <> None \/ q_dev q = None) ->
  exists v, render_style (T "pep440-branch") p = VOk v /\ pep440 v.
Proof. exact branch_style. Qed.
Print Assumptions c98_branch.

Theorem c98_post : forall p q d, tagged p q d ->
  (q_local q <> None \/ (q_post q = None /\ q_dev q = None)) ->
  (exists v, render_style (T "pep440-post") p = VOk v /\ pep440 v) /\
  (exists v, render_style (T "pep440-post-branch") p = VOk v /\ pep440 v) /\
  (exists v, render_style (T "pep440-old") p = VOk v /\ pep440 v).
Proof. exact post_styles. Qed.
Print Assumptions c98_post.

(* exactly on a clean tag every style gives the tag *)
Theorem c98_unchanged : forall p q d s,
  tagged p q d -> d = 0%Z -> p_dirty p = false -> In s six_styles ->
  render_style s p = VOk (spell q).
Proof. exact unchanged. Qed.
Print Assumptions c98_unchanged.

(* elsewhere, part by part *)
Theorem c98_exact : forall p q d off dd l0 l1,
  tagged p q d -> q_local q = None -> q_dev q = None ->
  (d <> 0%Z \/ p_dirty p = true) ->
  dev_off p off -> dev_dirty p dd -> marks p [] l0 ->
  exists n, numeral n /\ value n = d /\
    (marks p [n] l1 ->
     render_style (T "pep440-branch") p =
     VOk (spell (Parts (q_epoch q) (q_release q) (q_pre q) (q_post q) off (Some l1)))) /\
    (q_post q = None ->
     render_style (T "pep440-post") p =
     VOk (spell (Parts (q_epoch q) (q_release q) (q_pre q) (Some n) dd
                       (Some [T "g" ++ p_short p]))) /\
     render_style (T "pep440-post-branch") p =
     VOk (spell (Parts (q_epoch q) (q_release q) (q_pre q) (Some n) off (Some l0))) /\
     render_style (T "pep440-old") p =
     VOk (spell (Parts (q_epoch q) (q_release q) (q_pre q) (Some n) dd None))).
Proof. exact changed_styles. Qed.
Print Assumptions c98_exact.

Theorem c98_untagged_exact : forall p d off dd l0 l1,
  bare_pieces p d -> dev_off p off -> dev_dirty p dd -> marks p [] l0 ->
  exists n, numeral n /\ value n = d /\
    (marks p [T "untagged"; n] l1 ->
     render_style (T "pep440") p = VOk (spell (Parts None [T "0"] None None None (Some l1))) /\
     render_style (T "pep440-branch") p =
     VOk (spell (Parts None [T "0"] None None off (Some l1)))) /\
    render_style (T "pep440-pre") p =
    VOk (spell (Parts None [T "0"] None (Some (T "0")) (Some n) None)) /\
    render_style (T "pep440-post") p =
    VOk (spell (Parts None [T "0"] None (Some n) dd (Some [T "g" ++ p_short p]))) /\
    render_style (T "pep440-post-branch") p =
    VOk (spell (Parts None [T "0"] None (Some n) off (Some l0))) /\
    render_style (T "pep440-old") p =
    VOk (spell (Parts None [T "0"] None (Some n) dd None)).
Proof. exact zero_styles. Qed.
Print Assumptions c98_untagged_exact.

Theorem c98_untagged : forall p d s, bare_pieces p d ->
  In s (map T ["pep440"; "pep440-branch"; "pep440-pre"; "pep440-post";
               "pep440-post-branch"; "pep440-old"]%string) ->
  exists v, render_style s p = VOk v /\ pep440 v.
Proof. exact untagged_styles. Qed.
Print Assumptions c98_untagged.

(* post and development tags break the other styles *)
Theorem c98_post_of_post_refuted : exists p q d v,
  tagged p q d /\ render_style (T "pep440-post") p = VOk v /\ ~ pep440 v.
Proof. exact post_twice. Qed.
Print Assumptions c98_post_of_post_refuted.

Theorem c98_dev_of_dev_refuted : exists p q d, tagged p q d /\
  (exists v, render_style (T "pep440-branch") p = VOk v /\ ~ pep440 v) /\
  (exists v, render_style (T "pep440-pre") p = VOk v /\ ~ pep440 v).
Proof. exact dev_twice. Qed.
Print Assumptions c98_dev_of_dev_refuted.

Theorem c98_pre_raises_refuted : exists p q d,
  tagged p q d /\ render_style (T "pep440-pre") p = VErr XValue.
Proof. exact pre_fails. Qed.
Print Assumptions c98_pre_raises_refuted.

Example c98_ex : tagged (pcs (Some (T "1")) None) (q_of (Some (T "1")) None) 3 /\
  spell (q_of (Some (T "1")) None) = T "1.0.post1" /\
  render_style (T "pep440") (pcs (Some (T "1")) None) = VOk (T "1.0.post1+3.g0123456") /\
  render_style (T "pep440-pre") (pcs (Some (T "1")) None) = VOk (T "1.0.post2.dev3") /\
  render_style (T "pep440-post") (pcs None None) = VOk (T "1.0.post3+g0123456").
Proof.
  split; [apply pcs_ok; [apply digits_b; reflexivity|exact I]|].
  repeat split; vm_compute; reflexivity.
Qed.
Example c98_ex_exact :
  dev_off (pcs None None) None /\ dev_dirty (pcs None None) None /\
  dev_off (on_branch (T "topic") (pcs None None)) (Some (T "0")) /\
  marks (pcs None None) [T "3"] [T "3"; T "g0123456"] /\
  render_style (T "pep440-branch") (on_branch (T "topic") (pcs None None))
  = VOk (T "1.0.dev0+3.g0123456").
Proof.
  split; [left; split; reflexivity|]. split; [left; split; reflexivity|].
  split; [right; split; [discriminate|reflexivity]|]. split; [reflexivity|].
  vm_compute. reflexivity.
Qed.
Example c98_ex_untagged : bare_pieces
  (Pieces (T full_id) (T "0123456") None None true (Some None) (Some 42%Z) None) 42.
Proof.
  split; [reflexivity|]. split; [reflexivity|]. split; [lia|]. apply hex_b; reflexivity.
Qed.
