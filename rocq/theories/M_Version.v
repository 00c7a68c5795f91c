(** Model of pyrichlet/_version.py: how [pyrichlet.__version__] is computed
    when the package is imported (pyrichlet/__init__.py:5).

    Simplifications.  Text is a list of 8-bit characters and only the ASCII
    meaning of "white space", "digit" and "line end" is modelled (Python also
    accepts the Unicode ones, and decoding git's output can fail on bytes that
    are not UTF-8).  The operating system is a record: what [Popen] does for a
    working directory, a command and its arguments, and the real path of the
    file.  What is printed when [verbose] is set is left out: get_config
    (_version.py:38-49) sets it to False. *)
From Coq Require Import List ZArith Ascii String Bool.
From Coq Require Import DecimalString.
Import ListNotations.
Open Scope list_scope.

Definition text := list ascii.

(** A Python string literal. *)
Definition T (s : string) : text := list_ascii_of_string s.

(* ------------------------------------------------------------------ *)
(** * The string methods used by _version.py *)

(** [code c]: the code point, as compared by [sorted] (_version.py:199). *)
Definition code (c : ascii) : N := N_of_ascii c.

Definition ch (s : string) : ascii := hd zero (T s).

Definition LF : ascii := ascii_of_nat 10.
Definition CR : ascii := ascii_of_nat 13.

(** [str.strip()] removes these (_version.py:175, 176, 181, 211, 253, ...). *)
Definition is_space (c : ascii) : bool :=
  ((9 <=? code c) && (code c <=? 13) || (28 <=? code c) && (code c <=? 32))%N.

(** [bytes.strip()] removes these (_version.py:97). *)
Definition is_bspace (c : ascii) : bool :=
  ((9 <=? code c) && (code c <=? 13) || (code c =? 32))%N.

(** The class \d of the patterns at _version.py:194, 206 and 311. *)
Definition is_digit (c : ascii) : bool :=
  ((48 <=? code c) && (code c <=? 57))%N.

(** The class [0-9a-f] of the pattern at _version.py:311. *)
Definition is_hex (c : ascii) : bool :=
  is_digit c || ((97 <=? code c) && (code c <=? 102))%N.

(** Where [str.splitlines] cuts (_version.py:167, 345). *)
Definition is_break (c : ascii) : bool :=
  ((10 <=? code c) && (code c <=? 13) || (28 <=? code c) && (code c <=? 30))%N.

(** [strip] with a set of characters (_version.py:97, 175, 181, ...), from the
    left, from the right and from both ends. *)
Fixpoint lstrip_by (p : ascii -> bool) (s : text) : text :=
  match s with
  | c :: r => if p c then lstrip_by p r else s
  | [] => []
  end.

Definition rstrip_by (p : ascii -> bool) (s : text) : text :=
  rev (lstrip_by p (rev s)).

Definition strip_by (p : ascii -> bool) (s : text) : text :=
  rstrip_by p (lstrip_by p s).

Definition strip (s : text) : text := strip_by is_space s.

(** [s.startswith(p)] (_version.py:117, 177, 185, 201, 320). *)
Fixpoint startswith (s p : text) : bool :=
  match p, s with
  | [], _ => true
  | a :: p', b :: s' => Ascii.eqb a b && startswith s' p'
  | _ :: _, [] => false
  end.

(** [s.endswith(p)] (_version.py:302). *)
Definition endswith (s p : text) : bool := startswith (rev s) (rev p).

(** [c in s] for one character (_version.py:282, 309, 353). *)
Definition has (c : ascii) (s : text) : bool := existsb (Ascii.eqb c) s.

(** [a == b] (_version.py:271, 287, 580-594). *)
Fixpoint teqb (a b : text) : bool :=
  match a, b with
  | [], [] => true
  | x :: a', y :: b' => Ascii.eqb x y && teqb a' b'
  | _, _ => false
  end.

(** [a < b] on Python strings, as [sorted] uses it. *)
Fixpoint tlt (a b : text) : bool :=
  match a, b with
  | [], [] => false
  | [], _ :: _ => true
  | _ :: _, [] => false
  | x :: a', y :: b' =>
      if (code x <? code y)%N then true
      else if (code y <? code x)%N then false else tlt a' b'
  end.

(** [s.split(c)] for one character [c] (_version.py:181, 279, 622). *)
Fixpoint split_on (c : ascii) (s : text) : list text :=
  match s with
  | [] => [[]]
  | x :: r =>
      if Ascii.eqb x c then [] :: split_on c r
      else match split_on c r with
           | h :: t => (x :: h) :: t
           | [] => [[x]]
           end
  end.

(** [s.split(sep)] for a longer separator (_version.py:419): scan from the left; [skip] counts
    the characters of a separator still to be passed over. *)
Fixpoint split_at (sep s : text) (skip : nat) (cur : text) : list text :=
  match s with
  | [] => [rev cur]
  | c :: r =>
      match skip with
      | S k => split_at sep r k cur
      | O => if startswith s sep
             then rev cur :: split_at sep r (List.length sep - 1) []
             else split_at sep r 0 (c :: cur)
      end
  end.

(** [s.splitlines()]: [cr] says that the last character was a carriage
    return, so a following line feed belongs to the same line end; [cur] is
    the current line (reversed) if one has begun. *)
Fixpoint lines_from (s : text) (cr : bool) (cur : option text) : list text :=
  match s with
  | [] => match cur with Some l => [rev l] | None => [] end
  | c :: r =>
      if is_break c then
        if cr && Ascii.eqb c LF then lines_from r false None
        else (match cur with Some l => rev l | None => [] end)
             :: lines_from r (Ascii.eqb c CR) None
      else lines_from r false
             (Some (c :: match cur with Some l => l | None => [] end))
  end.

Definition splitlines (s : text) : list text := lines_from s false None.

(** [s.replace(c, by, 1)] (_version.py:175, 346): the first occurrence only. *)
Fixpoint replace1 (c : ascii) (by_ : text) (s : text) : text :=
  match s with
  | [] => []
  | x :: r => if Ascii.eqb x c then by_ ++ r else x :: replace1 c by_ r
  end.

(** ["%d" % n] (_version.py:372, 376, ...). *)
Definition dec (n : Z) : text :=
  match n with
  | Zneg p => ch "-" :: T (NilZero.string_of_uint (N.to_uint (Npos p)))
  | _ => T (NilZero.string_of_uint (N.to_uint (Z.to_N n)))
  end.

(** The value of a string of digits. *)
Definition num (s : text) : N :=
  fold_left (fun a c => (10 * a + (code c - 48))%N) s 0%N.

(** Digits with single underscores between them, as [int] accepts them. *)
Fixpoint digits_ok (s : text) (prev : bool) : bool :=
  match s with
  | [] => prev
  | c :: r => if is_digit c then digits_ok r true
              else Ascii.eqb c (ch "_") && prev && digits_ok r false
  end.

(** [int(s)] (_version.py:330, 339, 420): [None] is a ValueError. *)
Definition py_int (s : text) : option Z :=
  let t := strip s in
  let '(neg, u) :=
    match t with
    | c :: r => if Ascii.eqb c (ch "-") then (true, r)
                else if Ascii.eqb c (ch "+") then (false, r) else (false, t)
    | [] => (false, t)
    end in
  if digits_ok u false
  then let n := Z.of_N (num (filter is_digit u)) in
       Some (if neg then (- n)%Z else n)
  else None.

(** posixpath.basename and posixpath.dirname (_version.py:116, 122, 623). *)
Fixpoint upto_slash (s : text) : text * text :=
  match s with
  | [] => ([], [])
  | c :: r => if Ascii.eqb c (ch "/") then ([], s)
              else let '(a, b) := upto_slash r in (c :: a, b)
  end.

Definition basename (p : text) : text := rev (fst (upto_slash (rev p))).

Definition dirname (p : text) : text :=
  let head := snd (upto_slash (rev p)) in
  if forallb (fun c => Ascii.eqb c (ch "/")) head then rev head
  else rev (lstrip_by (fun c => Ascii.eqb c (ch "/")) head).

(* ------------------------------------------------------------------ *)
(** * Results *)

(** The exceptions; [NotThisMethod] is _version.py:52-53. *)
Inductive vexn :=
| NotThisMethod | XAttribute | XType | XValue | XIndex | XKey.

Inductive vres (A : Type) :=
| VOk (a : A)
| VErr (e : vexn).
Arguments VOk {A} a.
Arguments VErr {A} e.

Definition vbind {A B} (x : vres A) (f : A -> vres B) : vres B :=
  match x with VOk a => f a | VErr e => VErr e end.

Notation "'let!' x ':=' e 'in' f" := (vbind e (fun x => f))
  (at level 200, x name, e at level 100, f at level 200).

Definition need {A} (e : vexn) (x : option A) : vres A :=
  match x with Some a => VOk a | None => VErr e end.

(** The dictionary that get_versions returns. *)
Record version := Version {
  v_version : text;
  v_full : option text;
  v_dirty : option bool;
  v_error : option text;
  v_date : option text
}.

(** The dictionary passed between git_pieces_from_vcs and the renderers
    (_version.py:259-348).  [None] for [p_tag] and [p_dist] means that the key
    is absent, which happens on the two early returns. *)
Record pieces := Pieces {
  p_long : text;
  p_short : text;
  p_error : option text;
  p_branch : option text;
  p_dirty : bool;
  p_tag : option (option text);
  p_dist : option Z;
  p_date : option text
}.

(** The git_* keywords (_version.py:21-31); [None]: the key is absent. *)
Record keywords := Keywords {
  k_refnames : option text;
  k_full : option text;
  k_date : option text
}.

(** get_keywords (_version.py:21-31) as the file stands in the repository. *)
Definition raw_keywords : keywords :=
  Keywords (Some (T "$Format:%d$")) (Some (T "$Format:%H$"))
           (Some (T "$Format:%ci$")).

(** get_config (_version.py:38-49). *)
Definition cfg_style : text := T "pep440".
Definition cfg_tag_prefix : text := T "".
Definition cfg_parentdir_prefix : text := T "pyrichlet-".
Definition cfg_versionfile_source : text := T "pyrichlet/_version.py".

(* ------------------------------------------------------------------ *)
(** * Running git *)

(** What [subprocess.Popen] does with one command (_version.py:76-97): the
    program is missing, it cannot be started, or it ends with an output and a
    return code. *)
Inductive popen :=
| PMissing
| PFailed
| PRan (out : text) (rc : Z).

Record system := System {
  sy_win : bool;                                  (* sys.platform == "win32" *)
  sy_popen : text -> text -> list text -> popen;  (* cwd, command, arguments *)
  sy_file : option text                           (* realpath(__file__) *)
}.

(** run_command, _version.py:71-103. *)
Fixpoint run_command (S0 : system) (cmds : list text) (args : list text)
         (cwd : text) : option text * option Z :=
  match cmds with
  | [] => (None, None)
  | c :: more =>
      match sy_popen S0 cwd c args with
      | PMissing => run_command S0 more args cwd
      | PFailed => (None, None)
      | PRan out rc =>
          if (rc =? 0)%Z then (Some (strip_by is_bspace out), Some rc)
          else (None, Some rc)
      end
  end.

(** [GITS], _version.py:230-234. *)
Definition gits (S0 : system) : list text :=
  if sy_win S0 then [T "git.cmd"; T "git.exe"] else [T "git"].

Definition git (S0 : system) (root : text) (args : list string)
  : option text * option Z :=
  run_command S0 (gits S0) (map T args) root.

(** [TAG_PREFIX_REGEX], _version.py:231 and 234. *)
Definition tag_glob (S0 : system) : text :=
  if sy_win S0 then T "\*" else T "*".

(** [rc != 0] where the return code may be None. *)
Definition rc_bad (rc : option Z) : bool :=
  match rc with Some z => negb (z =? 0)%Z | None => true end.

(* ------------------------------------------------------------------ *)
(** * Reading the output of git describe *)

Fixpoint span (p : ascii -> bool) (s : text) : text * text :=
  match s with
  | c :: r => if p c then let '(a, b) := span p r in (c :: a, b) else ([], s)
  | [] => ([], [])
  end.

(** [$] also matches before one line feed at the very end. *)
Definition chop (s : text) : text :=
  match rev s with
  | c :: r => if Ascii.eqb c LF then rev r else s
  | [] => s
  end.

(** [re.search(r'^(.+)-(\d+)-g([0-9a-f]+)$', s)], _version.py:311, read from
    the right: neither the hexadecimal digits nor the decimal ones can contain
    the character before them, so the match is unique. *)
Definition describe_match (s : text) : option (text * text * text) :=
  let '(hex, r1) := span is_hex (rev (chop s)) in
  match hex, r1 with
  | _ :: _, g :: d1 :: r2 =>
      if Ascii.eqb g (ch "g") && Ascii.eqb d1 (ch "-") then
        let '(dig, r3) := span is_digit r2 in
        match dig, r3 with
        | _ :: _, d2 :: tag =>
            if Ascii.eqb d2 (ch "-") && negb (has LF tag) then
              match tag with
              | _ :: _ => Some (rev tag, rev dig, rev hex)
              | [] => None
              end
            else None
        | _, _ => None
        end
      else None
  | _, _ => None
  end.

(** The commit date, _version.py:342-346 and 163-175: the last line, with the
    first space turned into a T and the next one removed. *)
Definition fix_date (d : text) : vres text :=
  match rev (splitlines d) with
  | [] => VErr XIndex
  | l :: _ =>
      VOk (replace1 (ch " ") [] (replace1 (ch " ") (T "T") (strip l)))
  end.

(** The branch name for a detached HEAD, _version.py:271-293. *)
Definition detached_branch (out : text) : option text :=
  let bs := split_on LF out in
  let bs := match bs with
            | b :: r => if has (ch "(") b then r else bs
            | [] => []
            end in
  let bs := map (skipn 2) bs in
  if existsb (teqb (T "master")) bs then Some (T "master")
  else match bs with
       | [] => None
       | b :: _ => Some b
       end.

(** git_pieces_from_vcs, _version.py:222-348. *)
Definition git_pieces_from_vcs (S0 : system) (tag_prefix root : text)
  : vres pieces :=
  let '(_, rc) := git S0 root ["rev-parse"; "--git-dir"]%string in
  if rc_bad rc then VErr NotThisMethod
  else
    let '(out, _) :=
      run_command S0 (gits S0)
        (map T ["describe"; "--tags"; "--dirty"; "--always"; "--long";
                "--match"]%string ++ [tag_prefix ++ tag_glob S0]) root in
    let! out := need NotThisMethod out in
    let desc := strip out in
    let '(full, _) := git S0 root ["rev-parse"; "HEAD"]%string in
    let! full := need NotThisMethod full in
    let full := strip full in
    let '(br, rc) := git S0 root ["rev-parse"; "--abbrev-ref"; "HEAD"]%string in
    let! br := need NotThisMethod (if rc_bad rc then None else br) in
    let br := strip br in
    let! branch :=
      (if teqb br (T "HEAD") then
         let '(bs, rc) := git S0 root ["branch"; "--contains"]%string in
         let! bs := need NotThisMethod (if rc_bad rc then None else bs) in
         VOk (detached_branch bs)
       else VOk (Some br)) in
    let dirty := endswith desc (T "-dirty") in
    let body := if dirty then firstn (List.length desc - 6) desc else desc in
    let failed e :=
      VOk (Pieces full (firstn 7 full) (Some e) branch dirty None None None) in
    let finish short tag dist :=
      let '(d, _) := git S0 root ["show"; "-s"; "--format=%ci"; "HEAD"]%string in
      let! d := need XAttribute d in
      let! d := fix_date (strip d) in
      VOk (Pieces full short None branch dirty (Some tag) (Some dist)
                  (Some d)) in
    if has (ch "-") body then
      match describe_match body with
      | None =>
          failed (T "unable to parse git-describe output: '" ++ desc ++ T "'")
      | Some (tag, dig, hex) =>
          if negb (startswith tag tag_prefix) then
            failed (T "tag '" ++ tag ++ T "' doesn't start with prefix '"
                      ++ tag_prefix ++ T "'")
          else
            finish hex (Some (skipn (List.length tag_prefix) tag))
                   (Z.of_N (num dig))
      end
    else
      let '(cnt, _) := git S0 root ["rev-list"; "HEAD"; "--count"]%string in
      let! cnt := need XType cnt in
      let! dist := need XValue (py_int cnt) in
      finish (firstn 7 full) None dist.

(* ------------------------------------------------------------------ *)
(** * Rendering *)

(** Truth of a string or None. *)
Definition truthy (s : option text) : bool :=
  match s with Some (_ :: _) => true | _ => false end.

(** plus_or_dot, _version.py:351-355. *)
Definition plus_or_dot (p : pieces) : vres text :=
  match p_tag p with
  | None => VOk (T "+")
  | Some None => VErr XType
  | Some (Some t) => VOk (if has (ch "+") t then T "." else T "+")
  end.

Definition if_dirty (p : pieces) (s : string) : text :=
  if p_dirty p then T s else [].

(** [pieces["branch"] != "master"]. *)
Definition off_master (p : pieces) : bool :=
  match p_branch p with
  | Some b => negb (teqb b (T "master"))
  | None => true
  end.

Definition if_off (p : pieces) (s : string) : text :=
  if off_master p then T s else [].

(** [pieces["closest-tag"]] and [pieces["distance"]], as every renderer reads
    them. *)
Definition the_tag (p : pieces) : vres (option text) := need XKey (p_tag p).
Definition the_dist (p : pieces) : vres Z := need XKey (p_dist p).

(** [if pieces["distance"] or pieces["dirty"]]. *)
Definition changed (p : pieces) : vres bool :=
  let! d := the_dist p in VOk (negb (d =? 0)%Z || p_dirty p).

(** The text of a tag that is not None. *)
Definition get_text (s : option text) : text :=
  match s with Some t => t | None => [] end.

(** render_pep440, _version.py:358-380. *)
Definition render_pep440 (p : pieces) : vres text :=
  let! t := the_tag p in
  if truthy t then
    let! c := changed p in
    if c : bool then
      let! pd := plus_or_dot p in
      let! d := the_dist p in
      VOk (get_text t ++ pd ++ dec d ++ T ".g" ++ p_short p
             ++ if_dirty p ".dirty")
    else VOk (get_text t)
  else
    let! d := the_dist p in
    VOk (T "0+untagged." ++ dec d ++ T ".g" ++ p_short p
           ++ if_dirty p ".dirty").

(** render_pep440_branch, _version.py:383-410. *)
Definition render_pep440_branch (p : pieces) : vres text :=
  let! t := the_tag p in
  if truthy t then
    let! c := changed p in
    if c : bool then
      let! pd := plus_or_dot p in
      let! d := the_dist p in
      VOk (get_text t ++ if_off p ".dev0" ++ pd ++ dec d ++ T ".g"
             ++ p_short p ++ if_dirty p ".dirty")
    else VOk (get_text t)
  else
    let! d := the_dist p in
    VOk (T "0" ++ if_off p ".dev0" ++ T "+untagged." ++ dec d ++ T ".g"
           ++ p_short p ++ if_dirty p ".dirty").

(** pep440_split_post, _version.py:413-420. *)
Definition pep440_split_post (v : text) : vres (text * option Z) :=
  match split_at (T ".post") v 0 [] with
  | [a; b] =>
      match b with
      | [] => VOk (a, Some 0%Z)
      | _ :: _ => let! z := need XValue (py_int b) in VOk (a, Some z)
      end
  | a :: _ => VOk (a, None)
  | [] => VErr XIndex
  end.

(** render_pep440_pre, _version.py:423-444. *)
Definition render_pep440_pre (p : pieces) : vres text :=
  let! t := the_tag p in
  let! d := the_dist p in
  if truthy t then
    if negb (d =? 0)%Z then
      let! ap := pep440_split_post (get_text t) in
      let '(a, post) := ap in
      match post with
      | Some n => VOk (a ++ T ".post" ++ dec (n + 1) ++ T ".dev" ++ dec d)
      | None => VOk (a ++ T ".post0.dev" ++ dec d)
      end
    else VOk (get_text t)
  else VOk (T "0.post0.dev" ++ dec d).

(** render_pep440_post, _version.py:447-471. *)
Definition render_pep440_post (p : pieces) : vres text :=
  let! t := the_tag p in
  if truthy t then
    let! c := changed p in
    if c : bool then
      let! d := the_dist p in
      let! pd := plus_or_dot p in
      VOk (get_text t ++ T ".post" ++ dec d ++ if_dirty p ".dev0" ++ pd
             ++ T "g" ++ p_short p)
    else VOk (get_text t)
  else
    let! d := the_dist p in
    VOk (T "0.post" ++ dec d ++ if_dirty p ".dev0" ++ T "+g" ++ p_short p).

(** render_pep440_post_branch, _version.py:474-500. *)
Definition render_pep440_post_branch (p : pieces) : vres text :=
  let! t := the_tag p in
  if truthy t then
    let! c := changed p in
    if c : bool then
      let! d := the_dist p in
      let! pd := plus_or_dot p in
      VOk (get_text t ++ T ".post" ++ dec d ++ if_off p ".dev0" ++ pd
             ++ T "g" ++ p_short p ++ if_dirty p ".dirty")
    else VOk (get_text t)
  else
    let! d := the_dist p in
    VOk (T "0.post" ++ dec d ++ if_off p ".dev0" ++ T "+g" ++ p_short p
           ++ if_dirty p ".dirty").

(** render_pep440_old, _version.py:503-522. *)
Definition render_pep440_old (p : pieces) : vres text :=
  let! t := the_tag p in
  if truthy t then
    let! c := changed p in
    if c : bool then
      let! d := the_dist p in
      VOk (get_text t ++ T ".post" ++ dec d ++ if_dirty p ".dev0")
    else VOk (get_text t)
  else
    let! d := the_dist p in
    VOk (T "0.post" ++ dec d ++ if_dirty p ".dev0").

(** render_git_describe, _version.py:525-542. *)
Definition render_git_describe (p : pieces) : vres text :=
  let! t := the_tag p in
  if truthy t then
    let! d := the_dist p in
    VOk (get_text t
           ++ (if negb (d =? 0)%Z then T "-" ++ dec d ++ T "-g" ++ p_short p
               else [])
           ++ if_dirty p "-dirty")
  else VOk (p_short p ++ if_dirty p "-dirty").

(** render_git_describe_long, _version.py:545-562. *)
Definition render_git_describe_long (p : pieces) : vres text :=
  let! t := the_tag p in
  if truthy t then
    let! d := the_dist p in
    VOk (get_text t ++ T "-" ++ dec d ++ T "-g" ++ p_short p
           ++ if_dirty p "-dirty")
  else VOk (p_short p ++ if_dirty p "-dirty").

(** The choice at _version.py:577-594. *)
Definition render_style (style : text) (p : pieces) : vres text :=
  if teqb style (T "pep440") then render_pep440 p
  else if teqb style (T "pep440-branch") then render_pep440_branch p
  else if teqb style (T "pep440-pre") then render_pep440_pre p
  else if teqb style (T "pep440-post") then render_pep440_post p
  else if teqb style (T "pep440-post-branch") then render_pep440_post_branch p
  else if teqb style (T "pep440-old") then render_pep440_old p
  else if teqb style (T "git-describe") then render_git_describe p
  else if teqb style (T "git-describe-long") then render_git_describe_long p
  else VErr XValue.

(** render, _version.py:565-598. *)
Definition render (p : pieces) (style : option text) : vres version :=
  if truthy (p_error p) then
    VOk (Version (T "unknown") (Some (p_long p)) None (p_error p) None)
  else
    let style :=
      match style with
      | Some (c :: r) =>
          if teqb (c :: r) (T "default") then T "pep440" else c :: r
      | _ => T "pep440"
      end in
    let! r := render_style style p in
    VOk (Version r (Some (p_long p)) (Some (p_dirty p)) None (p_date p)).

(* ------------------------------------------------------------------ *)
(** * The other two methods *)

(** The longest start of [s] that is followed by the character [q]: what the
    greedy [(.* )] matches before the last [q] on the line. *)
Fixpoint before_last (q : ascii) (s : text) : option text :=
  match s with
  | [] => None
  | c :: r =>
      if Ascii.eqb c LF then None
      else match before_last q r with
           | Some t => Some (c :: t)
           | None => if Ascii.eqb c q then Some [] else None
           end
  end.

(** [re.search] for an equals sign, white space and a quoted text
    (_version.py:142, 146, 150): the quoted text. *)
Fixpoint quoted (s : text) : option text :=
  match s with
  | [] => None
  | c :: r =>
      let here :=
        if Ascii.eqb c (ch "=") then
          match lstrip_by is_space r with
          | q :: t => if Ascii.eqb q (ascii_of_nat 34)
                      then before_last (ascii_of_nat 34) t else None
          | [] => None
          end
        else None in
      match here with Some t => Some t | None => quoted r end
  end.

(** One line of git_get_keywords (_version.py:141-152). *)
Definition keyword_line (k : keywords) (line : text) : keywords :=
  let upd name (old : option text) :=
    if startswith (strip line) (T name)
    then match quoted line with Some t => Some t | None => old end
    else old in
  Keywords (upd "git_refnames ="%string (k_refnames k))
           (upd "git_full ="%string (k_full k))
           (upd "git_date ="%string (k_date k)).

(** git_get_keywords (_version.py:130-155); [None]: the file cannot be
    opened.  The file is given by its lines. *)
Definition git_get_keywords (lines : option (list text)) : keywords :=
  match lines with
  | None => Keywords None None None
  | Some ls => fold_left keyword_line ls (Keywords None None None)
  end.

(** Insertion into a sorted list without repetitions: [sorted] of a set
    (_version.py:199). *)
Fixpoint insert (x : text) (l : list text) : list text :=
  match l with
  | [] => [x]
  | y :: r => if tlt x y then x :: l
              else if tlt y x then y :: insert x r else l
  end.

Definition sorted_set (l : list text) : list text := fold_right insert [] l.

(** The refs in parentheses, _version.py:181. *)
Definition refs_of (refnames : text) : list text :=
  map strip
    (split_on (ch ",")
       (strip_by (fun c => Ascii.eqb c (ch "(") || Ascii.eqb c (ch ")"))
                 refnames)).

(** The tags among the refs, _version.py:184-196. *)
Definition tags_of (refs : list text) : list text :=
  let tags := map (skipn 5)
                  (filter (fun r => startswith r (T "tag: ")) refs) in
  match tags with
  | [] => filter (existsb is_digit) refs
  | _ :: _ => tags
  end.

(** The loop at _version.py:199-213. *)
Fixpoint pick (tag_prefix : text) (l : list text) : option text :=
  match l with
  | [] => None
  | ref :: more =>
      if startswith ref tag_prefix then
        let r := skipn (List.length tag_prefix) ref in
        match r with
        | c :: _ => if is_digit c then Some r else pick tag_prefix more
        | [] => pick tag_prefix more
        end
      else pick tag_prefix more
  end.

(** git_versions_from_keywords, _version.py:158-219. *)
Definition git_versions_from_keywords (k : keywords) (tag_prefix : text)
  : vres version :=
  let! refs := need NotThisMethod (k_refnames k) in
  let! date := match k_date k with
               | None => VOk None
               | Some d => let! d := fix_date d in VOk (Some d)
               end in
  let refnames := strip refs in
  if startswith refnames (T "$Format") then VErr NotThisMethod
  else
    let chosen := pick tag_prefix (sorted_set (tags_of (refs_of refnames))) in
    let! full := need XKey (k_full k) in
    match chosen with
    | Some r => VOk (Version r (Some (strip full)) (Some false) None date)
    | None => VOk (Version (T "0+unknown") (Some (strip full)) (Some false)
                           (Some (T "no suitable tags")) None)
    end.

(** versions_from_parentdir, _version.py:106-127; [n] directories are tried. *)
Fixpoint parentdir (n : nat) (prefix root : text) : vres version :=
  match n with
  | O => VErr NotThisMethod
  | S m =>
      let d := basename root in
      if startswith d prefix then
        VOk (Version (skipn (List.length prefix) d) None (Some false) None None)
      else parentdir m prefix (dirname root)
  end.

Definition versions_from_parentdir (prefix root : text) : vres version :=
  parentdir 3 prefix root.

(** [for _ in cfg.versionfile_source.split('/')], _version.py:622-623. *)
Definition root_of (file : text) : text :=
  fold_left (fun r _ => dirname r)
            (split_on (ch "/") cfg_versionfile_source) file.

(** The try ... except NotThisMethod blocks. *)
Definition otherwise {A} (x : vres A) (y : vres A) : vres A :=
  match x with VErr NotThisMethod => y | _ => x end.

(** get_versions, _version.py:601-644. *)
Definition get_versions (k : keywords) (S0 : system) : vres version :=
  otherwise (git_versions_from_keywords k cfg_tag_prefix)
    (match sy_file S0 with
     | None =>
         VOk (Version (T "0+unknown") None None
                (Some (T "unable to find root of source tree")) None)
     | Some f =>
         let root := root_of f in
         otherwise
           (let! p := git_pieces_from_vcs S0 cfg_tag_prefix root in
            render p (Some cfg_style))
           (otherwise (versions_from_parentdir cfg_parentdir_prefix root)
              (VOk (Version (T "0+unknown") None None
                      (Some (T "unable to compute version")) None)))
     end).

(** [pyrichlet.__version__], pyrichlet/__init__.py:5. *)
Definition package_version (k : keywords) (S0 : system) : vres text :=
  let! v := get_versions k S0 in VOk (v_version v).
