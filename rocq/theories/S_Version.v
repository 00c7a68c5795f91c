(** Specifications for C95-C98: git repositories, tags and version texts,
    without the functions of the model that read or write them. *)
From Coq Require Import List ZArith Ascii String Bool.
From Verif Require Import M_Version.
Import ListNotations.
Open Scope list_scope.

(** What the operating system does with [git args] in a directory: on Windows
    git.cmd is tried first, and git.exe if there is no git.cmd. *)
Definition outcome (sy : system) (root : text) (args : list text) : popen :=
  if sy_win sy then
    match sy_popen sy root (T "git.cmd") args with
    | PMissing => sy_popen sy root (T "git.exe") args
    | r => r
    end
  else sy_popen sy root (T "git") args.

(** The commands that are run. *)
Definition cmd_dir : list text := map T ["rev-parse"; "--git-dir"]%string.
Definition cmd_head : list text := map T ["rev-parse"; "HEAD"]%string.
Definition cmd_branch : list text :=
  map T ["rev-parse"; "--abbrev-ref"; "HEAD"]%string.
Definition cmd_contains : list text := map T ["branch"; "--contains"]%string.
Definition cmd_count : list text :=
  map T ["rev-list"; "HEAD"; "--count"]%string.
Definition cmd_show : list text :=
  map T ["show"; "-s"; "--format=%ci"; "HEAD"]%string.
Definition cmd_describe (sy : system) : list text :=
  map T ["describe"; "--tags"; "--dirty"; "--always"; "--long"; "--match";
         if sy_win sy then "\*" else "*"]%string.

(** Blank, tab, line feed, vertical tab, form feed, carriage return. *)
Definition blank (c : ascii) : Prop :=
  In c (map ascii_of_nat [9; 10; 11; 12; 13; 32]).

(** The characters that Python's [strip] removes from a text. *)
Definition white (c : ascii) : Prop :=
  In c (map ascii_of_nat [9; 10; 11; 12; 13; 28; 29; 30; 31; 32]).

(** No white space at either end. *)
Definition bare (t : text) : Prop :=
  (forall c r, t = c :: r -> ~ white c) /\
  (forall c r, t = r ++ [c] -> ~ white c).

(** The command succeeds and prints [t], possibly inside blank space. *)
Definition shows (sy : system) (root : text) (args : list text) (t : text)
  : Prop :=
  bare t /\
  exists before after,
    Forall blank before /\ Forall blank after /\
    outcome sy root args = PRan (before ++ t ++ after) 0.

Definition succeeds (sy : system) (root : text) (args : list text) : Prop :=
  exists out, outcome sy root args = PRan out 0.

Definition digit (c : ascii) : Prop := In c (T "0123456789").
Definition hex_digit (c : ascii) : Prop := In c (T "0123456789abcdef").

(** A number in decimal, without leading zeros. *)
Definition numeral (s : text) : Prop :=
  s <> [] /\ Forall digit s /\ (s = T "0" \/ hd_error s <> Some (ch "0")).

Definition hex_text (s : text) : Prop := s <> [] /\ Forall hex_digit s.

Definition one_line (s : text) : Prop := ~ In LF s.

(** The file [f] is pyrichlet/_version.py in the directory [root]. *)
Definition installed (sy : system) (root : text) : Prop :=
  root <> [] /\ (forall r, root <> r ++ T "/") /\
  sy_file sy = Some (root ++ T "/pyrichlet/_version.py").

(** TAG-NUM-gHEX[-dirty]: what git describe prints in a tagged repository. *)
Definition described (tag num hex : text) (dirty : bool) : text :=
  tag ++ T "-" ++ num ++ T "-g" ++ hex ++ T (if dirty then "-dirty" else "").

(** TAG, or TAG+NUM.gHEX[.dirty] when there are changes since the tag; a dot
    in place of the plus sign if the tag has one already. *)
Definition tagged_version (tag num hex : text) (dirty : bool) (v : text)
  : Prop :=
  (num = T "0" /\ dirty = false /\ v = tag) \/
  ((num <> T "0" \/ dirty = true) /\
   exists sep,
     (In (ch "+") tag /\ sep = T "." \/ ~ In (ch "+") tag /\ sep = T "+") /\
     v = tag ++ sep ++ num ++ T ".g" ++ hex
             ++ T (if dirty then ".dirty" else "")).

(** The branch can be found: there is one, or HEAD is detached and the list of
    branches can be read. *)
Definition branch_known (sy : system) (root : text) : Prop :=
  exists b, shows sy root cmd_branch b /\
            (b = T "HEAD" -> succeeds sy root cmd_contains).

(** YYYY-MM-DD hh:mm:ss +zzzz. *)
Definition date_parts (d1 d2 d3 : text) : Prop :=
  forall x, In x [d1; d2; d3] -> x <> [] /\ Forall (fun c => ~ white c) x.

(** Lines above another line: nothing, or text that ends with a line feed. *)
Definition above (pre : text) : Prop := pre = [] \/ exists a, pre = a ++ [LF].

(** Alphabetical order of texts. *)
Definition alpha_lt (a b : text) : Prop :=
  (exists x r, b = a ++ x :: r) \/
  (exists p x y a' b', a = p ++ x :: a' /\ b = p ++ y :: b' /\
                       (code x < code y)%N).

(** The names that git writes for a commit: [(HEAD -> master, tag: 1.0)]. *)
Fixpoint commas (rs : list text) : text :=
  match rs with
  | [] => []
  | [r] => r
  | r :: more => r ++ T ", " ++ commas more
  end.

Definition ref_name (r : text) : Prop :=
  r <> [] /\ bare r /\ ~ In (ch ",") r /\ ~ In (ch "(") r /\ ~ In (ch ")") r.

Definition starts_digit (t : text) : Prop :=
  exists c r, t = c :: r /\ digit c.

(** The candidates: the texts after [tag: ], or without any of those the refs
    in which there is a digit. *)
Definition candidate (refs : list text) (t : text) : Prop :=
  In (T "tag: " ++ t) refs \/
  ((forall u, ~ In (T "tag: " ++ u) refs) /\ In t refs /\
   exists c, In c t /\ digit c).

(* ------------------------------------------------------------------ *)
(** * Versions of PEP 440 *)

Record parts := Parts {
  q_epoch : option text;
  q_release : list text;
  q_pre : option (text * text);
  q_post : option text;
  q_dev : option text;
  q_local : option (list text)
}.

Definition number (s : text) : Prop := s <> [] /\ Forall digit s.

Definition alnum (c : ascii) : Prop :=
  In c (T "0123456789abcdefghijklmnopqrstuvwxyz").

Definition segment (s : text) : Prop := s <> [] /\ Forall alnum s.

Definition all_opt {A} (P : A -> Prop) (o : option A) : Prop :=
  match o with Some a => P a | None => True end.

Definition parts_ok (q : parts) : Prop :=
  all_opt number (q_epoch q) /\
  (q_release q <> [] /\ Forall number (q_release q)) /\
  all_opt (fun '(k, n) => In k [T "a"; T "b"; T "rc"] /\ number n) (q_pre q) /\
  all_opt number (q_post q) /\ all_opt number (q_dev q) /\
  all_opt (fun l => l <> [] /\ Forall segment l) (q_local q).

Fixpoint dots (l : list text) : text :=
  match l with
  | [] => []
  | [x] => x
  | x :: more => x ++ T "." ++ dots more
  end.

Definition with_opt {A} (f : A -> text) (o : option A) : text :=
  match o with Some a => f a | None => [] end.

(** [N!]N(.N)*[{a|b|rc}N][.postN][.devN][+local] *)
Definition spell (q : parts) : text :=
  with_opt (fun e => e ++ T "!") (q_epoch q) ++ dots (q_release q)
  ++ with_opt (fun '(k, n) => k ++ n) (q_pre q)
  ++ with_opt (fun n => T ".post" ++ n) (q_post q)
  ++ with_opt (fun n => T ".dev" ++ n) (q_dev q)
  ++ with_opt (fun l => T "+" ++ dots l) (q_local q).

Definition pep440 (v : text) : Prop := exists q, parts_ok q /\ v = spell q.

(* ------------------------------------------------------------------ *)
(** * Archives and directories *)

(** The names written for a commit: nothing, or the names in parentheses. *)
Definition decoration (txt : text) (rs : list text) : Prop :=
  Forall ref_name rs /\
  ((rs = [] /\ Forall blank txt) \/
   (rs <> [] /\
    exists a b, Forall blank a /\ Forall blank b /\
                txt = a ++ T "(" ++ commas rs ++ T ")" ++ b)).

(** /c1/c2/.../cn *)
Definition path (comps : list text) : text :=
  List.concat (map (fun c => T "/" ++ c) comps).

Definition component (c : text) : Prop := c <> [] /\ ~ In (ch "/") c.

(** One of the git commands that must succeed does not. *)
Definition no_git (sy : system) (root : text) : Prop :=
  ~ succeeds sy root cmd_dir \/ ~ succeeds sy root (cmd_describe sy) \/
  ~ succeeds sy root cmd_head \/ ~ succeeds sy root cmd_branch \/
  (shows sy root cmd_branch (T "HEAD") /\ ~ succeeds sy root cmd_contains).

Definition named (c v : text) : Prop := c = T "pyrichlet-" ++ v.

(** The nearest of the directory and its two parents that is named after the
    package; directories are listed from the innermost outwards. *)
Definition nearest (dirs : list text) (v : text) : Prop :=
  exists inner c outer,
    dirs = inner ++ c :: outer /\ (List.length inner <= 2)%nat /\ named c v /\
    forall d u, In d inner -> ~ named d u.

(** The value of a text of digits. *)
Definition value (s : text) : Z :=
  fold_left (fun a c => 10 * a + (Z.of_N (code c) - 48))%Z s 0%Z.

(** The dictionary read in a repository whose tag is a PEP 440 version. *)
Definition tagged (p : pieces) (q : parts) (d : Z) : Prop :=
  p_tag p = Some (Some (spell q)) /\ p_dist p = Some d /\ (0 <= d)%Z /\
  hex_text (p_short p) /\ parts_ok q.

(** The dictionary read in a repository without tags. *)
Definition bare_pieces (p : pieces) (d : Z) : Prop :=
  p_tag p = Some None /\ p_dist p = Some d /\ (0 <= d)%Z /\ hex_text (p_short p).

Definition pub (q : parts) :=
  (q_epoch q, q_release q, q_pre q, q_post q, q_dev q).

Definition label (q : parts) : list text :=
  match q_local q with Some l => l | None => [] end.

(** A line [name = "x"] of a Python file. *)
Definition assignment (name : string) (x : text) : text :=
  T "    " ++ T name ++ T " = " ++ [ascii_of_nat 34] ++ x ++ [ascii_of_nat 34; LF].

(** A line that assigns none of the three names. *)
Definition other_line (l : text) : Prop :=
  forall name a r, In name ["git_refnames ="; "git_full ="; "git_date ="]%string ->
    Forall white a -> l <> a ++ T name ++ r.

(** The development part that marks branches other than master, and the one
    that marks local changes. *)
Definition dev_off (p : pieces) (dev : option text) : Prop :=
  (p_branch p = Some (T "master") /\ dev = None) \/
  (p_branch p <> Some (T "master") /\ dev = Some (T "0")).

Definition dev_dirty (p : pieces) (dev : option text) : Prop :=
  (p_dirty p = false /\ dev = None) \/ (p_dirty p = true /\ dev = Some (T "0")).

(** The label: distance, hash and state. *)
Definition marks (p : pieces) (start : list text) (l : list text) : Prop :=
  l = start ++ [T "g" ++ p_short p] ++ (if p_dirty p then [T "dirty"] else []).

Definition six_styles : list text :=
  map T ["pep440"; "pep440-branch"; "pep440-pre"; "pep440-post";
         "pep440-post-branch"; "pep440-old"]%string.

(** The list that git prints on a detached HEAD: a line about HEAD, then the
    branches that contain the commit, indented by two blanks. *)
Definition detached_list (h : text) (bs : list text) : text :=
  T "* (HEAD detached at " ++ h ++ T ")"
  ++ List.concat (map (fun b => LF :: T "  " ++ b) bs).

Definition chosen_branch (bs : list text) (b : option text) : Prop :=
  (In (T "master") bs /\ b = Some (T "master")) \/
  (~ In (T "master") bs /\ b = hd_error bs).
