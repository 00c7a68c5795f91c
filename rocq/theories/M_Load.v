(** The data loaders (pyrichlet/utils/_loaders.py), as functions of the text of
    the file.  [pd.read_csv] is followed in its default dialect: comma, double
    quotes, header in the first line, blank lines skipped.  Left out: carriage
    returns, conversion of cells to numbers (a cell is its text), and rows with
    more fields than the header, which are an error here. *)
From Coq Require Import List Ascii String Bool Arith.
From Verif Require Import M_Version.
Import ListNotations.
Open Scope list_scope.

Definition DQ : ascii := ascii_of_nat 34.

(** Where the reader is: at the beginning of a record, at the beginning of a
    field, inside a field, inside quotes, after a quote inside quotes. *)
Inductive mode := MRecord | MField | MPlain | MQuoted | MQuote.

(** [read_csv], the division into records and fields (_loaders.py:10, 17).
    [cur] is the current field and [row] the fields before it, both reversed.
    [None]: the file ends inside quotes. *)
Fixpoint records (s : text) (m : mode) (cur : text) (row : list text)
  : option (list (list text)) :=
  let done := rev (rev cur :: row) in
  match s with
  | [] => match m with
          | MRecord => Some []
          | MQuoted => None
          | _ => Some [done]
          end
  | c :: r =>
      let put m' := records r m' (c :: cur) row in
      let next := records r MField [] (rev cur :: row) in
      let line := option_map (cons done) (records r MRecord [] []) in
      match m with
      | MQuoted => if Ascii.eqb c DQ then records r MQuote cur row else put MQuoted
      | MQuote => if Ascii.eqb c DQ then put MQuoted
                  else if Ascii.eqb c (ch ",") then next
                  else if Ascii.eqb c LF then line else put MPlain
      | MPlain => if Ascii.eqb c (ch ",") then next
                  else if Ascii.eqb c LF then line else put MPlain
      | MField => if Ascii.eqb c DQ then records r MQuoted cur row
                  else if Ascii.eqb c (ch ",") then next
                  else if Ascii.eqb c LF then line else put MPlain
      | MRecord => if Ascii.eqb c LF then records r MRecord [] []
                   else if Ascii.eqb c DQ then records r MQuoted cur row
                   else if Ascii.eqb c (ch ",") then next else put MPlain
      end
  end.

(** The texts that [read_csv] takes for a missing value (its default
    [na_values]). *)
Definition na_texts : list text :=
  map T [""; "#N/A"; "#N/A N/A"; "#NA"; "-1.#IND"; "-1.#QNAN"; "-NaN"; "-nan";
         "1.#IND"; "1.#QNAN"; "<NA>"; "N/A"; "NA"; "NULL"; "NaN"; "None"; "n/a";
         "nan"; "null"]%string.

(** A cell; [None] is NaN.  Rows that are too short are filled with NaN. *)
Definition cell (row : list text) (j : nat) : option text :=
  match nth_error row j with
  | Some t => if existsb (teqb t) na_texts then None else Some t
  | None => None
  end.

(** [read_csv] with [usecols] (_loaders.py:10-12, 17-18): the names and the
    cells of these columns; [None] is an exception (an empty file, quotes left
    open, columns that are not there, a row that is too long). *)
Definition read_csv (s : text) (cols : list nat)
  : option (list text * list (list (option text))) :=
  match records s MRecord [] [] with
  | Some (header :: rows) =>
      if forallb (fun j => j <? List.length header) cols
         && forallb (fun r => List.length r <=? List.length header) rows
      then Some (map (fun j => nth j header []) cols,
                 map (fun r => map (cell r) cols) rows)
      else None
  | _ => None
  end.

(** What a loader returns: the names of the data columns, the index and the
    cells of the data, and the labels. *)
Record dataset (I : Type) := Dataset {
  ds_names : list text;
  ds_index : list I;
  ds_data : list (list (option text));
  ds_labels : list (option text)
}.
Arguments Dataset {I}.
Arguments ds_names {I}.
Arguments ds_index {I}.
Arguments ds_data {I}.
Arguments ds_labels {I}.

(** load_chaetocnema, _loaders.py:9-13: the first of the columns is the index;
    of the others the last is the label ([iloc[:, :-1]], [iloc[:, -1]]). *)
Definition load_chaetocnema (s : text) : option (dataset (option text)) :=
  option_map (fun '(names, rows) =>
    let body := map (@tl (option text)) rows in
    Dataset (removelast (tl names)) (map (fun r => hd None r) rows)
            (map (@removelast (option text)) body) (map (fun r => last r None) body))
    (read_csv s (seq 0 8)).

(** [dropna], _loaders.py:19: the rows without NaN, with their index. *)
Definition dropna (rows : list (list (option text)))
  : list (nat * list (option text)) :=
  filter (fun '(_, r) => forallb (fun c => match c with Some _ => true | None => false end) r)
         (combine (seq 0 (List.length rows)) rows).

(** load_penguins, _loaders.py:16-20. *)
Definition load_penguins (s : text) : option (dataset nat) :=
  option_map (fun '(names, rows) =>
    let kept := dropna rows in
    Dataset (tl names) (map fst kept) (map (fun x => tl (snd x)) kept)
            (map (fun x => hd None (snd x)) kept))
    (read_csv s [0; 2; 3; 4; 5]).
