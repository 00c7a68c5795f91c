(** Specifications for C99: texts of tables, and what is in a table. *)
From Coq Require Import List Ascii String Bool Arith.
From Verif Require Import M_Version.
Import ListNotations.
Open Scope list_scope.

(** The ways to write one field: as it is, or in quotes with the quotes inside
    doubled. *)
Definition quote_mark : ascii := ascii_of_nat 34.

Definition doubled (t : text) : text :=
  flat_map (fun c => if ascii_dec c quote_mark then [c; c] else [c]) t.

Inductive field : text -> text -> Prop :=
| field_plain t :
    ~ In (ch ",") t -> ~ In LF t -> hd_error t <> Some quote_mark -> field t t
| field_quoted t : field t (quote_mark :: doubled t ++ [quote_mark]).

(** The fields of a row with commas between them. *)
Inductive line : list text -> text -> Prop :=
| line_one t s : field t s -> line [t] s
| line_more t s row r : field t s -> line row r -> line (t :: row) (s ++ T "," ++ r).

(** A file: lines with their line feeds, the last of which may be missing, and
    blank lines. *)
Inductive file : list (list text) -> text -> Prop :=
| file_end : file [] []
| file_blank rows r : file rows r -> file rows (LF :: r)
| file_last row s : line row s -> s <> [] -> file [row] s
| file_line row s rows r :
    line row s -> s <> [] -> file rows r -> file (row :: rows) (s ++ LF :: r).

Definition missing (t : text) : Prop :=
  In t (map T [""; "#N/A"; "#N/A N/A"; "#NA"; "-1.#IND"; "-1.#QNAN"; "-NaN"; "-nan";
               "1.#IND"; "1.#QNAN"; "<NA>"; "N/A"; "NA"; "NULL"; "NaN"; "None"; "n/a";
               "nan"; "null"]%string).

(** The row has the value [t] in column [j]; the cell of column [j]. *)
Definition value_at (row : list text) (j : nat) (t : text) : Prop :=
  nth_error row j = Some t /\ ~ missing t.

Definition cell_at (row : list text) (j : nat) (c : option text) : Prop :=
  (exists t, value_at row j t /\ c = Some t) \/
  ((forall t, ~ value_at row j t) /\ c = None).

(** No row has more fields than the header. *)
Definition tabular (header : list text) (rows : list (list text)) : Prop :=
  Forall (fun r => List.length r <= List.length header) rows.

(** Nothing is missing in the columns used by load_penguins. *)
Definition complete (row : list text) : Prop :=
  forall j, In j [0; 2; 3; 4; 5] -> exists t, value_at row j t.
