(* C99: the data loaders (pyrichlet/utils/_loaders.py). *)
From Coq Require Import List Ascii String Bool Arith Lia Sorting.Sorted.
From Verif Require Import M_Version M_Load S_Load P_VText P_Load P_LoadEx.
Import ListNotations.
Open Scope list_scope.

(* any way of writing a table is read back: quotes, blank lines, a missing line
   feed at the end *)
Theorem c99_round_trip : forall rows txt, file rows txt ->
  records txt MRecord [] [] = Some rows.
Proof. exact read_file. Qed.
Print Assumptions c99_round_trip.

(* load_chaetocnema keeps every row: column 0 is the index, 1-6 the data, 7 the
   label; missing cells stay *)
Theorem c99_chaetocnema : forall header rows txt,
  file (header :: rows) txt -> tabular header rows -> 8 <= List.length header ->
  exists D, load_chaetocnema txt = Some D /\
    ds_names D = [nth 1 header []; nth 2 header []; nth 3 header []; nth 4 header [];
                  nth 5 header []; nth 6 header []] /\
    List.length (ds_index D) = List.length rows /\
    List.length (ds_data D) = List.length rows /\
    List.length (ds_labels D) = List.length rows /\
    forall i r, nth_error rows i = Some r ->
      (exists c, nth_error (ds_index D) i = Some c /\ cell_at r 0 c) /\
      (exists c1 c2 c3 c4 c5 c6,
         nth_error (ds_data D) i = Some [c1; c2; c3; c4; c5; c6] /\
         cell_at r 1 c1 /\ cell_at r 2 c2 /\ cell_at r 3 c3 /\ cell_at r 4 c4 /\
         cell_at r 5 c5 /\ cell_at r 6 c6) /\
      (exists c, nth_error (ds_labels D) i = Some c /\ cell_at r 7 c).
Proof. exact chaetocnema_read. Qed.
Print Assumptions c99_chaetocnema.

(* load_penguins keeps exactly the rows with nothing missing in columns 0 and
   2-5, in order and under their old numbers; data and labels stay together *)
Theorem c99_penguins : forall header rows txt,
  file (header :: rows) txt -> tabular header rows -> 6 <= List.length header ->
  exists D, load_penguins txt = Some D /\
    ds_names D = [nth 2 header []; nth 3 header []; nth 4 header []; nth 5 header []] /\
    StronglySorted lt (ds_index D) /\
    (forall i, In i (ds_index D) <-> exists r, nth_error rows i = Some r /\ complete r) /\
    List.length (ds_data D) = List.length (ds_index D) /\
    List.length (ds_labels D) = List.length (ds_index D) /\
    forall k i, nth_error (ds_index D) k = Some i ->
      exists r t0 t2 t3 t4 t5, nth_error rows i = Some r /\
        value_at r 0 t0 /\ value_at r 2 t2 /\ value_at r 3 t3 /\ value_at r 4 t4 /\
        value_at r 5 t5 /\
        nth_error (ds_data D) k = Some [Some t2; Some t3; Some t4; Some t5] /\
        nth_error (ds_labels D) k = Some (Some t0).
Proof. exact penguins_read. Qed.
Print Assumptions c99_penguins.

(* and both fail on a narrower table *)
Theorem c99_too_few_columns : forall header rows txt,
  file (header :: rows) txt ->
  (List.length header < 6 -> load_penguins txt = None) /\
  (List.length header < 8 -> load_chaetocnema txt = None).
Proof. exact too_few. Qed.
Print Assumptions c99_too_few_columns.

(* the shipped files *)
Theorem c99_shipped_chaetocnema :
  exists D, load_chaetocnema (T chaetocnema_csv) = Some D /\
    List.length (ds_data D) = 74 /\
    Forall (fun r => List.length r = 6 /\ ~ In None r) (ds_data D) /\
    map (fun l => times l (ds_labels D)) [" A"; " B"; " C"]%string = [21; 31; 22].
Proof. exact shipped_chaetocnema. Qed.
Print Assumptions c99_shipped_chaetocnema.

Theorem c99_shipped_penguins :
  exists D, load_penguins (T penguins_csv) = Some D /\
    List.length (ds_data D) = 342 /\
    Forall (fun r => List.length r = 4 /\ ~ In None r) (ds_data D) /\
    map (fun l => times l (ds_labels D)) ["Adelie"; "Chinstrap"; "Gentoo"]%string
    = [151; 68; 123] /\
    filter (fun i => negb (existsb (Nat.eqb i) (ds_index D))) (seq 0 344) = [3; 339].
Proof. exact shipped_penguins. Qed.
Print Assumptions c99_shipped_penguins.

Example c99_ex : file small_rows small_csv /\ tabular (hd [] small_rows) (tl small_rows) /\
  6 <= List.length (hd [] small_rows) /\
  match load_penguins small_csv with
  | Some D => ds_index D = [0; 2] /\ ds_labels D = [Some (T "A ""1"""); Some (T "C")] /\
      ds_names D = map T ["x"; "y"; "z"; "w"]%string
  | None => False
  end.
Proof.
  split; [exact small_file|]. split; [repeat (constructor; [cbn; lia|]); constructor|].
  split; [cbn; lia|]. vm_compute. repeat split; reflexivity.
Qed.
Example c99_ex_open : load_penguins (T "a,b,c,d,e,""f") = None.
Proof. vm_compute. reflexivity. Qed.
