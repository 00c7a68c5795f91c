(** Reading tables (M_Load). *)
From Coq Require Import List Ascii String Bool Arith Lia Sorting.Sorted.
From Verif Require Import M_Version M_Load S_Load P_VText.
Import ListNotations.
Open Scope list_scope.

Definition finish (t : text) (row : list text) (rest : text) :=
  match rest with
  | [] => Some [rev (t :: row)]
  | c :: r =>
      if Ascii.eqb c (ch ",") then records r MField [] (t :: row)
      else option_map (cons (rev (t :: row))) (records r MRecord [] [])
  end.

Definition stops (rest : text) : Prop :=
  forall c q, rest = c :: q -> c = ch "," \/ c = LF.

Lemma ends_field m cur row rest :
  In m [MPlain; MQuote; MField] -> stops rest ->
  records rest m cur row = finish (rev cur) row rest.
Proof.
  intros Hm Hs. destruct rest as [| c q].
  - now destruct Hm as [<- | [<- | [<- | []]]].
  - destruct (Hs c q eq_refl) as [-> | ->];
      destruct Hm as [<- | [<- | [<- | []]]]; reflexivity.
Qed.

Lemma plain_chars t : forall cur row rest,
  ~ In (ch ",") t -> ~ In LF t -> stops rest ->
  records (t ++ rest) MPlain cur row = finish (rev cur ++ t) row rest.
Proof.
  induction t as [| c t IH]; intros cur row rest Hc Hl Hs.
  - cbn [app]. rewrite app_nil_r. apply ends_field; [now left|easy].
  - cbn [app records].
    destruct (Ascii.eqb c (ch ",")) eqn:E1;
      [apply Ascii.eqb_eq in E1; subst; elim Hc; now left|].
    destruct (Ascii.eqb c LF) eqn:E2;
      [apply Ascii.eqb_eq in E2; subst; elim Hl; now left|].
    rewrite IH; [|intros X; apply Hc; now right|intros X; apply Hl; now right|easy].
    cbn [rev]. now rewrite <- app_assoc.
Qed.

Lemma quoted_chars t : forall cur row rest,
  stops rest ->
  records (doubled t ++ quote_mark :: rest) MQuoted cur row = finish (rev cur ++ t) row rest.
Proof.
  induction t as [| c t IH]; intros cur row rest Hs.
  - cbn [doubled flat_map app records].
    change (Ascii.eqb quote_mark DQ) with true. cbn iota. rewrite app_nil_r.
    apply ends_field; [right; now left|easy].
  - cbn [doubled flat_map]. fold (doubled t).
    destruct (ascii_dec c quote_mark) as [-> | N]; cbn [app records].
    + change (Ascii.eqb quote_mark DQ) with true. cbn iota.
      rewrite IH by easy. cbn [rev]. now rewrite <- app_assoc.
    + destruct (Ascii.eqb c DQ) eqn:E; [apply Ascii.eqb_eq in E; contradiction|].
      rewrite IH by easy. cbn [rev]. now rewrite <- app_assoc.
Qed.

Lemma one_field t s m row rest :
  field t s -> stops rest -> In m [MRecord; MField] ->
  (m = MRecord -> s <> [] \/ exists q, rest = ch "," :: q) ->
  records (s ++ rest) m [] row = finish t row rest.
Proof.
  intros F Hs Hm Hn. destruct F as [t Hc Hl Hq | t].
  - destruct t as [| c t].
    + cbn [app]. destruct Hm as [<- | [<- | []]].
      * destruct (Hn eq_refl) as [X | (q & ->)]; [easy|]. reflexivity.
      * apply (ends_field MField [] row rest); [right; right; now left|easy].
    + assert (X1 : Ascii.eqb c (ch ",") = false).
      { apply not_true. intros X. apply Ascii.eqb_eq in X. subst. apply Hc. now left. }
      assert (X2 : Ascii.eqb c LF = false).
      { apply not_true. intros X. apply Ascii.eqb_eq in X. subst. apply Hl. now left. }
      assert (X3 : Ascii.eqb c DQ = false).
      { apply not_true. intros X. apply Ascii.eqb_eq in X. subst. now apply Hq. }
      assert (R : records (t ++ rest) MPlain [c] row = finish (c :: t) row rest).
      { rewrite plain_chars; [reflexivity| | |easy].
        - intros X. apply Hc. now right.
        - intros X. apply Hl. now right. }
      destruct Hm as [<- | [<- | []]]; cbn [app records]; rewrite X1, X2, X3; exact R.
  - cbn [app]. rewrite <- app_assoc. cbn [app].
    assert (R : records (doubled t ++ quote_mark :: rest) MQuoted [] row = finish t row rest)
      by (now rewrite quoted_chars).
    destruct Hm as [<- | [<- | []]]; cbn [records];
      change (Ascii.eqb quote_mark LF) with false;
      change (Ascii.eqb quote_mark DQ) with true; exact R.
Qed.

Definition new_line (row : list text) (rest : text) :=
  match rest with
  | [] => Some [row]
  | _ :: r => option_map (cons row) (records r MRecord [] [])
  end.

Lemma one_line_read row s : line row s -> forall m acc rest,
  (rest = [] \/ exists q, rest = LF :: q) -> In m [MRecord; MField] ->
  (m = MRecord -> s <> []) ->
  records (s ++ rest) m [] acc = new_line (rev acc ++ row) rest.
Proof.
  induction 1 as [t s F | t s row r F L IH]; intros m acc rest Hr Hm Hn.
  - rewrite (one_field t s m acc rest F).
    + destruct Hr as [-> | (q & ->)]; cbn; reflexivity.
    + intros c q ->. destruct Hr as [Hr | (x & Hr)]; [discriminate Hr|]. right. congruence.
    + easy.
    + intros E. left. now apply Hn.
  - rewrite <- app_assoc. change (T "," ++ r) with (ch "," :: r). cbn [app].
    rewrite (one_field t s m acc (ch "," :: r ++ rest) F).
    + cbn [finish]. rewrite Ascii.eqb_refl.
      rewrite (IH MField (t :: acc) rest Hr); [|right; now left|discriminate].
      cbn [rev]. now rewrite <- app_assoc.
    + intros c q [= <- _]. now left.
    + easy.
    + intros _. right. now exists (r ++ rest).
Qed.

Lemma read_file rows txt : file rows txt -> records txt MRecord [] [] = Some rows.
Proof.
  induction 1 as [| rows r F IH | row s L N | row s rows r L N F IH].
  - reflexivity.
  - exact IH.
  - rewrite <- (app_nil_r s).
    rewrite (one_line_read row s L MRecord [] []); [reflexivity|now left|now left|easy].
  - rewrite (one_line_read row s L MRecord [] (LF :: r));
      [|right; now exists r|now left|easy].
    cbn [new_line rev app]. now rewrite IH.
Qed.

Lemma missing_iff t : existsb (teqb t) na_texts = true <-> missing t.
Proof.
  rewrite existsb_exists. split.
  - intros (x & Hx & E). apply teqb_eq in E. now subst.
  - intros H. exists t. split; [exact H|]. now apply teqb_eq.
Qed.

Lemma cell_spec r j : cell_at r j (cell r j).
Proof.
  unfold cell, cell_at, value_at. destruct (nth_error r j) as [t |] eqn:E.
  - destruct (existsb (teqb t) na_texts) eqn:M.
    + right. split; [|reflexivity]. intros u (X & Y). apply Y. apply missing_iff.
      congruence.
    + left. exists t. split; [|reflexivity]. split; [reflexivity|].
      intros X. apply missing_iff in X. congruence.
  - right. split; [|reflexivity]. intros t (X & _). discriminate X.
Qed.

Lemma cell_some r j t : cell r j = Some t <-> value_at r j t.
Proof.
  unfold cell, value_at. destruct (nth_error r j) as [u |].
  - destruct (existsb (teqb u) na_texts) eqn:M.
    + split; [discriminate|]. intros (X & Y). exfalso. apply Y. apply missing_iff.
      congruence.
    + split.
      * intros X. assert (u = t) by congruence. subst u. split; [reflexivity|].
        intros Y. apply missing_iff in Y. congruence.
      * intros (X & _). congruence.
  - split; [discriminate|]. intros (X & _). discriminate X.
Qed.

Lemma read_table header rows txt cols :
  file (header :: rows) txt -> tabular header rows ->
  Forall (fun j => j < List.length header) cols ->
  read_csv txt cols = Some (map (fun j => nth j header []) cols,
                            map (fun r => map (cell r) cols) rows).
Proof.
  intros F Ht Hc. unfold read_csv. rewrite (read_file _ _ F).
  replace (forallb (fun j => j <? List.length header) cols) with true.
  2:{ symmetry. apply forallb_forall. intros j Hj. apply Nat.ltb_lt.
      rewrite Forall_forall in Hc. now apply Hc. }
  replace (forallb (fun r => List.length r <=? List.length header) rows) with true.
  2:{ symmetry. apply forallb_forall. intros r Hr. apply Nat.leb_le.
      unfold tabular in Ht. rewrite Forall_forall in Ht. now apply Ht. }
  reflexivity.
Qed.

Lemma chaetocnema_read header rows txt :
  file (header :: rows) txt -> tabular header rows -> 8 <= List.length header ->
  exists D, load_chaetocnema txt = Some D /\
    ds_names D = [nth 1 header []; nth 2 header []; nth 3 header []; nth 4 header [];
                  nth 5 header []; nth 6 header []] /\
    List.length (ds_index D) = List.length rows /\
    List.length (ds_data D) = List.length rows /\
    List.length (ds_labels D) = List.length rows /\
    forall i r, nth_error rows i = Some r ->
      (exists c, nth_error (ds_index D) i = Some c /\ cell_at r 0 c) /\
      (exists c1 c2 c3 c4 c5 c6,
         nth_error (ds_data D) i = Some [c1; c2; c3; c4; c5; c6] /\
         cell_at r 1 c1 /\ cell_at r 2 c2 /\ cell_at r 3 c3 /\ cell_at r 4 c4 /\
         cell_at r 5 c5 /\ cell_at r 6 c6) /\
      (exists c, nth_error (ds_labels D) i = Some c /\ cell_at r 7 c).
Proof.
  intros F Ht H8. unfold load_chaetocnema.
  rewrite (read_table header rows txt (seq 0 8) F Ht).
  2:{ apply Forall_forall. intros j Hj. apply in_seq in Hj. lia. }
  cbn [option_map seq map]. eexists. split; [reflexivity|].
  cbn [ds_names ds_index ds_data ds_labels tl removelast].
  split; [reflexivity|]. rewrite !map_map, !map_length.
  split; [reflexivity|]. split; [reflexivity|]. split; [reflexivity|].
  intros i r E. split; [|split].
  - exists (cell r 0). split; [|apply cell_spec].
    now rewrite (map_nth_error _ _ _ E).
  - exists (cell r 1), (cell r 2), (cell r 3), (cell r 4), (cell r 5), (cell r 6).
    split; [|repeat (split; [apply cell_spec|]); apply cell_spec].
    now rewrite (map_nth_error _ _ _ E).
  - exists (cell r 7). split; [|apply cell_spec].
    now rewrite (map_nth_error _ _ _ E).
Qed.

(** dropna *)
Definition whole (r : list (option text)) : bool :=
  forallb (fun c => match c with Some _ => true | None => false end) r.

Fixpoint keep (k : nat) (rows : list (list (option text))) : list (nat * list (option text)) :=
  match rows with
  | [] => []
  | r :: more => if whole r then (k, r) :: keep (S k) more else keep (S k) more
  end.

Lemma dropna_keep rows : dropna rows = keep 0 rows.
Proof.
  unfold dropna. generalize 0 as k. induction rows as [| r rows IH]; intros k; [reflexivity|].
  cbn [List.length seq combine filter keep]. fold (whole r).
  destruct (whole r); now rewrite IH.
Qed.

Lemma keep_in k rows i r :
  In (i, r) (keep k rows) <-> k <= i /\ nth_error rows (i - k) = Some r /\ whole r = true.
Proof.
  revert k. induction rows as [| x rows IH]; intros k.
  - cbn. split; [easy|]. intros (_ & X & _). now destruct (i - k).
  - cbn [keep].
    assert (G : In (i, r) (keep (S k) rows) <->
                k < i /\ nth_error (x :: rows) (i - k) = Some r /\ whole r = true).
    { rewrite IH. split; intros (A & B & C); (split; [lia|]); (split; [|easy]).
      - replace (i - k) with (S (i - S k)) by lia. exact B.
      - replace (i - k) with (S (i - S k)) in B by lia. exact B. }
    destruct (whole x) eqn:W.
    + cbn [In]. rewrite G. split.
      * intros [X | (A & B)]; [|split; [lia|easy]].
        assert (k = i) by congruence. assert (x = r) by congruence. subst.
        rewrite Nat.sub_diag. now split.
      * intros (A & B & C). destruct (Nat.eq_dec k i) as [-> | N].
        -- left. rewrite Nat.sub_diag in B. cbn in B. congruence.
        -- right. split; [lia|easy].
    + rewrite G. split; [intros (A & B); split; [lia|easy]|].
      intros (A & B & C). split; [|easy].
      destruct (Nat.eq_dec k i) as [-> | N]; [|lia].
      rewrite Nat.sub_diag in B. cbn in B. congruence.
Qed.

Lemma keep_sorted k rows : StronglySorted lt (map fst (keep k rows)).
Proof.
  revert k. induction rows as [| x rows IH]; intros k; cbn [keep]; [constructor|].
  destruct (whole x); [|apply IH]. cbn [map fst]. constructor; [apply IH|].
  apply Forall_forall. intros i Hi. apply in_map_iff in Hi as ((j & r) & <- & Hj).
  apply keep_in in Hj. cbn. lia.
Qed.

Lemma whole_complete r :
  whole (map (cell r) [0; 2; 3; 4; 5]) = true <-> complete r.
Proof.
  unfold whole, complete. rewrite forallb_forall. split.
  - intros H j Hj. specialize (H (cell r j)). destruct (cell r j) as [t |] eqn:E.
    + exists t. now apply cell_some.
    + assert (X : false = true); [|discriminate X]. apply H. rewrite <- E.
      now apply in_map.
  - intros H c Hc. apply in_map_iff in Hc as (j & <- & Hj).
    destruct (H j Hj) as (t & Ht). apply cell_some in Ht. now rewrite Ht.
Qed.

Lemma penguins_read header rows txt :
  file (header :: rows) txt -> tabular header rows -> 6 <= List.length header ->
  exists D, load_penguins txt = Some D /\
    ds_names D = [nth 2 header []; nth 3 header []; nth 4 header []; nth 5 header []] /\
    StronglySorted lt (ds_index D) /\
    (forall i, In i (ds_index D) <-> exists r, nth_error rows i = Some r /\ complete r) /\
    List.length (ds_data D) = List.length (ds_index D) /\
    List.length (ds_labels D) = List.length (ds_index D) /\
    forall k i, nth_error (ds_index D) k = Some i ->
      exists r t0 t2 t3 t4 t5, nth_error rows i = Some r /\
        value_at r 0 t0 /\ value_at r 2 t2 /\ value_at r 3 t3 /\ value_at r 4 t4 /\
        value_at r 5 t5 /\
        nth_error (ds_data D) k = Some [Some t2; Some t3; Some t4; Some t5] /\
        nth_error (ds_labels D) k = Some (Some t0).
Proof.
  intros F Ht H6. unfold load_penguins.
  rewrite (read_table header rows txt [0; 2; 3; 4; 5] F Ht).
  2:{ apply Forall_forall. intros j Hj. cbn in Hj. lia. }
  cbn [option_map]. rewrite dropna_keep. eexists. split; [reflexivity|].
  cbn [ds_names ds_index ds_data ds_labels tl].
  split; [reflexivity|]. split; [apply keep_sorted|]. split.
  { intros i. rewrite in_map_iff. split.
    - intros ((j & r) & <- & Hj). apply keep_in in Hj as (_ & E & W). cbn [fst].
      rewrite Nat.sub_0_r, nth_error_map in E.
      destruct (nth_error rows j) as [x |]; [|discriminate E]. exists x.
      split; [reflexivity|]. apply whole_complete.
      assert (X : map (cell x) [0; 2; 3; 4; 5] = r) by (cbn in E |- *; congruence).
      now rewrite X.
    - intros (r & E & C). exists (i, map (cell r) [0; 2; 3; 4; 5]). split; [reflexivity|].
      apply keep_in. split; [lia|]. split; [|now apply whole_complete].
      rewrite Nat.sub_0_r, nth_error_map, E. reflexivity. }
  rewrite !map_length. split; [reflexivity|]. split; [reflexivity|].
  intros k i E. rewrite nth_error_map in E |- *. rewrite nth_error_map.
  destruct (nth_error (keep 0 (map (fun r => map (cell r) [0; 2; 3; 4; 5]) rows)) k)
    as [[j c] |] eqn:Ek; [|discriminate E].
  cbn [option_map fst snd] in E |- *. assert (j = i) by congruence. subst j.
  apply nth_error_In in Ek. apply keep_in in Ek as (_ & Er & W).
  rewrite Nat.sub_0_r, nth_error_map in Er.
  destruct (nth_error rows i) as [r |]; [|discriminate Er].
  assert (X : c = map (cell r) [0; 2; 3; 4; 5]) by (cbn in Er |- *; congruence).
  subst c. apply whole_complete in W.
  destruct (W 0) as (t0 & V0); [cbn; tauto|]. destruct (W 2) as (t2 & V2); [cbn; tauto|].
  destruct (W 3) as (t3 & V3); [cbn; tauto|]. destruct (W 4) as (t4 & V4); [cbn; tauto|].
  destruct (W 5) as (t5 & V5); [cbn; tauto|].
  exists r, t0, t2, t3, t4, t5. split; [reflexivity|].
  split; [exact V0|]. split; [exact V2|]. split; [exact V3|]. split; [exact V4|].
  split; [exact V5|]. apply cell_some in V0, V2, V3, V4, V5.
  cbn [map tl hd]. rewrite V0, V2, V3, V4, V5. split; reflexivity.
Qed.

Lemma too_few header rows txt :
  file (header :: rows) txt ->
  (List.length header < 6 -> load_penguins txt = None) /\
  (List.length header < 8 -> load_chaetocnema txt = None).
Proof.
  intros F. unfold load_penguins, load_chaetocnema, read_csv. rewrite (read_file _ _ F).
  split; intros H.
  - replace (forallb (fun j => j <? List.length header) [0; 2; 3; 4; 5]) with false;
      [reflexivity|]. symmetry. apply not_true. intros X. rewrite forallb_forall in X.
    specialize (X 5). rewrite Nat.ltb_lt in X. cbn in X. lia.
  - replace (forallb (fun j => j <? List.length header) (seq 0 8)) with false;
      [reflexivity|]. symmetry. apply not_true. intros X. rewrite forallb_forall in X.
    specialize (X 7). rewrite Nat.ltb_lt in X. cbn in X. lia.
Qed.
