(** Numerals: printing and reading numbers in M_Version. *)
From Coq Require Import List ZArith Ascii String Bool Lia.
From Coq Require DecimalString DecimalFacts DecimalN DecimalPos.
From Verif Require Import M_Version S_Version P_VText.
Import ListNotations.
Open Scope list_scope.

Definition step (a : N) (c : ascii) : N := (10 * a + (code c - 48))%N.

Definition utext (d : Decimal.uint) : text :=
  T (DecimalString.NilEmpty.string_of_uint d).

Lemma acc_step d acc :
  N.pos (Pos.of_uint_acc d acc) = fold_left step (utext d) (N.pos acc).
Proof.
  revert acc.
  induction d as [|d IH|d IH|d IH|d IH|d IH|d IH|d IH|d IH|d IH|d IH];
    intros acc; [reflexivity| ..];
    cbn [Pos.of_uint_acc utext DecimalString.NilEmpty.string_of_uint T
         list_ascii_of_string fold_left];
    fold (utext d); rewrite IH; apply f_equal; unfold step;
    match goal with |- context [code ?c] =>
      let k := eval vm_compute in (code c - 48)%N in
      change (code c - 48)%N with k end; lia.
Qed.

Lemma of_uint_num d : N.of_uint d = num (utext d).
Proof.
  unfold num, N.of_uint. change (fun a c => (10 * a + (code c - 48))%N) with step.
  induction d as [|d IH|d IH|d IH|d IH|d IH|d IH|d IH|d IH|d IH|d IH];
    [reflexivity| ..];
    cbn [Pos.of_uint utext DecimalString.NilEmpty.string_of_uint T
         list_ascii_of_string fold_left];
    fold (utext d); rewrite ?acc_step; try reflexivity.
  exact IH.
Qed.

Lemma digits_uint s : Forall digit s -> exists d, utext d = s.
Proof.
  induction 1 as [| c r Hc _ (d & E)].
  - now exists Decimal.Nil.
  - unfold digit in Hc. cbn in Hc.
    repeat (destruct Hc as [<- | Hc]); [.. | easy].
    + exists (Decimal.D0 d). cbn. fold (utext d). now rewrite <- E.
    + exists (Decimal.D1 d). cbn. fold (utext d). now rewrite <- E.
    + exists (Decimal.D2 d). cbn. fold (utext d). now rewrite <- E.
    + exists (Decimal.D3 d). cbn. fold (utext d). now rewrite <- E.
    + exists (Decimal.D4 d). cbn. fold (utext d). now rewrite <- E.
    + exists (Decimal.D5 d). cbn. fold (utext d). now rewrite <- E.
    + exists (Decimal.D6 d). cbn. fold (utext d). now rewrite <- E.
    + exists (Decimal.D7 d). cbn. fold (utext d). now rewrite <- E.
    + exists (Decimal.D8 d). cbn. fold (utext d). now rewrite <- E.
    + exists (Decimal.D9 d). cbn. fold (utext d). now rewrite <- E.
Qed.

Lemma dec_N n :
  dec (Z.of_N n) = T (DecimalString.NilZero.string_of_uint (N.to_uint n)).
Proof. destruct n; reflexivity. Qed.

Lemma nz_text d :
  d <> Decimal.Nil ->
  T (DecimalString.NilZero.string_of_uint d) = utext d.
Proof. now destruct d. Qed.

Lemma dec_num s : numeral s -> dec (Z.of_N (num s)) = s.
Proof.
  intros (N & D & C). destruct (digits_uint s D) as (d & <-).
  rewrite dec_N, <- of_uint_num, DecimalN.Unsigned.to_of.
  destruct C as [C | C].
  - rewrite C. destruct d; try discriminate C. cbn in C.
    injection C as C. destruct d; try discriminate C. reflexivity.
  - replace (Decimal.unorm d) with d.
    + apply nz_text. intros ->. now apply N.
    + symmetry. destruct d; try reflexivity; [now elim N|].
      now elim C.
Qed.

(** Conversely every number is printed as a numeral. *)
Lemma unorm_shape d :
  numeral (T (DecimalString.NilZero.string_of_uint (Decimal.unorm d))).
Proof.
  assert (F : forall d, Forall digit (utext d)).
  { clear. induction d; cbn; try fold (utext d);
      constructor; try assumption; unfold digit; cbn; tauto. }
  assert (G : forall d, d <> Decimal.Nil ->
            (match d with Decimal.D0 _ => False | _ => True end) ->
            numeral (T (DecimalString.NilZero.string_of_uint d))).
  { intros e E X. rewrite nz_text by easy. split; [|split].
    - destruct e; easy.
    - apply F.
    - right. destruct e; easy. }
  induction d; cbn [Decimal.unorm Decimal.nzhead]; try (now apply G).
  - repeat split; [easy| |now left].
    constructor; [|constructor]. unfold digit. cbn. tauto.
  - unfold Decimal.unorm in *. cbn [Decimal.nzhead]. exact IHd.
Qed.

Lemma dec_numeral n : (0 <= n)%Z -> numeral (dec n).
Proof.
  intros H. rewrite <- (Z2N.id n H), dec_N.
  rewrite <- (DecimalN.Unsigned.of_to (Z.to_N n)), DecimalN.Unsigned.to_of.
  apply unorm_shape.
Qed.

Lemma num_dec n : (0 <= n)%Z -> Z.of_N (num (dec n)) = n.
Proof.
  intros H. rewrite <- (Z2N.id n H), dec_N.
  set (m := Z.to_N n). f_equal.
  rewrite nz_text.
  - rewrite <- of_uint_num. apply DecimalN.Unsigned.of_to.
  - destruct m as [| p]; [easy|]. cbn. apply DecimalPos.Unsigned.to_uint_nonnil.
Qed.

Lemma dec_0 n : (0 <= n)%Z -> (n =? 0)%Z = teqb (dec n) (T "0").
Proof.
  intros H. destruct (Z.eqb_spec n 0) as [-> | E]; [reflexivity|].
  symmetry. apply not_true. rewrite teqb_eq. intros X.
  apply E. rewrite <- (num_dec n H), X. reflexivity.
Qed.

Lemma num_0 s : numeral s -> (Z.of_N (num s) =? 0)%Z = teqb s (T "0").
Proof. intros H. rewrite dec_0 by lia. now rewrite dec_num. Qed.

(** [int] reads a numeral. *)
Lemma digits_ok_all s b : s <> [] -> Forall digit s -> digits_ok s b = true.
Proof.
  intros N H. revert b N. induction H as [| c r Hc H IH]; [easy|].
  intros b _. cbn. rewrite (proj2 (is_digit_iff c) Hc).
  destruct r as [| d r]; [reflexivity|]. now apply IH.
Qed.

Lemma digit_solid c : digit c -> ~ white c.
Proof.
  intros D W. unfold digit in D. cbn in D.
  repeat (destruct D as [<- | D]); try easy;
    unfold white in W; cbn in W; repeat (destruct W as [W | W]; [discriminate W|]);
    exact W.
Qed.

Lemma digits_bare s : Forall digit s -> bare s.
Proof.
  intros H. split; intros c r ->.
  - inversion H. now apply digit_solid.
  - apply Forall_app in H as [_ H]. inversion H. now apply digit_solid.
Qed.

Lemma py_int_num s :
  s <> [] -> Forall digit s -> py_int s = Some (Z.of_N (num s)).
Proof.
  intros N H. unfold py_int. rewrite strip_bare by now apply digits_bare.
  destruct s as [| c r]; [easy|].
  replace (Ascii.eqb c (ch "-")) with false.
  2:{ inversion H as [| ? ? Hc _]; subst. unfold digit in Hc. cbn in Hc.
      repeat (destruct Hc as [<- | Hc]); try reflexivity; easy. }
  replace (Ascii.eqb c (ch "+")) with false.
  2:{ inversion H as [| ? ? Hc _]; subst. unfold digit in Hc. cbn in Hc.
      repeat (destruct Hc as [<- | Hc]); try reflexivity; easy. }
  cbv iota zeta. rewrite digits_ok_all by easy. cbv iota.
  replace (filter is_digit (c :: r)) with (c :: r); [reflexivity|].
  symmetry. revert H. generalize (c :: r). clear.
  induction 1 as [| c r Hc _ IH]; cbn; [easy|].
  now rewrite (proj2 (is_digit_iff c) Hc), IH.
Qed.
