(* numpy doubles seen as reals extended with infinities and NaN. *)
From Coq Require Import Reals.
From Verif Require Import Prelude.
Open Scope R_scope.

Inductive ext := EF (x : R) | EPI | ENI | ENaN.

Definition rltb (x y : R) : bool := if Rlt_dec x y then true else false.
Definition rleb (x y : R) : bool := if Rle_dec x y then true else false.
Definition reqb (x y : R) : bool := if Req_EM_T x y then true else false.

Definition ext_add (a b : ext) : ext :=
  match a, b with
  | EF x, EF y => EF (x + y)
  | ENaN, _ | _, ENaN | EPI, ENI | ENI, EPI => ENaN
  | EPI, _ | _, EPI => EPI
  | ENI, _ | _, ENI => ENI
  end.
Definition ext_opp (a : ext) : ext :=
  match a with EF x => EF (- x) | EPI => ENI | ENI => EPI | ENaN => ENaN end.
(* a finite number times an extended one *)
Definition ext_scale (x : R) (a : ext) : ext :=
  match a with
  | EF y => EF (x * y)
  | ENaN => ENaN
  | _ => if rltb 0 x then a else if rltb x 0 then ext_opp a else ENaN
  end.
Definition ext_mul (a b : ext) : ext :=
  match a, b with
  | EF x, _ => ext_scale x b
  | _, EF y => ext_scale y a
  | ENaN, _ | _, ENaN => ENaN
  | EPI, EPI | ENI, ENI => EPI
  | _, _ => ENI
  end.
(* numpy float division *)
Definition ext_div (x y : R) : ext :=
  if reqb y 0 then if rltb 0 x then EPI else if rltb x 0 then ENI else ENaN else EF (x / y).
(* np.log *)
Definition ext_log (a : ext) : ext :=
  match a with
  | EF x => if rltb 0 x then EF (ln x) else if reqb x 0 then ENI else ENaN
  | EPI => EPI
  | _ => ENaN
  end.
(* numpy/Python comparison a < b: false whenever a NaN is involved *)
Definition ext_ltb (a b : ext) : bool :=
  match a, b with
  | EF x, EF y => rltb x y
  | ENI, EF _ | ENI, EPI | EF _, EPI => true
  | _, _ => false
  end.
Definition rsum (l : list R) : R := fold_right Rplus 0 l.
Definition ext_sum (l : list ext) : ext := fold_right ext_add (EF 0) l.
