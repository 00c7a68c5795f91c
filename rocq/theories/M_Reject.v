(* Rejection sampling, mixture_models/_utils.py:47-61.  f is a function on exact
   numbers; running out of fuel is Diverge (the loop has no bound). *)
From Verif Require Import Prelude Numpy Rng.
Open Scope Q_scope.
Open Scope m_scope.

(* mixture_models/_utils.py:51-53: size=None *)
Fixpoint rej_loop {S} (fuel : nat) (f : Q -> Q) (max_y a b x y : Q) : M S Q :=
  if qltb (f x) y then
    match fuel with
    | O => fun _ s g => (Diverge, s, g)
    | Datatypes.S n =>
        x' <- unif1 a b ;;
        y' <- unif1 0 max_y ;;
        rej_loop n f max_y a b x' y'
    end
  else ret x.
(* mixture_models/_utils.py:48-54 *)
Definition rejection_sample {S} (fuel : nat) (f : Q -> Q) (max_y a b : Q) : M S Q :=
  x <- unif1 a b ;;
  y <- unif1 0 max_y ;;
  rej_loop fuel f max_y a b x y.

(* y > f(x), elementwise *)
Definition too_high (f : Q -> Q) (x y : list Q) : list bool := map (fun p => qltb (f (fst p)) (snd p)) (combine x y).
Definition count_true (m : list bool) : nat := length (filter (fun b => b) m).
(* x[mask] = new *)
Fixpoint put (mask : list bool) (x new : list Q) : list Q :=
  match mask, x with
  | true :: m, _ :: t => match new with v :: new' => v :: put m t new' | [] => [] end
  | false :: m, v :: t => v :: put m t new
  | _, _ => []
  end.
(* mixture_models/_utils.py:58-60; the mask of line 60 is computed with the x of
   line 60 *)
Fixpoint rej_many_loop {S} (fuel : nat) (f : Q -> Q) (max_y a b : Q) (x y : list Q) : M S (list Q) :=
  let m := too_high f x y in
  if existsb (fun b => b) m then
    match fuel with
    | O => fun _ s g => (Diverge, s, g)
    | Datatypes.S n =>
        xn <- unif_many (repeat (a, b) (count_true m)) ;;
        let x' := put m x xn in
        let m' := too_high f x' y in
        yn <- unif_many (repeat (0, max_y) (count_true m')) ;;
        rej_many_loop n f max_y a b x' (put m' y yn)
    end
  else ret x.
(* mixture_models/_utils.py:55-61: an integer size; a negative one is rejected by
   numpy *)
Definition rejection_sample_many {S} (fuel : nat) (f : Q -> Q) (max_y a b : Q) (size : Z) : M S (list Q) :=
  if (size <? 0)%Z then raise ValueError
  else
    x <- unif_many (repeat (a, b) (Z.to_nat size)) ;;
    y <- unif_many (repeat (0, max_y) (Z.to_nat size)) ;;
    rej_many_loop fuel f max_y a b x y.
