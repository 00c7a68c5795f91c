(* Substrate: Python outcomes, a state/exception monad, Python argument kinds. *)
From Coq Require Export List Arith ZArith QArith Lia Bool.
Export ListNotations.
Open Scope nat_scope.

(* Exceptions raised by the modelled Python code or by the numpy/scipy calls it
   makes. *)
Inductive exn :=
| ValueError | TypeError | IndexError | KeyError | AttributeError
| AssertionError | NotImplementedError | NotFittedError | ZeroDivisionError
| OverflowError | AxisError.

(* Outcome of a call: a value, an exception, or "still running" (the loop fuel
   given to the model ran out; a theorem that speaks about termination
   quantifies over the fuel). *)
Inductive res (A : Type) :=
| Ok (a : A) | Err (e : exn) | Diverge.
Arguments Ok {A} a. Arguments Err {A} e. Arguments Diverge {A}.

Definition is_ok {A} (r : res A) : bool := match r with Ok _ => true | _ => false end.

Definition exn_eqb (a b : exn) : bool :=
  match a, b with
  | ValueError, ValueError | TypeError, TypeError | IndexError, IndexError
  | KeyError, KeyError | AttributeError, AttributeError
  | AssertionError, AssertionError | NotImplementedError, NotImplementedError
  | NotFittedError, NotFittedError | ZeroDivisionError, ZeroDivisionError
  | OverflowError, OverflowError | AxisError, AxisError => true
  | _, _ => false
  end.

(* A Python argument that is expected to be an integer size.
   The code distinguishes None, exact `int`, `np.int64` and anything else:
   weight_models/_base.py:66, _dirichlet_process.py:28-30. *)
Inductive pysize := SNone | SInt (z : Z) | SNp64 (z : Z) | SOther.

(* The integer carried by a size argument, if any. *)
Definition size_val (s : pysize) : option Z :=
  match s with SInt z | SNp64 z => Some z | _ => None end.

Definition is_snone (s : pysize) : bool := match s with SNone => true | _ => false end.

(* l[:z] for a Python integer z (negative z counts from the end). *)
Definition py_take {A} (z : Z) (l : list A) : list A :=
  if (0 <=? z)%Z then firstn (Z.to_nat z) l
  else firstn (length l - Z.to_nat (- z)) l.

Definition is_nil {A} (l : list A) : bool := match l with [] => true | _ => false end.
