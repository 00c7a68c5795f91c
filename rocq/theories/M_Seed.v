(* The rng argument of the constructors. *)
From Verif Require Import Prelude.

(* A numpy Generator is an address in a heap of streams; a stream is what it
   was made from and how many draws were taken from it. *)
Inductive src := Entropy (n : nat) | Seed (z : Z).
Record gen := Gen { gsrc : src; gpos : nat }.
Definition heap := list gen.

(* the values a caller can pass: None, a Python int, a bool, a
   numpy.random.Generator, a numpy integer, a RandomState, anything else *)
Inductive pyval :=
| VNone | VInt (z : Z) | VBool (b : bool) | VGen (a : nat) | VNpInt (z : Z) | VRandomState | VOther.

(* numpy.random.default_rng: a new object *)
Definition default_rng (x : src) (h : heap) : res nat * heap := (Ok (length h), h ++ [Gen x 0]).

(* utils/validators.py:4-11.  default_rng raises ValueError for a negative seed;
   unseeded objects get a stream of their own (named by their address). *)
Definition rng_parser (v : pyval) (h : heap) : res nat * heap :=
  match v with
  | VNone => default_rng (Entropy (length h)) h
  | VInt z => if (z <? 0)%Z then (Err ValueError, h) else default_rng (Seed z) h
  | VGen a => (Ok a, h)
  | _ => (Err TypeError, h)
  end.

(* mixture_models/_dirichlet_process_mixture.py:6-8 and the nine other mixture
   classes: the weight model is built with rng=rng (weight_models/_base.py:16),
   then the mixture with the same argument (mixture_models/_base.py:62).
   The result is (weight model generator, mixture generator). *)
Definition mixture_rngs (v : pyval) (h : heap) : res (nat * nat) * heap :=
  match rng_parser v h with
  | (Ok wa, h1) => match rng_parser v h1 with
      | (Ok ma, h2) => (Ok (wa, ma), h2)
      | (Err e, h2) => (Err e, h2)
      | (Diverge, h2) => (Diverge, h2)
      end
  | (Err e, h1) => (Err e, h1)
  | (Diverge, h1) => (Diverge, h1)
  end.

(* one draw: which element of which stream is consumed *)
Fixpoint set_nth {A} (n : nat) (x : A) (l : list A) : list A :=
  match l, n with
  | [], _ => []
  | _ :: t, O => x :: t
  | y :: t, S m => y :: set_nth m x t
  end.
Definition draw (a : nat) (h : heap) : option (src * nat) * heap :=
  match nth_error h a with
  | Some g => (Some (gsrc g, gpos g), set_nth a (Gen (gsrc g) (S (gpos g))) h)
  | None => (None, h)
  end.

(* a run of draws by the two objects, in the order given *)
Inductive who := Weight | Mixture.
Definition who_eqb (a b : who) : bool := match a, b with Weight, Weight | Mixture, Mixture => true | _, _ => false end.
Fixpoint draws (wa ma : nat) (l : list who) (h : heap) : list (who * option (src * nat)) * heap :=
  match l with
  | [] => ([], h)
  | x :: t => let '(r, h1) := draw (match x with Weight => wa | Mixture => ma end) h in
              let '(rs, h2) := draws wa ma t h1 in ((x, r) :: rs, h2)
  end.
(* the draws of one of the two *)
Definition of_who (x : who) (l : list (who * option (src * nat))) : list (option (src * nat)) :=
  map snd (filter (fun y => who_eqb x (fst y)) l).
