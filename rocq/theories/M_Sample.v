(* Gumbel-max sampling and the Dirichlet partition probability, over the reals. *)
From Coq Require Import Reals.
From Verif Require Import Prelude M_Ext.
Open Scope R_scope.

Definition is_nan (x : ext) : bool := match x with ENaN => true | _ => false end.
(* np.argmax of a non-empty vector b :: l: the first NaN if there is one,
   otherwise the first largest entry; [best] is the index of b, [i] that of the
   head of l *)
Fixpoint amax (i best : nat) (b : ext) (l : list ext) : nat :=
  match l with
  | [] => best
  | x :: t => if is_nan b then best
              else if is_nan x then i
              else if ext_ltb b x then amax (S i) i x t else amax (S i) best b t
  end.
(* np.argmax: ValueError for an empty vector *)
Definition np_argmax (l : list ext) : res nat :=
  match l with [] => Err ValueError | b :: t => Ok (amax 1 0 b t) end.

(* logp - np.log(-np.log(u)), mixture_models/_utils.py:36-37 *)
Definition perturbed (lu : ext * R) : ext :=
  ext_add (fst lu) (ext_opp (ext_log (ext_opp (ext_log (EF (snd lu)))))).
(* mixture_models/_utils.py:34-37, one column: size=None and a vector logp; us
   are the uniforms of rng.uniform(size=logp.shape), numbers in [0,1) *)
Definition gumbel_max (logp : list ext) (us : list R) : res nat :=
  np_argmax (map perturbed (combine logp us)).
(* mixture_models/_utils.py:34-37 for a k x n array given by its columns
   (argmax over axis 0) *)
Definition gumbel_max_columns (cols : list (list ext)) (us : list (list R)) : list (res nat) :=
  map (fun cu => gumbel_max (fst cu) (snd cu)) (combine cols us).
(* mixture_models/_utils.py:38-44: an integer size, one vector of uniforms per
   round *)
Definition gumbel_max_many (logp : list ext) (us : list (list R)) : list (res nat) :=
  map (gumbel_max logp) us.

(* utils/functions.py:18-24; the block sizes are natural numbers and loggamma a
   real function (block sizes 0, for which loggamma is inf, are not modelled) *)
Definition dirichlet_log_eppf (lg : R -> R) (alpha : R) (partition : list nat) : R :=
  let k := length partition in
  let n := list_sum partition in
  lg alpha - lg (alpha + INR n) + INR k * ln alpha + rsum (map (fun m => lg (INR m)) partition).
