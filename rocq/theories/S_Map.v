(* Specification of the MAP state: the states a Gibbs run visits, and which of
   them is the best. *)
From Verif Require Import Prelude Numpy Rng M_Weights M_Niw M_Utils M_Mix M_Query.
Open Scope Q_scope.
Open Scope m_scope.

Section Replay.
Variables (E : env) (c : cls) (fuel : nat).
(* the parameters and the log likelihood at this point *)
Definition visit : M ms (rparams * lx) := l <- run_loglik E c ;; s <- get ;; ret (get_run_params s, l).
Fixpoint visits (n : nat) : M ms (list (rparams * lx)) :=
  match n with
  | O => ret []
  | S m => gibbs_step E c fuel ;; p <- visit ;; t <- visits m ;; ret (p :: t)
  end.
(* a run of n sweeps that saves nothing and keeps no MAP state *)
Definition replay (y : yarg) (ig : pysize) (warm : bool) (meth : vmethod) (n : nat) : M ms (list (rparams * lx)) :=
  init_common y ;;
  t0 <- (if warm then ret [] else init_gibbs E c fuel ig meth ;; p <- visit ;; ret [p]) ;;
  t <- visits n ;;
  ret (t0 ++ t).
End Replay.

(* r, l is the MAP state after visiting tr, starting from r0, l0: either the
   first visited state with the largest likelihood, which exceeds l0, or no
   visited state exceeds l0; then the likelihood stays, and so does the state,
   except that at -inf the last visited state is taken *)
Definition is_best (r0 : option rparams) (l0 : lx) (tr : list (rparams * lx)) (r : option rparams) (l : lx) : Prop :=
  (exists i p, nth_error tr i = Some (p, l) /\ r = Some p /\ lx_ltb l0 l = true /\
     (forall j q, nth_error tr j = Some q -> lx_ltb l (snd q) = false) /\
     (forall j q, (j < i)%nat -> nth_error tr j = Some q -> snd q = LNan \/ lx_ltb (snd q) l = true)) \/
  ((forall j q, nth_error tr j = Some q -> lx_ltb l0 (snd q) = false) /\ l = l0 /\
   r = match l0, rev tr with LNeg, p :: _ => Some (fst p) | _, _ => r0 end).
