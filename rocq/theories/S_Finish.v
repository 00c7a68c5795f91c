(* Spec notions for C94: when fits finish. *)
From Verif Require Import Prelude Numpy Rng M_Weights M_Niw M_Utils M_Mix.
Open Scope Q_scope.

(* the numerical routines called by a fit return or raise *)
Definition env_returns (E : env) : Prop :=
  (forall y a, e_logpdf E y a <> Diverge) /\ (forall m, e_inv E m <> Diverge) /\ (forall y x, e_vd E y x <> Diverge) /\
  (forall y h D, e_vtheta E y h D <> Diverge) /\ (forall y h x, e_elbo E y h x <> Diverge).

(* a new object, and an object after any number of fits (Gibbs or variational,
   cold or warm) that all returned *)
Inductive after_fits (E : env) (c : cls) (fuel : nat) (o : oracle) : ms -> rng -> Prop :=
| af_new : forall parg narg mu lam psi nu total burn sub s g,
    0 <= parg <= 1 -> new_mix c parg narg mu lam psi nu total burn sub o = Ok (s, g) -> after_fits E c fuel o s g
| af_fit : forall op s g s' g', after_fits E c fuel o s g ->
    exec_mop E c fuel op o s g = (Ok tt, s', g') -> after_fits E c fuel o s' g'.

(* the call does not return within the fuel *)
Definition diverges {A S} (x : res A * S * rng) : Prop := fst (fst x) = Diverge.
