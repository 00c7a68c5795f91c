(* Specification: what a fit_gibbs(warm_start=False) may depend on. *)
From Verif Require Import Prelude Numpy Rng M_Weights M_Niw M_Utils M_Mix M_Query.
Open Scope Q_scope.

(* the object without the data, labels, atoms, slices, saved states, counters,
   affinities and the Gibbs flag; what remains are the settings, priors, weight
   model, MAP state and the variational results *)
Definition without_run (s : ms) : ms :=
  upd_flags false (s_vfit s) (s_vconv s) (upd_y [] 0 true (upd_d None (upd_theta [] (upd_gen false (upd_u [] (upd_aff [] (upd_sims 0 [] [] [] s))))))).

(* the data given to a fit *)
Definition mop_data (op : mop) : yarg := match op with MGibbs y _ _ _ => y | MVar y _ _ _ _ => y end.
