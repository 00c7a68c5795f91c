(* Specification of the iteration settings: which visited states are saved, and
   what changing total_iter, burn_in and subsample_steps may change. *)
From Verif Require Import Prelude Numpy Rng M_Weights M_Niw M_Utils M_Mix M_Query S_Map.
Open Scope Q_scope.

(* the object with other iteration settings *)
Definition with_settings (t b u : Z) (s : ms) : ms :=
  MS t b u (s_n s) (s_mu s) (s_lam s) (s_psi s) (s_nu s) (s_wm s) (s_y s) (s_dim s) (s_1d s) (s_d s) (s_theta s) (s_gen s) (s_u s)
     (s_aff s) (s_map s) (s_mapll s) (s_saved s) (s_sims s) (s_groups s) (s_atoms s) (s_var s) (s_gfit s) (s_vfit s) (s_vconv s).
(* sweeps of a fit *)
Definition n_sweeps (t b : Z) : nat := (Z.to_nat b + Z.to_nat (t - b))%nat.
(* l is the states after sweeps burn, burn + |sub|, burn + 2 |sub|, ... (from
   0), as long as there are such sweeps *)
Definition thinned (burn sub : Z) (tr : list (rparams * lx)) (l : list rparams) : Prop :=
  forall k, nth_error l k = option_map fst (nth_error tr (Z.to_nat burn + k * Z.to_nat (Z.abs sub))).
(* the visited states after sweeps: without the initial one of a cold start *)
Definition swept_states (warm : bool) (tr : list (rparams * lx)) : list (rparams * lx) := if warm then tr else tl tr.
