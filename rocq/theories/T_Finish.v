(* C94: when a fit finishes.  The only unbounded loop of a fit is the one of
   tail; the model bounds it by [fuel] and reports Diverge when it runs out. *)
From Verif Require Import Prelude Numpy Rng M_Weights M_Niw M_Utils M_Mix S_Oracle S_Weights S_Hist S_MixEx S_Finish P_MixEx P_FitEnd2.
Open Scope Q_scope.

(* fuel is no approximation: a fit that ends within it is the same fit under
   every larger bound *)
Theorem c94_fuel : forall E c f f' op o s g, (f <= f')%nat -> ~ diverges (exec_mop E c f op o s g) ->
  exec_mop E c f' op o s g = exec_mop E c f op o s g.
Proof. exact c94_fuel_proof. Qed.
Print Assumptions c94_fuel.

(* fixed-size and geometric weights: every fit, in any history (exceptions
   caught), ends *)
Theorem c94_bounded : forall E c fuel o, env_returns E -> valid_oracle o -> fixed_ok c \/ (exists a b, c = CGeom a b) ->
  forall parg narg mu lam psi nu total burn sub s0 g0 ops s g op,
  new_mix c parg narg mu lam psi nu total burn sub o = Ok (s0, g0) -> run_mops E c fuel ops o s0 g0 = (s, g) ->
  ~ diverges (exec_mop E c fuel op o s g).
Proof. exact c94_bounded_proof. Qed.
Print Assumptions c94_bounded.

(* drawn sticks: if no stick is shorter than delta, N passes of the loop are
   enough for every slice of every fit, where (1 - delta)^N <= eps *)
Theorem c94_sticks : forall E c fuel o delta N, env_returns E -> valid_oracle o -> drawn_sticks c ->
  0 <= delta -> (forall g a b, delta <= o_beta o g a b) -> qpow (1 - delta) N <= eps -> (N <= fuel)%nat ->
  forall s g, after_fits E c fuel o s g -> forall op, ~ diverges (exec_mop E c fuel op o s g).
Proof. exact c94_sticks_proof. Qed.
Print Assumptions c94_sticks.

(* sticks of length zero: the first fit of a DirichletProcess mixture never
   ends, whatever the data *)
Theorem c94_zero_sticks_never_end : forall E al parg narg mu lam psi nu total burn sub o s0 g0 row rows k meth fuel,
  valid_oracle o -> 0 < al -> (forall g a b, o_beta o g a b == 0) ->
  new_mix (CDP al) parg narg mu lam psi nu total burn sub o = Ok (s0, g0) ->
  diverges (fit_gibbs E (CDP al) fuel (YArr2 (row :: rows) k) SNone false meth o s0 g0).
Proof. exact c94_endless_proof. Qed.
Print Assumptions c94_zero_sticks_never_end.

(* halves: 52 passes suffice; a fit that ends uses them; zeros are admissible *)
Example c94_ex : env_returns flat_env /\ valid_oracle o_half /\ drawn_sticks (CPY (1 # 4) 1) /\
  (forall g a b, (1 # 2) <= o_beta o_half g a b) /\ qpow (1 - (1 # 2)) 52 <= eps.
Proof.
  split; [split; [discriminate|split; [discriminate|split; [|split; discriminate]]]; intros y x; simpl; destruct (vk x); discriminate|]. split; [exact o_half_valid|]. split; [exact I|]. split; [intros; apply Qle_refl|vm_compute; discriminate].
Qed.
Example c94_ex_run :
  match new_mix (CPY (1 # 4) 1) 0 0 None 1 None None 3 1 1 o_half with
  | Ok (s, g) => match exec_mop flat_env (CPY (1 # 4) 1) 52 (cold y3) o_half s g with
      | (Ok _, t, _) => (1 < length (w (s_wm t)))%nat | _ => False end /\
      diverges (exec_mop flat_env (CPY (1 # 4) 1) 0 (cold y3) o_half s g)
  | _ => False end.
Proof. vm_compute. split; [apply Nat.ltb_lt; reflexivity|reflexivity]. Qed.
Example c94_ex_zero : valid_oracle (const_oracle 0) /\ forall g a b, o_beta (const_oracle 0) g a b == 0.
Proof. split; [apply const_oracle_valid; split; discriminate|reflexivity]. Qed.
