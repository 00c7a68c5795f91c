(* Iteration settings, thinning and warm starts: theorems. *)
From Verif Require Import Prelude Numpy Rng M_Weights M_Niw M_Utils M_Mix M_Query S_Oracle S_Mix S_Map S_Chain S_MixEx P_MixEx P_Chain P_ChainEx.
Open Scope Q_scope.

(* ---- C74 ---- *)

Theorem c74_saved_states_are_visited_states :
  
  forall E c fuel y ig warm meth o s g s' g', fit_gibbs E c fuel y ig warm meth o s g = (Ok tt, s', g') ->
  exists tr s1 l, replay E c fuel y ig warm meth (n_sweeps (s_total s) (s_burn s)) o s g = (Ok tr, s1, g') /\
    length tr = ((if warm then 0 else 1) + n_sweeps (s_total s) (s_burn s))%nat /\
    s_sims s' = (if warm then s_sims s else []) ++ l /\ thinned (s_burn s) (s_sub s) (swept_states warm tr) l /\
    get_run_params s' = get_run_params s1.
Proof. exact c74_saved_proof. Qed.
Print Assumptions c74_saved_states_are_visited_states.

Theorem c74_settings_do_not_change_the_chain :
  
  forall E c fuel y ig warm meth n t b u o s g r s1 g1,
  warm = true \/ meth <> IVariational \/ t = s_total s ->
  replay E c fuel y ig warm meth n o s g = (r, s1, g1) ->
  exists s2, replay E c fuel y ig warm meth n o (with_settings t b u s) g = (r, s2, g1) /\ get_run_params s2 = get_run_params s1.
Proof. exact c74_settings_proof. Qed.
Print Assumptions c74_settings_do_not_change_the_chain.

Theorem c74_more_sweeps_extend_the_chain :
  
  forall E c fuel y ig warm meth n m o s g tr s1 g1,
  replay E c fuel y ig warm meth (n + m) o s g = (Ok tr, s1, g1) ->
  exists s2 g2, replay E c fuel y ig warm meth n o s g = (Ok (firstn ((if warm then 0 else 1) + n) tr), s2, g2).
Proof. exact c74_prefix_proof. Qed.
Print Assumptions c74_more_sweeps_extend_the_chain.

Theorem c74_thinning_selects :
  
  forall E c fuel y ig meth b u o s g s1 g1 s2 g2, (0 <= b <= s_total s)%Z -> (0 < u)%Z ->
  fit_gibbs E c fuel y ig false meth o (with_settings (s_total s) 0 1 s) g = (Ok tt, s1, g1) ->
  fit_gibbs E c fuel y ig false meth o (with_settings (s_total s) b u s) g = (Ok tt, s2, g2) ->
  g2 = g1 /\ get_run_params s2 = get_run_params s1 /\
  forall k, nth_error (s_sims s2) k = nth_error (s_sims s1) (Z.to_nat b + k * Z.to_nat u).
Proof. exact c74_thin_proof. Qed.
Print Assumptions c74_thinning_selects.

Theorem c74_longer_run_extends :
  
  forall E c fuel y ig meth t b u o s g s1 g1 s2 g2, meth <> IVariational -> (0 <= b <= t)%Z -> (t <= s_total s)%Z -> (0 < u)%Z ->
  fit_gibbs E c fuel y ig false meth o (with_settings t b u s) g = (Ok tt, s1, g1) ->
  fit_gibbs E c fuel y ig false meth o (with_settings (s_total s) b u s) g = (Ok tt, s2, g2) ->
  s_sims s1 = firstn (length (s_sims s1)) (s_sims s2).
Proof. exact c74_longer_proof. Qed.
Print Assumptions c74_longer_run_extends.

Theorem c74_total_with_variational_start_refuted :
  
  exists E c fuel o s0 g0 s1 g1 s2 g2 r1 r2,
  valid_oracle o /\ new_mix c 0 2 None 1 None None 1 0 1 o = Ok (s0, g0) /\
  fit_gibbs E c fuel y3 SNone false IVariational o s0 g0 = (Ok tt, s1, g1) /\
  fit_gibbs E c fuel y3 SNone false IVariational o (with_settings 2 0 1 s0) g0 = (Ok tt, s2, g2) /\
  nth_error (s_sims s1) 0 = Some r1 /\ nth_error (s_sims s2) 0 = Some r2 /\ r_theta r1 <> r_theta r2.
Proof. exact c74_variational_refuted_proof. Qed.
Print Assumptions c74_total_with_variational_start_refuted.

Example c74_nontrivial : exists s g s1 g1 s2 g2 s3 g3 r1 r2, IKmeans <> IVariational /\ (0 <= 1 <= s_total s)%Z /\ (0 < 2)%Z /\ (0 <= 0 <= 3)%Z /\ (3 <= s_total s)%Z /\
  fit_gibbs flat_env (CDP 1) 60 y3 SNone false IKmeans o_vary (with_settings (s_total s) 0 1 s) g = (Ok tt, s1, g1) /\
  fit_gibbs flat_env (CDP 1) 60 y3 SNone false IKmeans o_vary (with_settings (s_total s) 1 2 s) g = (Ok tt, s2, g2) /\
  fit_gibbs flat_env (CDP 1) 60 y3 SNone false IKmeans o_vary (with_settings 3 0 1 s) g = (Ok tt, s3, g3) /\ s_sims s2 = [r1; r2] /\ r_u r1 <> r_u r2.
Proof.
  destruct chain_facts as (s0 & g0 & s1 & g1 & s2 & g2 & s3 & g3 & r1 & r2 & r3 & _ & F1 & F2 & F3 & T & L & _ & D).
  exists s0, g0, s1, g1, s2, g2, s3, g3, r1, r2. rewrite T. split; [discriminate|]. split; [lia|]. split; [lia|]. split; [lia|]. split; [lia|].
  split; [exact F1|]. split; [exact F2|]. split; [exact F3|]. split; [exact L|exact D].
Qed.
Example c74_replay_nontrivial : exists s g tr s1 g1, replay flat_env (CDP 1) 60 y3 SNone false IKmeans (2 + 3) o_vary s g = (Ok tr, s1, g1) /\ length tr = 6%nat.
Proof.
  destruct chain_facts as (s0 & g0 & s1 & g1 & s2 & g2 & s3 & g3 & r1 & r2 & r3 & _ & F1 & _).
  destruct (c74_saved_states_are_visited_states _ _ _ _ _ _ _ _ _ _ _ _ F1) as (tr & a & l & H1 & H2 & _). exists (with_settings 5 0 1 s0), g0, tr, a, g1. split; [exact H1|exact H2].
Qed.
Example c74_thinned_example : forall a b c d e : rparams, thinned 1 2 [(a, LNan); (b, LNan); (c, LNan); (d, LNan); (e, LNan)] [b; d].
Proof. intros a b c d e [|[|k]]; [reflexivity|reflexivity|]. change (Z.to_nat (Z.abs 2)) with 2%nat. change (Z.to_nat 1) with 1%nat. replace (1 + S (S k) * 2)%nat with (S (S (S (S (S (k * 2)))))) by lia. simpl. destruct k; reflexivity. Qed.

(* ---- C75 ---- *)

Theorem c75_warm_start_continues_the_chain :
  
  forall E c fuel y ig warm meth ig2 meth2 t b u o s g s1 g1 s2 g2,
  fit_gibbs E c fuel y ig warm meth o s g = (Ok tt, s1, g1) ->
  fit_gibbs E c fuel y ig2 true meth2 o (with_settings t b u s1) g1 = (Ok tt, s2, g2) ->
  exists tr1 tr2 a1 a2 l1 l2,
    replay E c fuel y ig warm meth (n_sweeps (s_total s) (s_burn s)) o s g = (Ok tr1, a1, g1) /\
    replay E c fuel y ig warm meth (n_sweeps (s_total s) (s_burn s) + n_sweeps t b) o s g = (Ok (tr1 ++ tr2), a2, g2) /\
    get_run_params s1 = get_run_params a1 /\ get_run_params s2 = get_run_params a2 /\
    s_sims s1 = (if warm then s_sims s else []) ++ l1 /\ thinned (s_burn s) (s_sub s) (swept_states warm tr1) l1 /\
    s_sims s2 = s_sims s1 ++ l2 /\ thinned b u tr2 l2.
Proof. exact c75_continue_proof. Qed.
Print Assumptions c75_warm_start_continues_the_chain.

Theorem c75_same_as_one_fit :
  
  forall E c fuel y ig warm meth ig2 meth2 t q u o s g s1 g1 s2 g2 s3 g3, (0 <= t)%Z -> (0 <= q)%Z -> (0 < u)%Z ->
  warm = true \/ meth <> IVariational ->
  fit_gibbs E c fuel y ig warm meth o (with_settings (q * u) 0 u s) g = (Ok tt, s1, g1) ->
  fit_gibbs E c fuel y ig2 true meth2 o (with_settings t 0 u s1) g1 = (Ok tt, s2, g2) ->
  fit_gibbs E c fuel y ig warm meth o (with_settings (q * u + t) 0 u s) g = (Ok tt, s3, g3) ->
  s_sims s3 = s_sims s2 /\ get_run_params s3 = get_run_params s2 /\ g3 = g2.
Proof. exact c75_one_fit_proof. Qed.
Print Assumptions c75_same_as_one_fit.

Theorem c75_burn_in_counts_again_refuted :
  
  exists E c fuel o s0 g0 s1 g1 s2 g2 s3 g3,
  valid_oracle o /\ new_mix c 0 0 None 1 None None 2 1 1 o = Ok (s0, g0) /\
  fit_gibbs E c fuel y3 SNone false IKmeans o s0 g0 = (Ok tt, s1, g1) /\ fit_gibbs E c fuel y3 SNone true IKmeans o s1 g1 = (Ok tt, s2, g2) /\
  fit_gibbs E c fuel y3 SNone false IKmeans o (with_settings 4 1 1 s0) g0 = (Ok tt, s3, g3) /\
  length (s_sims s2) = 2%nat /\ length (s_sims s3) = 3%nat.
Proof. exact c75_burn_refuted_proof. Qed.
Print Assumptions c75_burn_in_counts_again_refuted.

Example c75_nontrivial : exists s g s1 g1 s2 g2 s3 g3 r1 r2 r3, (0 <= 1)%Z /\ (0 <= 2)%Z /\ (0 < 2)%Z /\ (false = true \/ IKmeans <> IVariational) /\
  fit_gibbs flat_env (CDP 1) 60 y3 SNone false IKmeans o_vary (with_settings (2 * 2) 0 2 s) g = (Ok tt, s1, g1) /\
  fit_gibbs flat_env (CDP 1) 60 y3 SNone true IKmeans o_vary (with_settings 1 0 2 s1) g1 = (Ok tt, s2, g2) /\
  fit_gibbs flat_env (CDP 1) 60 y3 SNone false IKmeans o_vary (with_settings (2 * 2 + 1) 0 2 s) g = (Ok tt, s3, g3) /\
  s_sims s2 = [r1; r2; r3] /\ r_u r1 <> r_u r3.
Proof.
  destruct continue_facts as (s0 & g0 & s1 & g1 & s2 & g2 & s3 & g3 & r1 & r2 & r3 & _ & F1 & F2 & F3 & L & D).
  exists s0, g0, s1, g1, s2, g2, s3, g3, r1, r2, r3. split; [lia|]. split; [lia|]. split; [lia|]. split; [right; discriminate|].
  split; [exact F1|]. split; [exact F2|]. split; [exact F3|]. split; [exact L|exact D].
Qed.
