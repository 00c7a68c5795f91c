(* Gumbel-max sampling, partition probabilities and rejection sampling: theorems. *)
From Coq Require Import Reals Permutation Lra Lqa.
From Verif Require Import Prelude Numpy Rng M_Ext M_Sample M_Reject S_Var S_Oracle S_Sample S_Reject P_Var P_Var31 P_Sample P_Race P_Eppf P_Reject.
Open Scope R_scope.

(* ---- C46 ---- *)

Theorem c46_exponential_race :
  
  forall logp us j, proper logp -> length us = length logp -> open_unit us ->
  (gumbel_max logp us = Ok j <-> wins logp us j).
Proof. exact c46_race_proof. Qed.
Print Assumptions c46_exponential_race.

Theorem c46_returns_an_index :
  
  forall logp us, logp <> [] -> length us = length logp -> exists j, gumbel_max logp us = Ok j /\ (j < length logp)%nat.
Proof. exact c46_total_proof. Qed.
Print Assumptions c46_returns_an_index.

Theorem c46_support :
  
  forall logp us j, proper logp -> length us = length logp -> open_unit us ->
  (exists r, In (EF r) logp) -> gumbel_max logp us = Ok j -> exists r, nth j logp ENI = EF r.
Proof. exact c46_support_proof. Qed.
Print Assumptions c46_support.

Theorem c46_volume :
  
  forall logp j r, proper logp -> (j < length logp)%nat -> nth j logp ENI = EF r ->
  sliced_volume (length logp) j (fun us => gumbel_max logp us = Ok j) (exp r / total logp).
Proof. exact c46_volume_proof. Qed.
Print Assumptions c46_volume.

Theorem c46_nan_wins :
  
  forall logp us j, length us = length logp -> open_unit us -> In ENaN logp -> gumbel_max logp us = Ok j -> nth j logp ENI = ENaN.
Proof. exact c46_nan_proof. Qed.
Print Assumptions c46_nan_wins.

Theorem c46_zero_draw_refuted :
  
  exists logp us j r, proper logp /\ length us = length logp /\ Forall (fun u => 0 <= u < 1) us /\
  In (EF r) logp /\ gumbel_max logp us = Ok j /\ nth j logp ENI = ENI.
Proof. exact c46_zero_draw_refuted_proof. Qed.
Print Assumptions c46_zero_draw_refuted.

Example c46_nontrivial : let logp := [EF 0; ENI; EF (ln 2)] in proper logp /\ length [1/2; 1/4; 1/3] = length logp /\ open_unit [1/2; 1/4; 1/3] /\
  In (EF 0) logp /\ total logp = 3 /\ exp (ln 2) / total logp = 2 / 3 /\ (exists j, gumbel_max logp [1/2; 1/4; 1/3] = Ok j).
Proof.
  cbv zeta. split; [constructor; [right; eexists; reflexivity|constructor; [left; reflexivity|constructor; [right; eexists; reflexivity|constructor]]]|].
  split; [reflexivity|]. split; [repeat constructor; Lra.lra|]. split; [left; reflexivity|]. assert (T : total [EF 0; ENI; EF (ln 2)] = 3) by (unfold total; simpl; rewrite exp_0, exp_ln; Lra.lra).
  split; [exact T|]. split; [rewrite T, exp_ln; Lra.lra|]. destruct (c46_total_proof [EF 0; ENI; EF (ln 2)] [1/2; 1/4; 1/3]) as (j & H & _); [discriminate|reflexivity|]. exists j. exact H.
Qed.
Example c46_race_nontrivial : wins [EF 0; EF 0] [1/2; 1/4] 0.
Proof.
  pose proof (ln_increasing (1/4) (1/2) ltac:(Lra.lra) ltac:(Lra.lra)). split; [simpl; lia|]. split; [|intros; lia]. unfold pw. intros [|[|i]] Hi; simpl in *; try lia; rewrite exp_0; Lra.lra.
Qed.
Example c46_nan_nontrivial : In ENaN [EF 0; ENaN; EPI] /\ open_unit [1/2; 1/4; 1/3].
Proof. split; [simpl; auto|repeat constructor; Lra.lra]. Qed.

(* ---- C55 ---- *)

Theorem c55_symmetric :
  
  forall lg alpha ns ns', Permutation ns ns' -> dirichlet_log_eppf lg alpha ns = dirichlet_log_eppf lg alpha ns'.
Proof. exact c55_symmetric_proof. Qed.
Print Assumptions c55_symmetric.

Theorem c55_addition_rule :
  
  forall lg alpha ns, log_gamma_like lg -> 0 < alpha -> blocks ns ->
  exp (dirichlet_log_eppf lg alpha ns) =
  rsum (map (fun j => exp (dirichlet_log_eppf lg alpha (grow j ns))) (seq 0 (length ns))) + exp (dirichlet_log_eppf lg alpha (ns ++ [1%nat])).
Proof. exact c55_addition_proof. Qed.
Print Assumptions c55_addition_rule.

Theorem c55_one_block :
  
  forall lg alpha, log_gamma_like lg -> 0 < alpha -> exp (dirichlet_log_eppf lg alpha [1%nat]) = 1.
Proof. exact c55_first_proof. Qed.
Print Assumptions c55_one_block.

Theorem c55_ewens_formula :
  
  forall lg alpha ns, log_gamma_like lg -> 0 < alpha -> blocks ns -> exp (dirichlet_log_eppf lg alpha ns) = ewens alpha ns.
Proof. exact c55_ewens_proof. Qed.
Print Assumptions c55_ewens_formula.

Example c55_nontrivial : (exists lg, log_gamma_like lg) /\ blocks [2; 1; 3]%nat /\ grow 1 [2; 1; 3]%nat = [2; 2; 3]%nat /\ Permutation [2; 1]%nat [1; 2]%nat /\ ewens 1 [2; 1]%nat = 1 / 6.
Proof.
  split; [apply log_gamma_exists|]. split; [repeat constructor|]. split; [reflexivity|]. split; [apply perm_swap|]. unfold ewens. simpl. Lra.lra.
Qed.

(* ---- C56 ---- *)
Open Scope Q_scope.

Theorem c56_first_accepted :
  
  forall fuel f max_y a b o g x g',
  rejection_sample fuel f max_y a b o tt g = (Ok x, tt, g') <->
  exists n, (n <= fuel)%nat /\ accepted o g max_y a b f n /\ (forall m, (m < n)%nat -> ~ accepted o g max_y a b f m) /\
    x = prop_x o g max_y a b n /\ g' = after g max_y a b (S n).
Proof. exact c56_first_accepted_proof. Qed.
Print Assumptions c56_first_accepted.

Theorem c56_runs_on :
  
  forall fuel f max_y a b o g r g', rejection_sample fuel f max_y a b o tt g = (r, tt, g') ->
  (r = Diverge <-> forall m, (m <= fuel)%nat -> ~ accepted o g max_y a b f m) /\ forall e, r <> Err e.
Proof. exact c56_runs_on_proof. Qed.
Print Assumptions c56_runs_on.

Theorem c56_in_range :
  
  forall fuel f max_y a b o g x g', valid_oracle o -> a < b ->
  rejection_sample fuel f max_y a b o tt g = (Ok x, tt, g') -> a <= x /\ x < b.
Proof. exact c56_range_proof. Qed.
Print Assumptions c56_in_range.

Theorem c56_many_under_graph :
  
  forall fuel f max_y a b size o g xs g', rejection_sample_many fuel f max_y a b size o tt g = (Ok xs, tt, g') ->
  (0 <= size)%Z /\ exists ys, length xs = Z.to_nat size /\ length ys = Z.to_nat size /\
    (forall i, (i < length xs)%nat -> nth i ys 0 <= f (nth i xs 0)) /\
    (valid_oracle o -> a < b -> Forall (fun v => a <= v /\ v < b) xs) /\
    (valid_oracle o -> 0 < max_y -> Forall (fun v => 0 <= v /\ v < max_y) ys).
Proof. exact c56_many_proof. Qed.
Print Assumptions c56_many_under_graph.

Theorem c56_many_fresh_pairs_refuted :
  
  exists o f max_y a b fuel xs g', valid_oracle o /\ a < b /\ 0 < max_y /\ (forall x, 0 < f x /\ f x <= max_y) /\
  rejection_sample_many fuel f max_y a b 1 o tt [] = (Ok xs, tt, g') /\
  ~ exists y, drawn_after o g' max_y a b (nth 0 xs 0) y.
Proof. exact c56_stale_refuted_proof. Qed.
Print Assumptions c56_many_fresh_pairs_refuted.

Example c56_nontrivial : let o := unif_oracle (fun n => match n with 0%nat => 0 | 1%nat => 3 # 4 | 2%nat => 1 # 4 | 3%nat => 1 # 4 | _ => 1 # 2 end) in
  let f := fun x => if qltb x (1 # 2) then 1 else 2 in valid_oracle o /\
  (exists x g', rejection_sample 1 f 2 0 1 o tt [] = (Ok x, tt, g') /\ x == 1 # 4 /\ length g' = 4%nat) /\
  (exists g', rejection_sample 0 f 2 0 1 o tt [] = (Diverge, tt, g')) /\
  (exists xs g', rejection_sample_many 3 f 2 0 1 2 o tt [] = (Ok xs, tt, g') /\ length xs = 2%nat).
Proof.
  cbv zeta. split; [apply unif_oracle_valid; intros [|[|[|[|]]]]; lra|]. split; [eexists _, _; split; [vm_compute; reflexivity|split; reflexivity]|].
  split; [eexists; vm_compute; reflexivity|]. eexists _, _; split; [vm_compute; reflexivity|reflexivity].
Qed.
