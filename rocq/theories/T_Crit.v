(* Property theorems: the number by which the MAP state is chosen. *)
From Verif Require Import Prelude Numpy Rng M_Weights M_Niw M_Utils M_Mix M_Query S_Oracle S_Mix S_MixEx S_Map S_Crit P_MixEx P_Fresh P_Crit.
Open Scope Q_scope.

(* ---- C86 ---- *)

Theorem c86_visit :
  forall E lp, rowwise E lp -> forall c o s g r l s' g', visit E c o s g = (Ok (r, l), s', g') -> complete_loglik E lp (s_y s') r l.
Proof. exact c86_visit_proof. Qed.
Print Assumptions c86_visit.

Theorem c86_all_visited :
  forall E lp, rowwise E lp -> forall c fuel y ig warm meth n o s g tr s' g', replay E c fuel y ig warm meth n o s g = (Ok tr, s', g') ->
  Forall (fun p => complete_loglik E lp (rows_of y) (fst p) (snd p)) tr.
Proof. exact c86_visited_proof. Qed.
Print Assumptions c86_all_visited.

Theorem c86_map_maximises :
  forall E lp, rowwise E lp -> forall c fuel y ig meth o s g s' g', s_map s = None -> s_mapll s = LNeg ->
  fit_gibbs E c fuel y ig false meth o s g = (Ok tt, s', g') ->
  exists tr s1 r l, replay E c fuel y ig false meth (Z.to_nat (s_burn s) + Z.to_nat (s_total s - s_burn s)) o s g = (Ok tr, s1, g') /\
    s_map s' = Some r /\ In (r, l) tr /\ complete_loglik E lp (rows_of y) r l /\
    forall r2 l2, In (r2, l2) tr -> complete_loglik E lp (rows_of y) r2 l2 /\ lx_ltb l l2 = false.
Proof. exact c86_map_proof. Qed.
Print Assumptions c86_map_maximises.

Example c86_rowwise : rowwise steep_env (fun r _ => LQ (vat r 0)).
Proof. intros rows a l [= <-]. reflexivity. Qed.
Example c86_nontrivial : let s := fst (ex_run steep_env (CDP 1) 0 3 1 1 o_half []) in
  s_map s = None /\ s_mapll s = LNeg /\
  exists s' g' r, fit_gibbs steep_env (CDP 1) 60 y3 SNone false IKmeans o_half s [] = (Ok tt, s', g') /\ s_map s' = Some r /\ length (r_d r) = 3%nat.
Proof. split; [vm_compute; reflexivity|]. split; [vm_compute; reflexivity|]. eexists _, _, _. split; [vm_compute; reflexivity|]. split; [reflexivity|reflexivity]. Qed.
(* two rows, labels 1 and 0, log weights -1 and -2, log densities 3 and 4 *)
Example c86_number : complete_loglik (Build_env (fun rows _ => Ok (map (fun r => LQ (vat r 0)) rows)) (fun q => LQ (- (1 / q))) (fun _ => []) Ok (fun _ _ => Ok []) (fun _ _ _ => Ok []) (fun _ _ _ => Ok (LQ 0)))
  (fun r _ => LQ (vat r 0)) [[3]; [4]] (RP [1; 1 # 2] [(0%nat, ([0], [])); (1%nat, ([1], []))] [] [1%nat; 0%nat]) (LQ 4).
Proof.
  split; [reflexivity|]. eexists [_; _]. split.
  - constructor; [eexists _, _; split; [reflexivity|split; reflexivity]|]. constructor; [eexists _, _; split; [reflexivity|split; reflexivity]|constructor].
  - reflexivity.
Qed.
