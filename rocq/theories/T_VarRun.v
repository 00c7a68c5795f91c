(* What a variational fit returns and when it stops: C85. *)
From Coq Require Import Reals Lra.
From Verif Require Import Prelude Numpy Rng M_Weights M_Ext M_Var M_VarNum M_VarLoop S_VarNum S_Affine S_VarFin S_VarRun P_Affine3 P_VarRun.
Open Scope R_scope.

Theorem c85_atoms_are_posteriors : forall dg lg eps ovf inv c d y h st total tol w s it e, length (p_mu h) = d -> inverts d inv ->
  var_fit dg lg eps ovf inv c d y h st total tol w = Fin (s, it, e) -> (1 <= it)%nat -> Forall2 (posterior d y h) (rows (f_d s)) (f_theta s).
Proof. exact c85_atoms_proof. Qed.
Print Assumptions c85_atoms_are_posteriors.

Theorem c85_starting_atoms : forall dg lg eps ovf inv c d y h k l tol w s it e, length (p_mu h) = d -> inverts d inv -> length l = length y ->
  var_fit dg lg eps ovf inv c d y h (Labels k l) 0 tol w = Fin (s, it, e) ->
  it = 0%nat /\
  Forall2 (fun j a => posterior d y h (map (fun b => if Nat.eqb b j then 1 else 0) l) a) (seq 0 k) (f_theta s).
Proof. exact c85_start_proof. Qed.
Print Assumptions c85_starting_atoms.

Theorem c85_totals : forall dg lg eps ovf inv c d k y h l total tol w,
  0 < eps -> 0 <= ovf -> (0 < d)%nat -> (0 < k)%nat -> length (p_mu h) = d -> positive_definite d (p_psi h) -> 0 < p_lam h -> inverts_positive d inv -> inverts d inv ->
  labels_ok k (length y) l -> fits_groups k w c -> every_group_used k l -> (1 <= total)%nat ->
  exists s it e, var_fit dg lg eps ovf inv c d y h (Labels k l) total tol w = Fin (s, it, e) /\
  rsum (map ra_lam (f_theta s)) = INR k * p_lam h + INR (length y) /\ rsum (map ra_scale (f_theta s)) = INR k * p_nu h + INR (length y) /\ Forall (fun a => p_lam h < ra_lam a) (f_theta s).
Proof. exact c85_totals_proof. Qed.
Print Assumptions c85_totals.

Theorem c85_when_it_stops : forall dg lg eps ovf inv c d y h st total tol w s it e, var_fit dg lg eps ovf inv c d y h st total tol w = Fin (s, it, e) ->
  exists ss es, init dg eps ovf inv c y h st w = Fin (ss 0%nat) /\ es 0%nat = ENI /\ s = ss it /\ e = es it /\ (it <= total)%nat /\
  (forall i, (i < it)%nat -> iteration dg lg eps ovf inv c d y h (ss i) (ss (S i)) (es (S i))) /\
  (forall i, (1 <= i < it)%nat -> moved_more tol (es (i - 1)%nat) (es i)) /\
  ((it < total)%nat -> (1 <= it)%nat /\ ~ moved_more tol (es (it - 1)%nat) (es it)) /\
  (converged total (s, it, e) = true <-> exists i, (1 <= i < total)%nat /\ (i <= it)%nat /\ ~ moved_more tol (es (i - 1)%nat) (es i)).
Proof. exact c85_stop_proof. Qed.
Print Assumptions c85_when_it_stops.

Theorem c85_default_priors : forall d y lam, (2 <= length y)%nat -> let h := default_prior d y lam in let n := INR (length y) in
  p_lam h = lam /\ p_nu h = INR d /\ (forall i, (i < d)%nat -> n * nth i (p_mu h) 0 = rsum (map (fun x => nth i x 0) y)) /\
  (forall i j, (i < d)%nat -> (j < d)%nat -> (n - 1) * nth j (nth i (p_psi h) []) 0 = rsum (map (fun x => (nth i x 0 - nth i (p_mu h) 0) * (nth j x 0 - nth j (p_mu h) 0)) y)).
Proof. exact c85_default_proof. Qed.
Print Assumptions c85_default_priors.

Example c85_nontrivial : forall dg lg, exists s it e,
  var_fit dg lg (1 / 10) 5 inv2 (CDP 1) 2 [[0; 0]; [2; 0]; [0; 2]] ex_h (Labels 2 [0%nat; 1%nat; 0%nat]) 7 (1 / 100) ex_w = Fin (s, it, e) /\
  inverts 2 inv2 /\ length (p_mu ex_h) = 2%nat /\ rsum (map ra_lam (f_theta s)) = 2 * p_lam ex_h + 3.
Proof.
  intros dg lg. destruct (c85_totals_proof dg lg (1 / 10) 5 inv2 (CDP 1) 2 2 [[0; 0]; [2; 0]; [0; 2]] ex_h [0%nat; 1%nat; 0%nat] 7 (1 / 100) ex_w) as (s & it & e & E & A & _);
    try lra; try lia; try reflexivity.
  - apply pd_diag; lra.
  - simpl; lra.
  - exact inv2_positive.
  - exact inv2_inverts.
  - split; [reflexivity|]. repeat constructor.
  - intros j Hj. destruct j as [|[|]]; [left; reflexivity|right; left; reflexivity|lia].
  - exists s, it, e. split; [exact E|]. split; [exact inv2_inverts|]. split; [reflexivity|]. rewrite A. simpl. lra.
Qed.
Example c85_default_nontrivial : (2 <= length [[0; 0]; [2; 0]; [0; 2]])%nat.
Proof. simpl. lia. Qed.
