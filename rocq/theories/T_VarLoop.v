(* Variational fits with their numbers: C81 and C82. *)
From Coq Require Import Reals Lra Permutation.
From Verif Require Import Prelude Numpy Rng M_Weights M_Ext M_Var M_VarNum M_VarLoop S_VarNum S_Affine S_VarFin P_Affine2 P_VarFin P_Affine3.
Open Scope R_scope.

(* ---------- C81 ---------- *)
Theorem c81_unit_origin_order : forall dg lg eps ovf inv c a t sg d y h st total tol w,
  a <> 0 -> Permutation sg (seq 0 (length y)) -> data_shape d y -> length t = d -> length (p_mu h) = d -> square_mat d (p_psi h) ->
  inverts d inv -> start_shape d (length y) st ->
  same_outcome a t sg (bound_change (groups_of st) d a)
    (var_fit dg lg eps ovf inv c d y h st total tol w)
    (var_fit dg lg eps ovf inv c d (moved_data a t sg y) (moved_prior a t h) (moved_start a t sg st) total tol w).
Proof. exact c81_equivariant_proof. Qed.
Print Assumptions c81_unit_origin_order.

Theorem c81_default_priors : forall dg lg eps ovf inv c a t sg d y lam st total tol w,
  a <> 0 -> Permutation sg (seq 0 (length y)) -> data_shape d y -> length t = d -> (2 <= length y)%nat -> inverts d inv -> start_shape d (length y) st ->
  same_outcome a t sg (bound_change (groups_of st) d a)
    (var_fit dg lg eps ovf inv c d y (default_prior d y lam) st total tol w)
    (var_fit dg lg eps ovf inv c d (moved_data a t sg y) (default_prior d (moved_data a t sg y) lam) (moved_start a t sg st) total tol w).
Proof. exact c81_default_proof. Qed.
Print Assumptions c81_default_priors.

(* the mirror image of the data has another fit *)
Theorem c81_mirror_refuted : forall dg lg eps ovf, 0 < eps -> 0 <= ovf ->
  exists inv y h w s s' it it' e e', inverts 2 inv /\ inverts_positive 2 inv /\ data_shape 2 y /\ positive_definite 2 (p_psi h) /\ 0 < p_lam h /\
  var_fit dg lg eps ovf inv CEqual 2 y h (Labels 1 [0%nat]) 0 0 w = Fin (s, it, e) /\
  var_fit dg lg eps ovf inv CEqual 2 (map mirrored y) (mirrored_prior h) (Labels 1 [0%nat]) 0 0 w = Fin (s', it', e') /\
  f_theta s' <> map mirrored_atom (f_theta s).
Proof. exact c81_mirror_refuted_proof. Qed.
Print Assumptions c81_mirror_refuted.

(* ---------- C82 ---------- *)
Theorem c82_positive_responsibilities : forall dg lg eps ovf inv c d k y h l total tol w,
  0 < eps -> 0 <= ovf -> (0 < d)%nat -> (0 < k)%nat -> length (p_mu h) = d -> positive_definite d (p_psi h) -> 0 < p_lam h -> inverts_positive d inv ->
  labels_ok k (length y) l -> fits_groups k w c -> every_group_used k l ->
  exists s it e, var_fit dg lg eps ovf inv c d y h (Labels k l) total tol w = Fin (s, it, e) /\ probabilities k (length y) (f_d s) /\ length (f_theta s) = k.
Proof. exact c82_finite_proof. Qed.
Print Assumptions c82_positive_responsibilities.

Theorem c82_nan_iff_empty_group : forall dg lg eps ovf inv c d k y h l total tol w,
  0 < eps -> 0 <= ovf -> (0 < d)%nat -> (0 < k)%nat -> length (p_mu h) = d -> positive_definite d (p_psi h) -> 0 < p_lam h -> inverts_positive d inv ->
  labels_ok k (length y) l -> fits_groups k w c ->
  (var_fit dg lg eps ovf inv c d y h (Labels k l) total tol w = NotANumber <-> ~ every_group_used k l).
Proof. exact c82_nan_proof. Qed.
Print Assumptions c82_nan_iff_empty_group.

Theorem c82_few_distinct_values : forall dg lg eps ovf inv c d k y z h l total tol w,
  0 < eps -> 0 <= ovf -> (0 < d)%nat -> (0 < k)%nat -> length (p_mu h) = d -> positive_definite d (p_psi h) -> 0 < p_lam h -> inverts_positive d inv ->
  labels_ok k (length y) l -> fits_groups k w c -> respects y l -> covers z y -> (length z < k)%nat ->
  var_fit dg lg eps ovf inv c d y h (Labels k l) total tol w = NotANumber.
Proof. exact c82_duplicates_proof. Qed.
Print Assumptions c82_few_distinct_values.

(* ---------- concrete cases ---------- *)
Definition ex_y : list (list R) := [[0; 0]; [2; 0]; [0; 2]].
Example c82_nontrivial_fit : forall dg lg, exists s it e,
  var_fit dg lg (1 / 10) 5 inv2 (CDP 1) 2 ex_y ex_h (Labels 2 [0%nat; 1%nat; 0%nat]) 7 (1 / 100) ex_w = Fin (s, it, e) /\ probabilities 2 3 (f_d s).
Proof.
  intros dg lg. destruct (c82_finite_proof dg lg (1 / 10) 5 inv2 (CDP 1) 2 2 ex_y ex_h [0%nat; 1%nat; 0%nat] 7 (1 / 100) ex_w) as (s & it & e & E & P & _);
    try lra; try lia; try reflexivity.
  - apply pd_diag; lra.
  - simpl; lra.
  - exact inv2_positive.
  - split; [reflexivity|]. repeat constructor.
  - intros j Hj. destruct j as [|[|]]; [left; reflexivity|right; left; reflexivity|lia].
  - exists s, it, e. split; [exact E|exact P].
Qed.
Example c82_nontrivial_nan : forall dg lg,
  var_fit dg lg (1 / 10) 5 inv2 (CDP 1) 2 [[0; 1]; [0; 1]; [3; 1]] ex_h (Labels 3 [0%nat; 0%nat; 2%nat]) 7 (1 / 100) ex_w = NotANumber.
Proof.
  intros dg lg. apply (c82_duplicates_proof dg lg (1 / 10) 5 inv2 (CDP 1) 2 3 [[0; 1]; [0; 1]; [3; 1]] [[0; 1]; [3; 1]] ex_h);
    try lra; try lia; try reflexivity.
  - apply pd_diag; lra.
  - simpl; lra.
  - exact inv2_positive.
  - split; [reflexivity|]. repeat constructor.
  - intros i j Hi Hj. simpl in Hi, Hj. destruct i as [|[|[|]]]; [| | |lia]; (destruct j as [|[|[|]]]; [| | |lia]); simpl; intro H; try reflexivity; injection H; intros; lra.
  - intros x [<-|[<-|[<-|[]]]]; simpl; tauto.
  - simpl. lia.
Qed.
Example c81_nontrivial : forall dg lg, exists s it e s' it' e',
  -3 <> 0 /\ Permutation [2%nat; 0%nat; 1%nat] (seq 0 (length ex_y)) /\ data_shape 2 ex_y /\ inverts 2 inv2 /\
  var_fit dg lg (1 / 10) 5 inv2 (CDP 1) 2 ex_y ex_h (Labels 2 [0%nat; 1%nat; 0%nat]) 7 (1 / 100) ex_w = Fin (s, it, e) /\
  var_fit dg lg (1 / 10) 5 inv2 (CDP 1) 2 [[5; 1]; [5; 7]; [-1; 7]] (VP [5; 7] 1 [[9; 0]; [0; 9]] 2) (Labels 2 [0%nat; 0%nat; 1%nat]) 7 (1 / 100) ex_w = Fin (s', it', e') /\
  it' = it /\ e' = ext_add e (EF (1 / 2 * ln 9)).
Proof.
  intros dg lg. destruct (c82_nontrivial_fit dg lg) as (s & it & e & E & _).
  assert (P : Permutation [2%nat; 0%nat; 1%nat] (seq 0 (length ex_y))).
  { simpl. eapply perm_trans; [apply perm_swap|]. apply perm_skip. apply perm_swap. }
  assert (D : data_shape 2 ex_y) by repeat constructor.
  pose proof (c81_equivariant_proof dg lg (1 / 10) 5 inv2 (CDP 1) (-3) [5; 7] [2%nat; 0%nat; 1%nat] 2 ex_y ex_h (Labels 2 [0%nat; 1%nat; 0%nat]) 7 (1 / 100) ex_w
    ltac:(lra) P D eq_refl eq_refl (sq2 _ _ _ _) inv2_inverts eq_refl) as Q.
  rewrite E in Q.
  replace (moved_data (-3) [5; 7] [2%nat; 0%nat; 1%nat] ex_y) with [[5; 1]; [5; 7]; [-1; 7]] in Q
    by (unfold moved_data, moved, reorder, ex_y; simpl; repeat (f_equal; try lra)).
  replace (moved_prior (-3) [5; 7] ex_h) with (VP [5; 7] 1 [[9; 0]; [0; 9]] 2) in Q
    by (unfold moved_prior, moved, scaled, ex_h; simpl; repeat (f_equal; try lra)).
  change (moved_start (-3) [5; 7] [2%nat; 0%nat; 1%nat] (Labels 2 [0%nat; 1%nat; 0%nat])) with (Labels 2 [0%nat; 0%nat; 1%nat]) in Q.
  match type of Q with same_outcome _ _ _ _ _ ?r => destruct r as [[[s' it'] e']| |] eqn:E' end; simpl in Q; try contradiction.
  destruct Q as (_ & Q1 & Q2). exists s, it, e, s', it', e'. split; [lra|]. split; [exact P|]. split; [exact D|]. split; [exact inv2_inverts|]. split; [exact E|]. split; [reflexivity|].
  split; [exact Q1|]. rewrite Q2. f_equal. unfold bound_change. simpl. f_equal. replace (-3 * -3) with 9 by lra. lra.
Qed.
Example c81_nontrivial_default : (2 <= length ex_y)%nat /\ p_mu (default_prior 2 ex_y 1) = [2 / 3; 2 / 3] /\ p_psi (default_prior 2 ex_y 1) = [[4 / 3; - 2 / 3]; [- 2 / 3; 4 / 3]].
Proof.
  split; [simpl; lia|]. split; simpl.
  - f_equal; [field|f_equal; field].
  - f_equal; [f_equal; [field|f_equal; field]|f_equal; f_equal; [field|f_equal; field]].
Qed.
