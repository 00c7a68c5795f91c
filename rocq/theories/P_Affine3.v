From Coq Require Import Reals Lra Permutation.
From Verif Require Import Prelude Numpy Rng M_Weights M_Ext M_Var M_VarNum M_VarLoop S_VarNum S_Affine S_VarFin P_Affine P_Affine2 P_VarFin.
Open Scope R_scope.

(* ---- default priors ---- *)
Lemma moved_tab2 a t d g : length t = d -> moved a t (map g (seq 0 d)) = map (fun i => a * g i + nth i t 0) (seq 0 d).
Proof.
  intro Lt. apply nth_ext with (d := 0) (d' := 0).
  - rewrite moved_len, !map_length; [reflexivity|rewrite map_length, seq_length; congruence].
  - intros i Hi. rewrite moved_len in Hi by (rewrite map_length, seq_length; congruence). rewrite map_length, seq_length in Hi.
    rewrite moved_nth by (rewrite map_length, seq_length; congruence). rewrite (nth_tab g d i Hi), (nth_tab (fun i => a * g i + nth i t 0) d i Hi). reflexivity.
Qed.
Lemma sum_moved a t sg y (f g : list R -> R) : Permutation sg (seq 0 (length y)) -> (forall x, In x y -> f (moved a t x) = g x) ->
  rsum (map f (moved_data a t sg y)) = rsum (map g y).
Proof.
  intros P H. unfold moved_data. rewrite (rsum_perm _ (map f (map (moved a t) y))).
  - rewrite map_map. apply rsum_ext. exact H.
  - apply Permutation_map, reorder_perm. rewrite map_length. exact P.
Qed.
Lemma default_moved a t sg d y lam : Permutation sg (seq 0 (length y)) -> data_shape d y -> length t = d -> (2 <= length y)%nat ->
  default_prior d (moved_data a t sg y) lam = moved_prior a t (default_prior d y lam).
Proof.
  intros P Sh Lt N. unfold data_shape in Sh. rewrite Forall_forall in Sh.
  assert (L : length (moved_data a t sg y) = length y) by (unfold moved_data; rewrite reorder_len, (Permutation_length P); apply seq_length).
  assert (Nn : 2 <= INR (length y)) by (replace 2 with (INR 2) by (simpl; lra); apply le_INR; exact N).
  assert (M : forall i, rsum (map (fun x => nth i x 0) (moved_data a t sg y)) / INR (length y) = a * (rsum (map (fun x => nth i x 0) y) / INR (length y)) + nth i t 0).
  { intro i. rewrite (sum_moved a t sg y _ (fun x => a * nth i x 0 + nth i t 0) P).
    - rewrite rsum_add, rsum_mult. assert (C : rsum (map (fun _ : list R => nth i t 0) y) = INR (length y) * nth i t 0).
      { clear. induction y as [|x y IH]; [simpl; lra|]. cbn [map length]. rewrite S_INR. simpl rsum. rewrite IH. lra. }
      rewrite C. field. lra.
    - intros x Hx. apply moved_nth. rewrite (Sh x Hx). congruence. }
  unfold default_prior. cbv zeta. rewrite L. unfold moved_prior. simpl. rewrite (moved_tab2 a t d _ Lt). f_equal.
  - apply map_ext. intro i. apply M.
  - unfold scaled. rewrite map_map. apply map_ext. intro i. rewrite map_map. apply map_ext. intro j. rewrite (M i), (M j).
    set (mi := rsum (map (fun x => nth i x 0) y) / INR (length y)). set (mj := rsum (map (fun x => nth j x 0) y) / INR (length y)).
    rewrite (sum_moved a t sg y _ (fun x => (a * a) * ((nth i x 0 - mi) * (nth j x 0 - mj))) P).
    + rewrite rsum_mult. unfold Rdiv. ring.
    + intros x Hx. rewrite !moved_nth by (rewrite (Sh x Hx); congruence). ring.
Qed.
Lemma default_shape d y lam : length (p_mu (default_prior d y lam)) = d /\ square_mat d (p_psi (default_prior d y lam)).
Proof.
  unfold default_prior. cbv zeta. simpl. split; [rewrite map_length; apply seq_length|]. split; [rewrite map_length; apply seq_length|].
  rewrite Forall_forall. intros r Hr. apply in_map_iff in Hr. destruct Hr as [i [<- _]]. rewrite map_length. apply seq_length.
Qed.
Lemma c81_default_proof : forall dg lg eps ovf inv c a t sg d y lam st total tol w,
  a <> 0 -> Permutation sg (seq 0 (length y)) -> data_shape d y -> length t = d -> (2 <= length y)%nat -> inverts d inv -> start_shape d (length y) st ->
  same_outcome a t sg (bound_change (groups_of st) d a)
    (var_fit dg lg eps ovf inv c d y (default_prior d y lam) st total tol w)
    (var_fit dg lg eps ovf inv c d (moved_data a t sg y) (default_prior d (moved_data a t sg y) lam) (moved_start a t sg st) total tol w).
Proof.
  intros. destruct (default_shape d y lam). rewrite default_moved by assumption. apply c81_equivariant_proof; assumption.
Qed.

(* ---- 2 x 2 inverses ---- *)
Definition inv2 (m : list (list R)) : option (list (list R)) :=
  match m with
  | [[a; b]; [c; e]] => if reqb (a * e - b * c) 0 then None
                        else Some [[e / (a * e - b * c); - b / (a * e - b * c)]; [- c / (a * e - b * c); a / (a * e - b * c)]]
  | _ => None
  end.
Lemma square2 m : square_mat 2 m -> exists a b c e, m = [[a; b]; [c; e]].
Proof.
  intros [L F]. destruct m as [|r [|q [|]]]; try discriminate. pose proof (Forall_inv F) as A. pose proof (Forall_inv (Forall_inv_tail F)) as B. simpl in A, B.
  destruct r as [|x [|z [|]]]; try discriminate. destruct q as [|u [|v [|]]]; try discriminate. exists x, z, u, v. reflexivity.
Qed.
Lemma sq2 a b c e : square_mat 2 [[a; b]; [c; e]].
Proof. split; [reflexivity|]. repeat constructor. Qed.
Lemma prod2 a b c e x z u v : product_is_one 2 [[a; b]; [c; e]] [[x; z]; [u; v]] <-> a * x + b * u = 1 /\ a * z + b * v = 0 /\ c * x + e * u = 0 /\ c * z + e * v = 1.
Proof.
  split.
  - intro H. pose proof (H 0%nat 0%nat ltac:(lia) ltac:(lia)) as H1. pose proof (H 0%nat 1%nat ltac:(lia) ltac:(lia)) as H2. pose proof (H 1%nat 0%nat ltac:(lia) ltac:(lia)) as H3.
    pose proof (H 1%nat 1%nat ltac:(lia) ltac:(lia)) as H4. simpl in H1, H2, H3, H4. lra.
  - intros (H1 & H2 & H3 & H4) i j Hi Hj. destruct i as [|[|]]; [| |lia]; (destruct j as [|[|]]; [| |lia]); simpl; lra.
Qed.
Lemma inv2_inverts : inverts 2 inv2.
Proof.
  intros m p Sm. destruct (square2 m Sm) as (a & b & c & e & ->). unfold inv2. unfold reqb. split.
  - destruct (Req_EM_T (a * e - b * c) 0) as [E|E]; [discriminate|]. intro H. injection H as <-. split; [apply sq2|]. rewrite !prod2. repeat split; field; exact E.
  - intros (Sp & P1 & P2). destruct (square2 p Sp) as (x & z & u & v & ->). rewrite prod2 in P1, P2. destruct P1 as (A1 & A2 & A3 & A4).
    assert (D : (a * e - b * c) * (x * v - z * u) = 1).
    { replace ((a * e - b * c) * (x * v - z * u)) with ((a * x + b * u) * (c * z + e * v) - (a * z + b * v) * (c * x + e * u)) by ring. rewrite A1, A2, A3, A4. ring. }
    destruct (Req_EM_T (a * e - b * c) 0) as [E|E]; [rewrite E in D; lra|].
    assert (X1 : (a * e - b * c) * x = e) by (replace ((a * e - b * c) * x) with (e * (a * x + b * u) - b * (c * x + e * u)) by ring; rewrite A1, A3; ring).
    assert (X2 : (a * e - b * c) * z = - b) by (replace ((a * e - b * c) * z) with (e * (a * z + b * v) - b * (c * z + e * v)) by ring; rewrite A2, A4; ring).
    assert (X3 : (a * e - b * c) * u = - c) by (replace ((a * e - b * c) * u) with (a * (c * x + e * u) - c * (a * x + b * u)) by ring; rewrite A1, A3; ring).
    assert (X4 : (a * e - b * c) * v = a) by (replace ((a * e - b * c) * v) with (a * (c * z + e * v) - c * (a * z + b * v)) by ring; rewrite A2, A4; ring).
    assert (G : forall q r, (a * e - b * c) * q = r -> r / (a * e - b * c) = q) by (intros q r <-; field; exact E).
    rewrite (G _ _ X1), (G _ _ X2), (G _ _ X3), (G _ _ X4). reflexivity.
Qed.
Lemma inv2_positive : inverts_positive 2 inv2.
Proof.
  intros m [Sm P]. destruct (square2 m Sm) as (a & b & c & e & ->). unfold inv2, reqb. destruct (Req_EM_T (a * e - b * c) 0) as [E|E].
  - exfalso. pose proof (P (fun i => match i with O => 1 | _ => 0 end) ltac:(exists 0%nat; split; [lia|lra])) as P1. simpl in P1.
    assert (A : 0 < a) by lra.
    pose proof (P (fun i => match i with O => - b | _ => a end) ltac:(exists 1%nat; split; [lia|lra])) as P2. simpl in P2.
    assert (Z : - b * a * - b + (- b * b * a + 0) + (a * c * - b + (a * e * a + 0) + 0) = a * (a * e - b * c)) by ring. rewrite E in Z. lra.
  - eexists. split; [reflexivity|]. split; [apply sq2|]. rewrite prod2. repeat split; field; exact E.
Qed.
Lemma pd_diag a e : 0 < a -> 0 < e -> positive_definite 2 [[a; 0]; [0; e]].
Proof.
  intros A E. split; [apply sq2|]. intros u (i & Hi & Hu). simpl.
  replace (u 0%nat * a * u 0%nat + (u 0%nat * 0 * u 1%nat + 0) + (u 1%nat * 0 * u 0%nat + (u 1%nat * e * u 1%nat + 0) + 0)) with (a * (u 0%nat * u 0%nat) + e * (u 1%nat * u 1%nat)) by ring.
  pose proof (Rle_0_sqr (u 0%nat)) as S0. pose proof (Rle_0_sqr (u 1%nat)) as S1. unfold Rsqr in S0, S1.
  assert (Pp : 0 < u i * u i) by (destruct (Rtotal_order (u i) 0) as [Q|[Q|Q]]; [nra|contradiction|nra]).
  pose proof (Rmult_le_pos _ _ (Rlt_le _ _ A) S0). pose proof (Rmult_le_pos _ _ (Rlt_le _ _ E) S1).
  destruct i as [|[|]]; [| |lia].
  - pose proof (Rmult_lt_0_compat _ _ A Pp). lra.
  - pose proof (Rmult_lt_0_compat _ _ E Pp). lra.
Qed.

(* ---- mirror images ---- *)
Lemma init_theta dg eps ovf inv c y h k l w s : init dg eps ovf inv c y h (Labels k l) w = Fin s -> new_theta inv y h (hot k l) = Fin (f_theta s).
Proof.
  unfold init. destruct (new_w c (Mat (repeat [] k) 0) w) as [w0| |]; try discriminate. simpl obind at 1. destruct (new_theta inv y h (hot k l)) as [th| |]; try discriminate. simpl.
  destruct (new_d dg eps ovf c y w0 th) as [D| |]; try discriminate. simpl. destruct (new_w c D w0) as [w1| |]; try discriminate. simpl. intro H. injection H as <-. reflexivity.
Qed.
Lemma mirror_matrix a : a * a = 1 -> theta_matrix [[a; 1]] (VP [0; 0] 1 [[1; 0]; [0; 1]] 2) [1] = [[2; 1]; [1; 2]].
Proof.
  intro A. unfold theta_matrix, mentry, wsum, xbar. simpl. unfold xbar, wsum. simpl.
  replace (1 / (1 + 0)) with 1 by lra.
  assert (E : forall z q, (1 * ((a - (1 * a + 0)) * z) + 0) / (1 + 0) + q = q) by (intros; field).
  f_equal; [f_equal; [|f_equal]|f_equal; f_equal; [|f_equal]]; try reflexivity; field_simplify; replace (a ^ 2) with (a * a) by ring; rewrite ?A; lra.
Qed.
Definition ex_h : vprior := VP [0; 0] 1 [[1; 0]; [0; 1]] 2.
Definition ex_w : vs := VS None None PNone 1.
Lemma mirror_row a : a * a = 1 -> exists mu lam sc, theta_row inv2 [[a; 1]] ex_h [1] = Fin (RA mu lam [[2 / 3; - 1 / 3]; [- 1 / 3; 2 / 3]] sc).
Proof.
  intro A. unfold theta_row. unfold ex_h. rewrite (mirror_matrix a A). cbv zeta. change (rsum [1]) with (1 + 0). change (p_lam (VP [0; 0] 1 [[1; 0]; [0; 1]] 2)) with 1.
  unfold inv2, reqb. destruct (Req_EM_T (1 + 0) 0) as [X|_]; [lra|]. destruct (Req_EM_T (1 + (1 + 0)) 0) as [X|_]; [lra|]. destruct (Req_EM_T (2 * 2 - 1 * 1) 0) as [X|_]; [lra|].
  cbn [orb]. eexists _, _, _. f_equal. f_equal. f_equal; [f_equal; [|f_equal]|f_equal; f_equal; [|f_equal]]; field.
Qed.
Lemma mirror_theta a dg lg eps ovf w : a * a = 1 -> 0 < eps -> 0 <= ovf ->
  exists s it e, var_fit dg lg eps ovf inv2 CEqual 2 [[a; 1]] ex_h (Labels 1 [0%nat]) 0 0 w = Fin (s, it, e) /\
  exists mu lam sc, f_theta s = [RA mu lam [[2 / 3; - 1 / 3]; [- 1 / 3; 2 / 3]] sc].
Proof.
  intros A He Ho.
  destruct (c82_finite_proof dg lg eps ovf inv2 CEqual 2 1 [[a; 1]] ex_h [0%nat] 0 0 w) as (s & it & e & E & _); try assumption; try lia; try reflexivity.
  - apply pd_diag; lra.
  - simpl; lra.
  - apply inv2_positive.
  - split; [reflexivity|]. repeat constructor.
  - intros j Hj. left. lia.
  - exists s, it, e. split; [exact E|]. unfold var_fit in E. destruct (init dg eps ovf inv2 CEqual [[a; 1]] ex_h (Labels 1 [0%nat]) w) as [s0| |] eqn:Ei; try discriminate.
    simpl in E. injection E as <- _ _. apply init_theta in Ei. destruct (mirror_row a A) as (mu & lam & sc & Er).
    unfold new_theta, hot, rows in Ei. change (map (theta_row inv2 [[a; 1]] ex_h) (map (fun j => map (fun b => if Nat.eqb b j then 1 else 0) [0%nat]) (seq 0 1))) with [theta_row inv2 [[a; 1]] ex_h [1]] in Ei.
    rewrite Er in Ei. injection Ei as Ei. exists mu, lam, sc. symmetry. exact Ei.
Qed.
Lemma c81_mirror_refuted_proof : forall dg lg eps ovf, 0 < eps -> 0 <= ovf ->
  exists inv y h w s s' it it' e e', inverts 2 inv /\ inverts_positive 2 inv /\ data_shape 2 y /\ positive_definite 2 (p_psi h) /\ 0 < p_lam h /\
  var_fit dg lg eps ovf inv CEqual 2 y h (Labels 1 [0%nat]) 0 0 w = Fin (s, it, e) /\
  var_fit dg lg eps ovf inv CEqual 2 (map mirrored y) (mirrored_prior h) (Labels 1 [0%nat]) 0 0 w = Fin (s', it', e') /\
  f_theta s' <> map mirrored_atom (f_theta s).
Proof.
  intros dg lg eps ovf He Ho.
  destruct (mirror_theta 1 dg lg eps ovf ex_w ltac:(lra) He Ho) as (s & it & e & E & mu & lam & sc & T).
  destruct (mirror_theta (- (1)) dg lg eps ovf ex_w ltac:(lra) He Ho) as (s' & it' & e' & E' & mu' & lam' & sc' & T').
  exists inv2, [[1; 1]], ex_h, ex_w, s, s', it, it', e, e'. split; [exact inv2_inverts|]. split; [exact inv2_positive|]. split; [repeat constructor|]. split; [apply pd_diag; lra|]. split; [simpl; lra|].
  split; [exact E|]. split.
  - replace (mirrored_prior ex_h) with ex_h; [exact E'|]. unfold mirrored_prior, ex_h. simpl. rewrite Ropp_0. reflexivity.
  - rewrite T, T'. simpl. intro H. injection H. intros. lra.
Qed.
