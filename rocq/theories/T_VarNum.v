(* Responsibilities, parametric densities and the lower bound: theorems. *)
From Coq Require Import Reals Lra.
From Verif Require Import Prelude M_Ext M_Sample M_VarNum S_Var S_Sample S_VarNum P_Var P_Var31 P_Eppf P_Sample P_VarNum P_Density P_Elbo.
Open Scope R_scope.

(* ---- C50 ---- *)

Theorem c50_probability_vector :
  
  forall eps ovf l, 0 < eps -> 0 <= ovf -> proper l -> (exists r, In (EF r) l) ->
  exists rs, resp_col eps ovf l = map EF rs /\ length rs = length l /\ prob_vector rs /\ monotone_in l rs /\
    (forall j, (j < length l)%nat -> eps / (INR (length l) * (1 + eps)) <= nth j rs 0) /\
    (forall j, (j < length l)%nat -> Rabs (nth j rs 0 - softmax l j) <= INR (length l) * eps).
Proof. exact c50_probability_proof. Qed.
Print Assumptions c50_probability_vector.

Theorem c50_otherwise_nan :
  
  forall eps ovf l, ~ (proper l /\ exists r, In (EF r) l) -> forall a, In a (resp_col eps ovf l) -> a = ENaN.
Proof. exact c50_otherwise_nan_proof. Qed.
Print Assumptions c50_otherwise_nan.

Theorem c50_label :
  
  forall eps ovf l j, 0 < eps -> 0 <= ovf -> proper l -> (exists r, In (EF r) l) -> (np_argmax (resp_col eps ovf l) = Ok j <-> first_best l j).
Proof. exact c50_label_proof. Qed.
Print Assumptions c50_label.

Theorem c50_responsibilities :
  
  forall dg eps ovf mlw theta y, 0 < eps -> 0 <= ovf -> length mlw = length theta -> theta <> [] ->
  Forall (fun e => exists m, e = EF m) mlw -> Forall (fun a => 0 < norm2 (ra_prec a)) theta ->
  length (update_d dg eps ovf mlw theta y) = length y /\
  Forall (fun col => exists rs, col = map EF rs /\ length rs = length theta /\ prob_vector rs /\ Forall (fun r => eps / (INR (length theta) * (1 + eps)) <= r) rs) (update_d dg eps ovf mlw theta y).
Proof. exact c50_update_d_proof. Qed.
Print Assumptions c50_responsibilities.

Theorem c50_score :
  
  forall dg m a x k, square_mat k (ra_prec a) -> length x = k -> 0 < det_of (ra_prec a) -> 0 < norm2 (ra_prec a) ->
  exists s, score dg (EF m) a x = EF s /\
  (s = expected_log_joint dg k m x (ra_mu a) (ra_lam a) (ra_prec a) (ra_scale a) <-> sqrt (norm2 (ra_prec a)) = det_of (ra_prec a)).
Proof. exact c50_score_proof. Qed.
Print Assumptions c50_score.

Theorem c50_score_one_dimension :
  
  forall dg m a x, square_mat 1 (ra_prec a) -> length x = 1%nat -> 0 < det_of (ra_prec a) ->
  score dg (EF m) a x = EF (expected_log_joint dg 1 m x (ra_mu a) (ra_lam a) (ra_prec a) (ra_scale a)).
Proof. exact c50_score_one_dim_proof. Qed.
Print Assumptions c50_score_one_dimension.

Theorem c50_mean_centred :
  
  forall eps ovf xs c, 0 < eps -> xs <> [] -> r_mean xs c -> (forall x, In x xs -> x - c <= ovf) ->
  let l := map EF xs in
  exists rs, resp_col_mean eps ovf l = map EF rs /\ length rs = length l /\ prob_vector rs /\ monotone_in l rs /\
    (forall j, (j < length l)%nat -> Rabs (nth j rs 0 - softmax l j) <= eps).
Proof. exact c50_mean_proof. Qed.
Print Assumptions c50_mean_centred.

Theorem c50_mean_centred_label :
  
  forall eps ovf xs c j, 0 < eps -> xs <> [] -> r_mean xs c -> (forall x, In x xs -> x - c <= ovf) ->
  (np_argmax (resp_col_mean eps ovf (map EF xs)) = Ok j <-> first_best (map EF xs) j).
Proof. exact c50_mean_label_proof. Qed.
Print Assumptions c50_mean_centred_label.

Theorem c50_same_label :
  
  forall dg eps ovf mlw theta x, 0 < eps -> 0 <= ovf -> length mlw = length theta -> theta <> [] ->
  Forall (fun e => exists m, e = EF m) mlw -> Forall (fun a => 0 < norm2 (ra_prec a) /\ ra_lam a <> 0) theta ->
  forall xs c j, map (fun ma => score dg (fst ma) (snd ma) x) (combine mlw theta) = map EF xs -> r_mean xs c -> (forall s, In s xs -> s - c <= ovf) ->
  (new_labels dg eps ovf mlw theta [x] = [Ok j] <-> map np_argmax (update_d dg eps ovf mlw theta [x]) = [Ok j]).
Proof. exact c50_same_label_proof. Qed.
Print Assumptions c50_same_label.

Theorem c50_mean_centred_overflow :
  
  forall eps ovf xs c j, xs <> [] -> r_mean xs c -> (j < length xs)%nat -> ovf < nth j xs 0 - c -> (forall i, (i < j)%nat -> nth i xs 0 - c <= ovf) ->
  np_argmax (resp_col_mean eps ovf (map EF xs)) = Ok j /\ nth_error (resp_col_mean eps ovf (map EF xs)) j = Some ENaN.
Proof. exact c50_mean_overflow_proof. Qed.
Print Assumptions c50_mean_centred_overflow.

Theorem c50_mean_centred_label_refuted :
  
  forall eps ovf, 0 < eps -> 0 <= ovf -> exists l j, Forall (fun s => exists x, s = EF x) l /\ np_argmax (resp_col_mean eps ovf l) = Ok j /\ ~ first_best l j /\ ~ (exists rs, resp_col_mean eps ovf l = map EF rs) /\ (exists j', np_argmax (resp_col eps ovf l) = Ok j' /\ first_best l j').
Proof. exact c50_mean_label_refuted_proof. Qed.
Print Assumptions c50_mean_centred_label_refuted.

Example c50_nontrivial : proper [EF 1; ENI; EF 2] /\ (exists r, In (EF r) [EF 1; ENI; EF 2]) /\ first_best [EF 1; ENI; EF 2] 2 /\ ~ (proper [EPI] /\ exists r, In (EF r) [EPI]).
Proof.
  split; [constructor; [right; eexists; reflexivity|constructor; [left; reflexivity|constructor; [right; eexists; reflexivity|constructor]]]|].
  split; [exists 1; simpl; auto|]. pose proof (exp_increasing 1 2 ltac:(lra)). pose proof (exp_pos 2). pose proof (exp_pos 1). split.
  - split; [simpl; lia|]. unfold pw. split; intros [|[|[|i]]] Hi; simpl in *; try lia; lra.
  - intros [_ [r [H3|[]]]]. discriminate H3.
Qed.
Example c50_mean_nontrivial : r_mean [1; 2; 6] 3 /\ (forall x, In x [1; 2; 6] -> x - 3 <= 700) /\ [1; 2; 6] <> [].
Proof. split; [unfold r_mean; simpl; lra|]. split; [intros x [<-|[<-|[<-|[]]]]; lra|discriminate]. Qed.
Example c50_overflow_nontrivial : r_mean [0; 1; -3001] (-1000) /\ 700 < nth 0 [0; 1; -3001] 0 - -1000 /\ ~ first_best (map EF [0; 1; -3001]) 0.
Proof.
  split; [unfold r_mean; simpl; lra|]. split; [simpl; lra|]. intros (_ & H & _). specialize (H 1%nat ltac:(simpl; lia)). unfold pw in H. simpl in H. pose proof (exp_increasing 0 1 ltac:(lra)). lra.
Qed.
Example c50_atoms_nontrivial : let a := RA [0] 1 [[2]] 3 in let b := RA [1] 1 [[1 / 2]] 3 in
  Forall (fun a => 0 < norm2 (ra_prec a) /\ ra_lam a <> 0) [a; b] /\ Forall (fun e => exists m, e = EF m) [EF (-1); EF (-2)] /\ square_mat 1 (ra_prec a) /\ 0 < det_of (ra_prec a) /\
  sqrt (norm2 (ra_prec a)) = det_of (ra_prec a).
Proof.
  cbv zeta. split; [repeat constructor; unfold norm2; simpl; lra|]. split; [repeat constructor; eexists; reflexivity|]. split; [split; [reflexivity|repeat constructor]|].
  split; [unfold det_of; simpl; lra|]. unfold norm2, det_of; simpl. replace (2 * 2 + 0 + 0) with (2 * 2) by ring. rewrite sqrt_square by lra. ring.
Qed.
Example c50_wrong_score : let p := [[1; 0]; [0; 1]] in square_mat 2 p /\ 0 < det_of p /\ 0 < norm2 p /\ sqrt (norm2 p) <> det_of p.
Proof.
  cbv zeta. split; [split; [reflexivity|repeat constructor]|]. assert (D : det_of [[1; 0]; [0; 1]] = 1) by (unfold det_of; simpl; ring). assert (N : norm2 [[1; 0]; [0; 1]] = 2) by (unfold norm2; simpl; ring).
  rewrite D, N. split; [lra|]. split; [lra|]. intros H. pose proof (sqrt_sqrt 2 ltac:(lra)). rewrite H in H0. lra.
Qed.

(* ---- C53 ---- *)

Theorem c53_normal_density :
  
  forall x mu p k, square_mat k p -> length x = k -> 0 < det_of p ->
  density_normal x mu p = normal_pdf k x mu p * sqrt (sqrt (norm2 p) / det_of p) /\
  (density_normal x mu p = normal_pdf k x mu p <-> sqrt (norm2 p) = det_of p).
Proof. exact c53_normal_proof. Qed.
Print Assumptions c53_normal_density.

Theorem c53_normal_density_one_dimension :
  
  forall x mu q, 0 < q -> density_normal [x] [mu] [[q]] = sqrt (q / (2 * PI)) * exp (- (q * ((x - mu) * (x - mu))) / 2).
Proof. exact c53_normal_one_dim_proof. Qed.
Print Assumptions c53_normal_density_one_dimension.

Theorem c53_normal_density_identity :
  
  forall k x mu, (2 <= k)%nat -> length x = k ->
  density_normal x mu (scalar_mat k 1) = sqrt (sqrt (INR k)) * normal_pdf k x mu (scalar_mat k 1) /\ normal_pdf k x mu (scalar_mat k 1) < density_normal x mu (scalar_mat k 1).
Proof. exact c53_normal_identity_proof. Qed.
Print Assumptions c53_normal_density_identity.

Theorem c53_student_density :
  
  forall lg gam x mu p nu k, (forall z, 0 < z -> exp (lg z) = gam z) -> square_mat k p -> length x = k -> 0 < det_of p -> 0 < nu ->
  density_students_t lg x mu p nu = student_pdf gam k x mu p nu * sqrt (sqrt (norm2 p) / det_of p) /\
  (density_students_t lg x mu p nu = student_pdf gam k x mu p nu <-> sqrt (norm2 p) = det_of p) /\
  (k = 1%nat -> density_students_t lg x mu p nu = student_pdf gam k x mu p nu).
Proof. exact c53_student_proof. Qed.
Print Assumptions c53_student_density.

Example c53_nontrivial : (exists lg gam, log_gamma_like lg /\ forall z, 0 < z -> exp (lg z) = gam z) /\ square_mat 2 [[2; 1]; [1; 2]] /\ det_of [[2; 1]; [1; 2]] = 3 /\ norm2 [[2; 1]; [1; 2]] = 10.
Proof.
  split; [destruct log_gamma_exists as [lg L]; exists lg, (fun z => exp (lg z)); auto|]. split; [split; [reflexivity|repeat constructor]|]. split; [unfold det_of; simpl; ring|unfold norm2; simpl; ring].
Qed.

(* ---- C66 ---- *)

Theorem c66_data_term :
  
  forall dg d y D theta, state_ok d y D theta ->
  e_q_log_p_x dg d y D theta (length theta) = EF (rsum (map (fun rf => group_term dg d y rf / rsum (fst rf)) (combine D (map factor_of theta)))).
Proof. exact c66_data_term_proof. Qed.
Print Assumptions c66_data_term.

Theorem c66_one_group :
  
  forall dg d y a n, y <> [] -> det_is_norm d (ra_prec a) -> n = length y ->
  exists e, e_q_log_p_x dg d y [repeat 1 n] [a] 1 = EF e /\ true_px dg d y [repeat 1 n] [factor_of a] = INR n * e.
Proof. exact c66_single_group_proof. Qed.
Print Assumptions c66_one_group.

Theorem c66_prior_term :
  
  forall dg lg d theta h, Forall (fun a => det_is_norm d (ra_prec a)) theta -> det_is_norm d (rp_inv h) ->
  e_log_p_theta dg lg d h theta (length theta) = EF (true_ptheta dg lg d (rp_mu h) (rp_lam h) (rp_psi h) (rp_inv h) (rp_nu h) (map factor_of theta)).
Proof. exact c66_prior_term_proof. Qed.
Print Assumptions c66_prior_term.

Theorem c66_atom_entropy :
  
  forall dg lg d theta, Forall (fun a => det_is_norm d (ra_prec a)) theta ->
  e_log_q_theta dg lg d theta (length theta) = EF (true_qtheta dg lg d (map factor_of theta) + rsum (map (fun a => INR d + wishart_entropy dg lg d (factor_of a) / 2) theta)).
Proof. exact c66_atom_entropy_proof. Qed.
Print Assumptions c66_atom_entropy.

Theorem c66_gap :
  
  forall dg lg d y D theta h pz pw qw, state_ok d y D theta -> det_is_norm d (rp_inv h) ->
  exists e, calc_elbo dg lg d y D theta (length theta) h (EF pz) (EF pw) (EF qw) = EF e /\
  e - true_elbo dg lg d y D (map factor_of theta) (rp_mu h) (rp_lam h) (rp_psi h) (rp_inv h) (rp_nu h) pz pw qw
  = rsum (map (fun rf => group_term dg d y rf * (/ rsum (fst rf) - 1)) (combine D (map factor_of theta)))
    + (qw - pw) - rsum (map (fun a => INR d + wishart_entropy dg lg d (factor_of a) / 2) theta).
Proof. exact c66_gap_proof. Qed.
Print Assumptions c66_gap.

Theorem c66_weights_ignored :
  
  forall dg lg d y D theta k h pz pw pw' qw qw',
  calc_elbo dg lg d y D theta k h pz (EF pw) qw = calc_elbo dg lg d y D theta k h pz (EF pw') qw'.
Proof. exact c66_weights_ignored_proof. Qed.
Print Assumptions c66_weights_ignored.

Theorem c66_infinite_prior_is_nan :
  
  forall dg lg d y D theta k h pz pw qw, pw = EPI \/ pw = ENI \/ pw = ENaN -> calc_elbo dg lg d y D theta k h pz pw qw = ENaN.
Proof. exact c66_infinite_prior_proof. Qed.
Print Assumptions c66_infinite_prior_is_nan.

Example c66_nontrivial : let y := [[1]; [2]; [4]] in let D := [[1/2; 1/3; 1/4]; [1/2; 2/3; 3/4]] in let theta := [RA [0] 1 [[2]] 3; RA [1] 1 [[1 / 2]] 3] in
  state_ok 1 y D theta /\ det_is_norm 1 (rp_inv (RP [0] 1 [[2]] [[1 / 2]] 3)).
Proof.
  assert (G : forall q, 0 < q -> det_is_norm 1 [[q]]).
  { intros q Hq. assert (D1 : det_of [[q]] = q) by (unfold det_of; simpl; ring). split; [split; [reflexivity|repeat constructor]|]. rewrite D1. split; [exact Hq|].
    unfold norm2; simpl. replace (q * q + 0 + 0) with (q * q) by ring. apply sqrt_square. lra. }
  cbv zeta. split; [|apply G; lra]. split; [reflexivity|]. split; [repeat constructor; simpl; lra|]. repeat (constructor; [apply G; simpl; lra|]). constructor.
Qed.
