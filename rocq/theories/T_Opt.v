(* Theorems for C70 and C71: the coordinate updates of the variational fit. *)
From Coq Require Import Reals Qreals Lra.
From Verif Require Import Prelude Numpy Rng M_Weights M_Ext M_Var M_VarNum S_Weights S_Draws S_Var S_VarNum S_Opt P_Opt P_Opt71.
Open Scope R_scope.

(* ---- C70 ---- *)

Theorem c70_dp_factor :
  forall al D s sv,
  good_mat D -> fit_var (CDP al) D s = (Ok tt, sv) ->
  let k := length (rows D) in
  exists l, vpar sv = PBeta l /\ length l = k /\ forall v, sticks_in (k - 1) v ->
    expected_log D (fun j => ln (stick_weight_last k v j)) + sumn (fun j => beta_kernel 1 (Q2R al) (v j)) (k - 1)
    = sumn (fun j => beta_kernel (fst (nth j l (0, 0))) (snd (nth j l (0, 0))) (v j)) (k - 1).
Proof. exact c70_dp_proof. Qed.
Print Assumptions c70_dp_factor.

Theorem c70_py_factor :
  forall pyd al D s sv,
  good_mat D -> fit_var (CPY pyd al) D s = (Ok tt, sv) ->
  let k := length (rows D) in
  exists l, vpar sv = PBeta l /\ length l = k /\ forall v, sticks_in k v ->
    expected_log D (fun j => ln (stick_weight v j)) + sumn (fun j => beta_kernel (1 - Q2R pyd) (Q2R al + (INR j + 1) * Q2R pyd) (v j)) k
    = sumn (fun j => beta_kernel (fst (nth j l (0, 0))) (snd (nth j l (0, 0))) (v j)) k.
Proof. exact c70_py_proof. Qed.
Print Assumptions c70_py_factor.

Theorem c70_dirichlet_factor :
  forall al D s sv,
  good_mat D -> length al = length (rows D) -> fit_var (CDirDist (Z.of_nat (length al)) al) D s = (Ok tt, sv) ->
  exists l, vpar sv = PDir l /\ length l = length (rows D) /\ forall w,
    expected_log D (fun j => ln (w j)) + dirichlet_kernel (map Q2R al) w = dirichlet_kernel l w.
Proof. exact c70_dir_proof. Qed.
Print Assumptions c70_dirichlet_factor.

Theorem c70_geometric_short_by_one :
  forall a b D s sv,
  good_mat D -> stochastic D -> (1 <= cols D)%nat -> fit_var (CGeom a b) D s = (Ok tt, sv) ->
  exists x y, vpar sv = PPair x y /\ forall p, 0 < p < 1 ->
    expected_log D (fun j => ln (p * (1 - p) ^ j)) + beta_kernel (Q2R a) (Q2R b) p = beta_kernel (x + 1) y p /\
    expected_log D (fun j => ln (p * (1 - p) ^ j)) + beta_kernel (Q2R a) (Q2R b) p = beta_kernel x y p + ln p.
Proof. exact c70_geom_proof. Qed.
Print Assumptions c70_geometric_short_by_one.

Theorem c70_geometric_factor_refuted :
  forall a b D s sv x y,
  good_mat D -> stochastic D -> (1 <= cols D)%nat -> fit_var (CGeom a b) D s = (Ok tt, sv) -> vpar sv = PPair x y ->
  ~ exists c, forall p, 0 < p < 1 -> expected_log D (fun j => ln (p * (1 - p) ^ j)) + beta_kernel (Q2R a) (Q2R b) p = beta_kernel x y p + c.
Proof. exact c70_geom_refuted_proof. Qed.
Print Assumptions c70_geometric_factor_refuted.

Theorem c70_geometric_without_data :
  forall a b D s sv,
  good_mat D -> cols D = 0%nat -> fit_var (CGeom a b) D s = (Ok tt, sv) -> vpar sv = PPair (Q2R a) (Q2R b).
Proof. exact c70_geom_empty_proof. Qed.
Print Assumptions c70_geometric_without_data.

Theorem c70_dp_fit_maximises_bound :
  forall psi lg, beta_divergence_nonneg psi lg -> forall al D s sv l' x x',
  (0 < al)%Q -> good_mat D -> rows D <> [] -> fit_var (CDP al) D s = (Ok tt, sv) ->
  length l' = length (rows D) -> positive_params l' ->
  weight_bound psi lg (CDP al) sv x -> weight_bound psi lg (CDP al) (with_params l' sv) x' -> x' <= x.
Proof. exact c70_dp_max_proof. Qed.
Print Assumptions c70_dp_fit_maximises_bound.

Theorem c70_py_fit_maximises_bound :
  forall psi lg, beta_divergence_nonneg psi lg -> forall pyd al D s sv l' x x',
  py_ok pyd al -> good_mat D -> fit_var (CPY pyd al) D s = (Ok tt, sv) ->
  length l' = length (rows D) -> positive_params l' ->
  weight_bound psi lg (CPY pyd al) sv x -> weight_bound psi lg (CPY pyd al) (with_params l' sv) x' -> x' <= x.
Proof. exact c70_py_max_proof. Qed.
Print Assumptions c70_py_fit_maximises_bound.

Definition opt3 := Mat [[1; / 2]; [0; / 4]; [0; / 4]] 2.
Lemma opt3_good : good_mat opt3 /\ stochastic opt3.
Proof. split; [repeat constructor; lra|]. intros i Hi. cbn in Hi. destruct i as [|[|i]]; try lia; cbn; lra. Qed.
Example c70_nontrivial : good_mat opt3 /\ stochastic opt3 /\ (1 <= cols opt3)%nat /\ rows opt3 <> [] /\ mass opt3 0 = 3 / 2 /\ mass_after opt3 0 = / 2 /\
  (exists sv, fit_var (CDP 2) opt3 (vs_init 0) = (Ok tt, sv)) /\ (exists sv, fit_var (CPY (1 # 2) 2) opt3 (vs_init 0) = (Ok tt, sv)) /\
  (exists sv, fit_var (CGeom 1 1) opt3 (vs_init 0) = (Ok tt, sv)) /\ (exists sv, fit_var (CDirDist 3 [1; 2; 1]%Q) opt3 (vs_init 0) = (Ok tt, sv)) /\
  sticks_in 3 (fun j => / (INR j + 2)).
Proof.
  destruct opt3_good as [G S1]. split; [exact G|]. split; [exact S1|]. split; [cbn; lia|]. split; [discriminate|]. split; [unfold mass; cbn; lra|]. split; [unfold mass_after; cbn; lra|].
  split; [eexists; reflexivity|]. split; [eexists; reflexivity|]. split; [eexists; reflexivity|]. split; [eexists; reflexivity|].
  intros j Hj. pose proof (pos_INR j). split; [apply Rinv_0_lt_compat; lra|]. rewrite <- Rinv_1. apply Rinv_lt_contravar; lra.
Qed.
Example c70_divergence_example : beta_divergence_nonneg ln (fun x => x * ln x - x).
Proof. exact divergence_example. Qed.
Example c70_bound_example : exists sv x, fit_var (CDP 2) opt3 (vs_init 0) = (Ok tt, sv) /\ weight_bound ln (fun x => x * ln x - x) (CDP 2) sv x /\ positive_params [(1, 1); (2, 3); (1, 1)].
Proof.
  destruct (dp_bound_exists ln (fun x => x * ln x - x) 2 opt3 (vs_init 0) _ ltac:(reflexivity) (proj1 opt3_good) ltac:(discriminate) eq_refl) as [x W].
  eexists _, x. split; [reflexivity|]. split; [exact W|]. repeat constructor; cbn; lra.
Qed.

(* ---- C71 ---- *)

Theorem c71_best_possible :
  forall xs rs,
  distribution rs -> length rs = length xs -> label_bound xs rs <= ln (rsum (map exp xs)).
Proof. exact c71_bound_proof. Qed.
Print Assumptions c71_best_possible.

Theorem c71_softmax_attains_it :
  forall xs,
  xs <> [] -> let rs := map (fun x => exp x / rsum (map exp xs)) xs in
  distribution rs /\ label_bound xs rs = ln (rsum (map exp xs)).
Proof. exact c71_attained_proof. Qed.
Print Assumptions c71_softmax_attains_it.

Theorem c71_update_nearly_optimal :
  forall dg eps ovf mlw theta y i x xs B,
  0 < eps -> 0 <= ovf -> nth_error y i = Some x -> xs <> [] ->
  map (fun ma => score dg (fst ma) (snd ma) x) (combine mlw theta) = map EF xs ->
  (forall s s', In s xs -> In s' xs -> s - s' <= B) ->
  exists rs, nth_error (update_d dg eps ovf mlw theta y) i = Some (map EF rs) /\ length rs = length xs /\ distribution rs /\
    forall rs', distribution rs' -> length rs' = length xs -> label_bound xs rs' <= label_bound xs rs + INR (length xs) * (eps * (1 + eps * exp B)).
Proof. exact c71_update_proof. Qed.
Print Assumptions c71_update_nearly_optimal.

Example c71_nontrivial : distribution [/ 2; 0; / 2] /\ (forall s s', In s [3; 1; 2] -> In s' [3; 1; 2] -> s - s' <= 2) /\
  exists xs, length xs = 1%nat /\ map (fun ma => score (fun _ => 0) (fst ma) (snd ma) [1]) (combine [EF 0] [RA [0] 1 [[1]] 1]) = map EF xs.
Proof.
  split; [split; [repeat constructor; lra|cbn; lra]|]. split; [intros s s' [<-|[<-|[<-|[]]]] [<-|[<-|[<-|[]]]]; lra|].
  eexists [_]. split; [reflexivity|]. cbn [combine map fst snd]. unfold score, e_log_norm_wishart. cbn [ra_prec ra_scale ra_lam ra_mu]. unfold ext_log.
  assert (F : frob [[1]] = 1) by (unfold frob; cbn; replace (1 * 1 + 0 + 0) with 1 by ring; apply sqrt_1).
  rewrite F. unfold rltb. destruct (Rlt_dec 0 1); [|lra]. cbn [ext_add ext_scale]. reflexivity.
Qed.
