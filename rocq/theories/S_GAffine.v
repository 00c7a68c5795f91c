(* Specification: the same Gibbs fit on data in other coordinates (C93).
   Every point x becomes A x + t, every covariance S becomes A S A^T. *)
From Verif Require Import Prelude Numpy Rng M_Weights M_Niw M_Utils M_Mix M_Query S_Niw S_Mix S_Query.
Open Scope Q_scope.

Record coords := CO { co_dim : nat; co_mat : nat -> nat -> Q; co_org : nat -> Q }.
(* row i of the product A f *)
Definition lin (C : coords) (f : nat -> Q) (i : nat) : Q := sum_over (fun p => co_mat C i p * f p) (seq 0 (co_dim C)).

Definition point_moved (C : coords) (x x' : vec) : Prop :=
  length x = co_dim C /\ length x' = co_dim C /\
  forall i, (i < co_dim C)%nat -> coord i x' == lin C (fun p => coord p x) i + co_org C i.
Definition cov_moved (C : coords) (m m' : matr) : Prop :=
  square (co_dim C) m /\ square (co_dim C) m' /\
  forall i j, (i < co_dim C)%nat -> (j < co_dim C)%nat -> entry m' i j == lin C (fun p => lin C (fun q => entry m p q) j) i.
Definition atom_moved (C : coords) (a a' : atom) : Prop := point_moved C (fst a) (fst a') /\ cov_moved C (snd a) (snd a').
Definition atoms_moved (C : coords) : list (nat * atom) -> list (nat * atom) -> Prop :=
  Forall2 (fun x x' => fst x = fst x' /\ atom_moved C (snd x) (snd x')).
Definition rows_moved (C : coords) : list vec -> list vec -> Prop := Forall2 (point_moved C).

(* the draws of the second run: the same as in the first, in the new coordinates *)
Inductive req_moved (C : coords) : req -> req -> Prop :=
| rm_invw nu psi psi' : cov_moved C psi psi' -> req_moved C (RInvWish nu psi) (RInvWish nu psi')
| rm_mvn mu mu' sg sg' : point_moved C mu mu' -> cov_moved C sg sg' -> req_moved C (RMvn mu sg) (RMvn mu' sg')
| rm_kmeans y y' n : rows_moved C y y' -> req_moved C (RKMeans y n) (RKMeans y' n)
| rm_same q : (match q with RInvWish _ _ | RMvn _ _ | RKMeans _ _ => False | _ => True end) -> req_moved C q q.
Definition log_moved (C : coords) : rng -> rng -> Prop := Forall2 (req_moved C).
Definition draw_moved {A} (R : A -> A -> Prop) (x x' : A + exn) : Prop :=
  match x, x' with inl a, inl a' => R a a' | inr e, inr e' => e = e' | _, _ => False end.
Record draws_moved (C : coords) (o o' : oracle) : Prop := {
  dm_beta : forall g g' a b, log_moved C g g' -> o_beta o' g' a b = o_beta o g a b;
  dm_binom : forall g g' n p, log_moved C g g' -> o_binom o' g' n p = o_binom o g n p;
  dm_unif : forall g g' a b, log_moved C g g' -> o_unif o' g' a b = o_unif o g a b;
  dm_dir : forall g g' al, log_moved C g g' -> o_dirichlet o' g' al = o_dirichlet o g al;
  dm_choice : forall g g' p, log_moved C g g' -> o_choice o' g' p = o_choice o g p;
  dm_gumbel : forall g g' l, log_moved C g g' -> o_gumbel o' g' l = o_gumbel o g l;
  dm_optim : forall g g', log_moved C g g' -> o_optim o' g' = o_optim o g;
  dm_root : forall g g', log_moved C g g' -> o_root o' g' = o_root o g;
  dm_kmeans : forall g g' y y' n, log_moved C g g' -> rows_moved C y y' -> o_kmeans o' g' y' n = o_kmeans o g y n;
  dm_invw : forall g g' nu psi psi', log_moved C g g' -> cov_moved C psi psi' -> draw_moved (cov_moved C) (o_invw o g nu psi) (o_invw o' g' nu psi');
  dm_mvn : forall g g' mu mu' sg sg', log_moved C g g' -> point_moved C mu mu' -> cov_moved C sg sg' ->
    draw_moved (point_moved C) (o_mvn o g mu sg) (o_mvn o' g' mu' sg') }.

(* log densities in other coordinates differ by a constant *)
Definition shifted (r : Q) (x x' : lx) : Prop :=
  match x, x' with LQ a, LQ b => b == a + r | LPos, LPos | LNeg, LNeg | LNan, LNan => True | _, _ => False end.
Definition res_moved {A B} (R : A -> B -> Prop) (x : res A) (x' : res B) : Prop :=
  match x, x' with Ok a, Ok a' => R a a' | Err e, Err e' => e = e' | Diverge, Diverge => True | _, _ => False end.
Record env_moved (C : coords) (r : Q) (E E' : env) : Prop := {
  em_logpdf : forall y y' a a', rows_moved C y y' -> atom_moved C a a' ->
    res_moved (fun l l' => length l = length y /\ Forall2 (shifted r) l l') (e_logpdf E y a) (e_logpdf E' y' a');
  em_log : forall x, e_log E' x = e_log E x;
  em_argsort : forall l, e_argsort E' l = e_argsort E l }.

Definition arg_moved (C : coords) (y y' : yarg) : Prop :=
  is_data y = true /\ is_data y' = true /\ (forall l, y <> YSeries l) /\ (forall l, y' <> YSeries l) /\
  cols_of y = co_dim C /\ cols_of y' = co_dim C /\ rows_moved C (rows_of y) (rows_of y').

Definition prior_moved {A} (R : A -> A -> Prop) (p p' : prior A) : Prop :=
  match p, p' with PNone, PNone | PNaN, PNaN => True | PVal a, PVal a' => R a a' | _, _ => False end.
Definition state_moved (C : coords) (r r' : rparams) : Prop :=
  r_w r' = r_w r /\ r_u r' = r_u r /\ r_d r' = r_d r /\ atoms_moved C (r_theta r) (r_theta r').
Definition opt_moved {A} (R : A -> A -> Prop) (x x' : option A) : Prop :=
  match x, x' with Some a, Some a' => R a a' | None, None => True | _, _ => False end.
(* everything a Gibbs fit uses or leaves behind; q is the difference of the MAP
   criteria *)
Record mix_moved (C : coords) (q : Q) (s s' : ms) : Prop := {
  mm_set : (s_total s', s_burn s', s_sub s', s_n s', s_lam s', s_nu s', s_wm s') = (s_total s, s_burn s, s_sub s, s_n s, s_lam s, s_nu s, s_wm s);
  mm_lat : (s_d s', s_gen s', s_u s', s_aff s', s_saved s', s_groups s', s_atoms s', s_gfit s') = (s_d s, s_gen s, s_u s, s_aff s, s_saved s, s_groups s, s_atoms s, s_gfit s);
  mm_mu : prior_moved (point_moved C) (s_mu s) (s_mu s');
  mm_psi : prior_moved (cov_moved C) (s_psi s) (s_psi s');
  mm_y : rows_moved C (s_y s) (s_y s') /\ s_dim s' = s_dim s /\ s_1d s' = s_1d s;
  mm_theta : atoms_moved C (s_theta s) (s_theta s');
  mm_map : opt_moved (state_moved C) (s_map s) (s_map s');
  mm_mapll : shifted q (s_mapll s) (s_mapll s');
  mm_sims : Forall2 (state_moved C) (s_sims s) (s_sims s') }.

(* densities in other coordinates differ by a factor *)
Definition scaled (rho : Q) (l l' : list Q) : Prop := Forall2 (fun x x' => x' == rho * x) l l'.
Record qenv_moved (C : coords) (rho : Q) (Q1 Q2 : qenv) : Prop := {
  qm_pdf : forall y y' a a', rows_moved C y y' -> atom_moved C a a' ->
    res_moved (scaled rho) (q_pdf Q1 y (fst a) (snd a)) (q_pdf Q2 y' (fst a') (snd a'));
  qm_spectral : forall m k, q_spectral Q2 m k = q_spectral Q1 m k }.
(* the data argument of a query *)
Definition query_moved (C : coords) : option yarg -> option yarg -> Prop := opt_moved (arg_moved C).
Definition same_clusters (c c' : list nat * list (option Q)) : Prop :=
  fst c' = fst c /\ Forall2 (opt_moved Qeq) (snd c) (snd c').
