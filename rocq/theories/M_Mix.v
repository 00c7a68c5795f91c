(* Model of mixture_models/_base.py: construction, fit_gibbs, fit_variational
   and their histories.  The numbers that need transcendental functions come
   from an environment [env] of arbitrary functions. *)
From Coq Require Import QArith.Qround QArith.Qabs.
From Verif Require Import Prelude Numpy Rng M_Weights M_Niw M_Utils.
Open Scope Q_scope.
Open Scope m_scope.

(* a double that may be infinite or NaN *)
Inductive lx := LQ (x : Q) | LPos | LNeg | LNan.
Definition lx_add (a b : lx) : lx :=
  match a, b with
  | LQ x, LQ y => LQ (x + y)
  | LNan, _ | _, LNan | LPos, LNeg | LNeg, LPos => LNan
  | LPos, _ | _, LPos => LPos
  | LNeg, _ | _, LNeg => LNeg
  end.
Definition lx_opp (a : lx) : lx :=
  match a with LQ x => LQ (- x) | LPos => LNeg | LNeg => LPos | LNan => LNan end.
Definition lx_abs (a : lx) : lx :=
  match a with LQ x => LQ (Qabs x) | LPos | LNeg => LPos | LNan => LNan end.
(* a < b; false as soon as a NaN is involved *)
Definition lx_ltb (a b : lx) : bool :=
  match a, b with
  | LQ x, LQ y => qltb x y
  | LNeg, LQ _ | LNeg, LPos | LQ _, LPos => true
  | _, _ => false
  end.
Definition lx_is_neg (a : lx) : bool := match a with LNeg => true | _ => false end.
Definition lx_sum (l : list lx) : lx := fold_left lx_add l (LQ 0).

(* np.finfo(np.float64).eps *)
Definition eps : Q := 1 # (2 ^ 52).

(* a prior argument: not given, given, or computed and not finite *)
Inductive prior (A : Type) := PNone | PVal (a : A) | PNaN.
Arguments PNone {A}. Arguments PVal {A} a. Arguments PNaN {A}.

(* the dictionary returned by _get_run_params, _base.py:860-864 *)
Record rparams := RP { r_w : list Q; r_theta : list (nat * atom); r_u : list Q; r_d : list nat }.

(* one entry of var_theta: mu, lambda, precision, scale *)
Definition vatom := (vec * Q * matr * Q)%type.
(* var_k, var_d (rows = groups), var_theta, and the responsibilities last given
   to weight_model.fit_variational *)
Record vst := VST { vk : option Z; vresp : matr; vtheta : list vatom; vwd : matr }.

Record ms := MS {
  s_total : Z; s_burn : Z; s_sub : Z;     (* total_iter, burn_in, subsample_steps *)
  s_n : option Z;                         (* attribute n, if the class sets it *)
  s_mu : prior vec; s_lam : Q; s_psi : prior matr; s_nu : option Q;
  s_wm : ws;                              (* weight_model *)
  s_y : list vec; s_dim : nat; s_1d : bool; (* y (rows), y.shape[1]; y.ndim = 1 *)
  s_d : option (list nat);                (* d; None: the initial float array *)
  s_theta : list (nat * atom);            (* theta *)
  s_gen : bool;                           (* theta is a defaultdict *)
  s_u : list Q;
  s_aff : list (list nat);                (* affinity_matrix *)
  s_map : option rparams; s_mapll : lx;   (* map_sim_params, map_log_likelihood *)
  s_saved : nat;                          (* total_saved_steps *)
  s_sims : list rparams; s_groups : list nat; s_atoms : list nat;
  s_var : vst;
  s_gfit : bool; s_vfit : bool; s_vconv : bool
}.
Definition upd_prior mu psi nu (s : ms) := MS (s_total s) (s_burn s) (s_sub s) (s_n s) mu (s_lam s) psi nu (s_wm s) (s_y s) (s_dim s) (s_1d s) (s_d s) (s_theta s) (s_gen s) (s_u s) (s_aff s) (s_map s) (s_mapll s) (s_saved s) (s_sims s) (s_groups s) (s_atoms s) (s_var s) (s_gfit s) (s_vfit s) (s_vconv s).
Definition upd_wm x (s : ms) := MS (s_total s) (s_burn s) (s_sub s) (s_n s) (s_mu s) (s_lam s) (s_psi s) (s_nu s) x (s_y s) (s_dim s) (s_1d s) (s_d s) (s_theta s) (s_gen s) (s_u s) (s_aff s) (s_map s) (s_mapll s) (s_saved s) (s_sims s) (s_groups s) (s_atoms s) (s_var s) (s_gfit s) (s_vfit s) (s_vconv s).
Definition upd_y y k f (s : ms) := MS (s_total s) (s_burn s) (s_sub s) (s_n s) (s_mu s) (s_lam s) (s_psi s) (s_nu s) (s_wm s) y k f (s_d s) (s_theta s) (s_gen s) (s_u s) (s_aff s) (s_map s) (s_mapll s) (s_saved s) (s_sims s) (s_groups s) (s_atoms s) (s_var s) (s_gfit s) (s_vfit s) (s_vconv s).
Definition upd_d x (s : ms) := MS (s_total s) (s_burn s) (s_sub s) (s_n s) (s_mu s) (s_lam s) (s_psi s) (s_nu s) (s_wm s) (s_y s) (s_dim s) (s_1d s) x (s_theta s) (s_gen s) (s_u s) (s_aff s) (s_map s) (s_mapll s) (s_saved s) (s_sims s) (s_groups s) (s_atoms s) (s_var s) (s_gfit s) (s_vfit s) (s_vconv s).
Definition upd_theta x (s : ms) := MS (s_total s) (s_burn s) (s_sub s) (s_n s) (s_mu s) (s_lam s) (s_psi s) (s_nu s) (s_wm s) (s_y s) (s_dim s) (s_1d s) (s_d s) x (s_gen s) (s_u s) (s_aff s) (s_map s) (s_mapll s) (s_saved s) (s_sims s) (s_groups s) (s_atoms s) (s_var s) (s_gfit s) (s_vfit s) (s_vconv s).
Definition upd_gen x (s : ms) := MS (s_total s) (s_burn s) (s_sub s) (s_n s) (s_mu s) (s_lam s) (s_psi s) (s_nu s) (s_wm s) (s_y s) (s_dim s) (s_1d s) (s_d s) (s_theta s) x (s_u s) (s_aff s) (s_map s) (s_mapll s) (s_saved s) (s_sims s) (s_groups s) (s_atoms s) (s_var s) (s_gfit s) (s_vfit s) (s_vconv s).
Definition upd_u x (s : ms) := MS (s_total s) (s_burn s) (s_sub s) (s_n s) (s_mu s) (s_lam s) (s_psi s) (s_nu s) (s_wm s) (s_y s) (s_dim s) (s_1d s) (s_d s) (s_theta s) (s_gen s) x (s_aff s) (s_map s) (s_mapll s) (s_saved s) (s_sims s) (s_groups s) (s_atoms s) (s_var s) (s_gfit s) (s_vfit s) (s_vconv s).
Definition upd_aff x (s : ms) := MS (s_total s) (s_burn s) (s_sub s) (s_n s) (s_mu s) (s_lam s) (s_psi s) (s_nu s) (s_wm s) (s_y s) (s_dim s) (s_1d s) (s_d s) (s_theta s) (s_gen s) (s_u s) x (s_map s) (s_mapll s) (s_saved s) (s_sims s) (s_groups s) (s_atoms s) (s_var s) (s_gfit s) (s_vfit s) (s_vconv s).
Definition upd_map x l (s : ms) := MS (s_total s) (s_burn s) (s_sub s) (s_n s) (s_mu s) (s_lam s) (s_psi s) (s_nu s) (s_wm s) (s_y s) (s_dim s) (s_1d s) (s_d s) (s_theta s) (s_gen s) (s_u s) (s_aff s) x l (s_saved s) (s_sims s) (s_groups s) (s_atoms s) (s_var s) (s_gfit s) (s_vfit s) (s_vconv s).
Definition upd_sims n a b c (s : ms) := MS (s_total s) (s_burn s) (s_sub s) (s_n s) (s_mu s) (s_lam s) (s_psi s) (s_nu s) (s_wm s) (s_y s) (s_dim s) (s_1d s) (s_d s) (s_theta s) (s_gen s) (s_u s) (s_aff s) (s_map s) (s_mapll s) n a b c (s_var s) (s_gfit s) (s_vfit s) (s_vconv s).
Definition upd_var x (s : ms) := MS (s_total s) (s_burn s) (s_sub s) (s_n s) (s_mu s) (s_lam s) (s_psi s) (s_nu s) (s_wm s) (s_y s) (s_dim s) (s_1d s) (s_d s) (s_theta s) (s_gen s) (s_u s) (s_aff s) (s_map s) (s_mapll s) (s_saved s) (s_sims s) (s_groups s) (s_atoms s) x (s_gfit s) (s_vfit s) (s_vconv s).
Definition upd_flags a b c (s : ms) := MS (s_total s) (s_burn s) (s_sub s) (s_n s) (s_mu s) (s_lam s) (s_psi s) (s_nu s) (s_wm s) (s_y s) (s_dim s) (s_1d s) (s_d s) (s_theta s) (s_gen s) (s_u s) (s_aff s) (s_map s) (s_mapll s) (s_saved s) (s_sims s) (s_groups s) (s_atoms s) (s_var s) a b c.

Definition get_run_params (s : ms) : rparams :=
  RP (w (s_wm s)) (s_theta s) (s_u s) (match s_d s with Some l => l | None => [] end).

(* scipy/numpy numerics, all deterministic; none of their values is assumed *)
Record env := {
  e_logpdf : list vec -> atom -> res (list lx);   (* multivariate_normal.logpdf(rows, mu, sigma, 1) *)
  e_log : Q -> lx;                                (* np.log *)
  e_argsort : list Z -> list nat;                 (* np.argsort *)
  e_inv : matr -> res matr;                       (* np.linalg.inv *)
  e_vd : list vec -> vst -> res matr;             (* the numbers of _update_var_d, _base.py:1014-1032 *)
  e_vtheta : list vec -> niw -> matr -> res (list vatom);  (* _update_var_theta, _base.py:993-1012 *)
  e_elbo : list vec -> niw -> vst -> res lx       (* _calc_elbo, _base.py:979-988 *)
}.

(* int(x) *)
Definition py_int (x : Q) : Z := Z.quot (Qnum x) (Zpos (Qden x)).

(* The constructors of the ten mixture classes (e.g.
   _dirichlet_process_mixture.py:5-8) and _base.py:55-99.  The weight model is
   built first.  DirichletDistribution, EqualWeighted and FrequencyWeighted
   mixtures set self.n.  lambda_prior and nu_prior are numbers; mu_prior and
   psi_prior are absent, or a vector and a matrix. *)
Definition class_n (c : cls) (narg : Z) : option Z :=
  match c with CDirDist n _ => Some n | CFreq n => Some n | CEqual => Some narg | _ => None end.
Definition new_mix (c : cls) (parg : Q) (narg : Z) (mu : option vec) (lam : Q) (psi : option matr) (nu : option Q)
           (total burn sub : Q) (o : oracle) : res (ms * rng) :=
  match new_ws c parg narg o with
  | Ok (s0, g0) =>
      if qltb burn total then
        Ok (MS (py_int total) (py_int burn) (py_int sub) (class_n c narg)
               (match mu with Some x => PVal x | None => PNone end) lam
               (match psi with Some x => PVal x | None => PNone end) nu
               s0 [] 0 true None [] false [] [] None LNeg 0 [] [] []
               (VST None [] [] []) false false false, g0)
      else Err AssertionError
  | Err e => Err e
  | Diverge => Diverge
  end.

(* a call on the weight model *)
Definition onw {A} (m : M ws A) : M ms A :=
  fun o s g => match m o (s_wm s) g with (r, x, g') => (r, upd_wm x s, g') end.

(* the data argument: nested lists and arrays are rectangular, with the number
   of columns given; anything else is YOther *)
Inductive yarg :=
| YList1 (l : list Q) | YList2 (l : list vec) (k : nat)
| YArr1 (l : list Q) | YArr2 (l : list vec) (k : nat)
| YFrame (l : list vec) (k : nat) | YSeries (l : list Q)
| YNum (x : Q) | YOther.
Definition column (l : list Q) : list vec := map (fun x => [x]) l.

(* _base.py:708-732 *)
Definition set_obs (y : yarg) : M ms unit :=
  match y with
  | YFrame l k | YList2 l k | YArr2 l k => upd (upd_y l k false)
  | YSeries l => upd (upd_y (column l) 1 true)
  | YList1 l | YArr1 l => upd (upd_y (column l) 1 false)
  | YNum _ | YOther => raise TypeError
  end.
(* _base.py:734-743; the mean of no rows and the covariance of fewer than two
   are not finite; y.shape[1] does not exist for a Series *)
Definition mu_default (s : ms) : prior vec :=
  match s_mu s with
  | PNone => if is_nil (s_y s) then PNaN else PVal (mk_vec (s_dim s) (mean_at (s_y s)))
  | x => x
  end.
Definition psi_default (s : ms) : prior matr :=
  match s_psi s with
  | PNone => if (length (s_y s) <=? 1)%nat then PNaN else PVal (cov_sample (s_dim s) (s_y s))
  | x => x
  end.
(* _base.py:704-743 *)
Definition init_common (y : yarg) : M ms unit :=
  set_obs y ;;
  upd (fun s => upd_prior (mu_default s) (psi_default s) (s_nu s) s) ;;
  s <- get ;;
  match s_nu s with
  | Some _ => ret tt
  | None => if s_1d s then raise IndexError
            else upd (upd_prior (s_mu s) (s_psi s) (Some (nq (s_dim s))))
  end.

(* the prior as numbers; a prior that is not finite makes invwishart raise *)
Definition prior_niw (s : ms) : res niw :=
  match s_mu s, s_psi s, s_nu s with
  | PVal mu, PVal psi, Some nu => Ok (NIW mu (s_lam s) psi nu)
  | _, _, _ => Err ValueError
  end.
Definition of_res {S A} (r : res A) : M S A := fun _ s g => (r, s, g).

(* dictionaries *)
Fixpoint lookup {A} (j : nat) (l : list (nat * A)) : option A :=
  match l with [] => None | (i, a) :: t => if Nat.eqb i j then Some a else lookup j t end.
Fixpoint put {A} (j : nat) (a : A) (l : list (nat * A)) : list (nat * A) :=
  match l with
  | [] => [(j, a)]
  | (i, b) :: t => if Nat.eqb i j then (j, a) :: t else (i, b) :: put j a t
  end.

(* atom_generator, _base.py:766-774 *)
Definition prior_atom : M ms atom :=
  s <- get ;; h <- of_res (prior_niw s) ;; draw_niw h.
(* self.theta[j]: a missing key of the defaultdict is drawn and stored *)
Definition get_atom (j : nat) : M ms atom :=
  s <- get ;;
  match lookup j (s_theta s) with
  | Some a => ret a
  | None => if s_gen s then
              a <- prior_atom ;; upd (fun s => upd_theta (put j a (s_theta s)) s) ;; ret a
            else raise KeyError
  end.

Definition labels_of (s : ms) : list nat := match s_d s with Some l => l | None => [] end.
(* y[d == j]; the mask must have as many entries as y has rows *)
Definition select {A} (j : nat) (dl : list nat) (y : list A) : list A :=
  map snd (filter (fun q : nat * A => Nat.eqb (fst q) j) (combine dl y)).
Definition masked (j : nat) : M ms (list vec) :=
  s <- get ;;
  if Nat.eqb (length (labels_of s)) (length (s_y s)) then ret (select j (labels_of s) (s_y s))
  else raise IndexError.

(* _base.py:892-909 *)
Fixpoint update_atoms (js : list nat) : M ms unit :=
  match js with
  | [] => ret tt
  | j :: t =>
      rows <- masked j ;;
      s <- get ;;
      h <- of_res (prior_niw s) ;;
      h' <- of_res (niw_post_call rows h) ;;
      a <- draw_niw h' ;;
      upd (fun s => upd_theta (put j a (s_theta s)) s) ;;
      update_atoms t
  end.
Definition update_all_atoms : M ms unit := s <- get ;; update_atoms (nunique (labels_of s)).

(* builtin min *)
Definition qmin (l : list Q) : Q :=
  match l with [] => 0 | x :: t => fold_left (fun a b => if qltb b a then b else a) t x end.

Section Env.
Variables (E : env) (c : cls) (fuel : nat).

(* self.weight_model.tail(1 - min(self.u)); min of an empty array raises *)
Definition tail_to_slice : M ms unit :=
  s <- get ;;
  if is_nil (s_u s) then raise ValueError
  else onw (wm_tail c fuel (1 - qmin (s_u s))) ;; ret tt.

(* _base.py:885-890; the initial d is a float array and no valid index *)
Definition update_weights : M ms unit :=
  s <- get ;;
  onw (wm_fit (labels_of s)) ;;
  x <- onw (wm_random c SNone) ;;
  match s_d s with
  | None => raise IndexError
  | Some dl =>
      match gather x dl with
      | None => raise IndexError
      | Some wd =>
          u <- unif_many (map (fun q => (eps, q + eps)) wd) ;;
          upd (upd_u u) ;;
          tail_to_slice
      end
  end.

(* multivariate_normal.logpdf(self.y, self.theta[j]...) for each j *)
Fixpoint logpdf_rows (js : list nat) : M ms (list (list lx)) :=
  match js with
  | [] => ret []
  | j :: t =>
      a <- get_atom j ;;
      s <- get ;;
      l <- of_res (e_logpdf E (s_y s) a) ;;
      r <- logpdf_rows t ;;
      ret (l :: r)
  end.

(* column i of _d_log_likelihood_vector, _base.py:929-931 *)
Definition logits (ll : list (list lx)) (ws : list Q) (u : Q) (i : nat) : list lx :=
  map (fun lw : list lx * Q => lx_add (nth i (fst lw) LNan) (if qltb u (snd lw) then LQ 0 else LNeg))
      (combine ll ws).

Fixpoint index_where {A} (f : A -> bool) (l : list A) : option nat :=
  match l with [] => None | x :: t => if f x then Some 0%nat else option_map S (index_where f t) end.
(* np.argmax(logp + noise) for finite noise: the first NaN, else the first
   +inf, else a finite entry (which one depends on the noise), else index 0 *)
Definition pick_label (lg : list lx) (noisy : nat) : nat :=
  match index_where (fun x => match x with LNan => true | _ => false end) lg with
  | Some i => i
  | None => match index_where (fun x => match x with LPos => true | _ => false end) lg with
            | Some i => i
            | None => if forallb lx_is_neg lg then 0%nat else noisy
            end
  end.
Fixpoint draw_labels (lgs : list (list lx)) : M ms (list nat) :=
  match lgs with
  | [] => ret []
  | lg :: t =>
      x <- gumbel1 (map (fun l => negb (lx_is_neg l)) lg) ;;
      r <- draw_labels t ;;
      ret (pick_label lg x :: r)
  end.

(* _base.py:911-913, 920-932.  For a single observation logpdf returns scalars
   and the in-place addition of a (k, 1) array to a (k,) array raises. *)
Definition update_d : M ms unit :=
  s <- get ;;
  let k := length (w (s_wm s)) in
  ll <- logpdf_rows (seq 0 k) ;;
  let n := length (s_y s) in
  if Nat.eqb k 0 || Nat.eqb n 1 || negb (Nat.eqb (length (s_u s)) n) then raise ValueError else
  r <- draw_labels (map (fun i => logits ll (w (s_wm s)) (nth i (s_u s) 0) i) (seq 0 n)) ;;
  upd (upd_d (Some r)).

(* _base.py:915-918 *)
Definition gibbs_step : M ms unit := update_all_atoms ;; update_weights ;; update_d.

(* _base.py:940-949 *)
Fixpoint y_loglik (js : list nat) (acc : lx) : M ms lx :=
  match js with
  | [] => ret acc
  | j :: t =>
      rows <- masked j ;;
      a <- get_atom j ;;
      l <- of_res (e_logpdf E rows a) ;;
      y_loglik t (lx_add acc (lx_sum l))
  end.
(* _base.py:934-938, 951-953; weight_models/_base.py:122-129 *)
Definition run_loglik : M ms lx :=
  s <- get ;;
  a <- y_loglik (nunique (labels_of s)) (LQ 0) ;;
  xs <- onw (wm_assign_weights c (Some (labels_of s))) ;;
  ret (lx_add (lx_add (LQ 0) a) (lx_sum (map (e_log E) xs))).

(* _base.py:873-883 *)
Definition update_map : M ms unit :=
  l <- run_loglik ;;
  s <- get ;;
  if lx_ltb (s_mapll s) l then upd (fun s => upd_map (Some (get_run_params s)) l s)
  else if lx_is_neg (s_mapll s) then upd (fun s => upd_map (Some (get_run_params s)) (s_mapll s) s)
  else ret tt.

(* np.equal(d, d[:, None]) *)
Definition equal_matrix (dl : list nat) : list (list nat) :=
  map (fun a => map (fun b => if Nat.eqb b a then 1%nat else 0%nat) dl) dl.
Definition add_matrix (a b : list (list nat)) : list (list nat) :=
  map (fun r => map (fun q => (fst q + snd q)%nat) (combine (fst r) (snd r))) (combine a b).

(* _base.py:866-871; += on an array of another shape raises after the lists
   have been extended *)
Definition save_params : M ms unit :=
  upd (fun s => upd_sims (s_saved s) (s_sims s ++ [get_run_params s])
                         (s_groups s ++ [length (nunique (labels_of s))])
                         (s_atoms s ++ [length (s_theta s)]) s) ;;
  s <- get ;;
  if Nat.eqb (length (s_aff s)) (length (labels_of s)) then
    upd (upd_aff (add_matrix (s_aff s) (equal_matrix (labels_of s)))) ;;
    upd (fun s => upd_sims (S (s_saved s)) (s_sims s) (s_groups s) (s_atoms s) s)
  else raise ValueError.

(* ------------------------------------------------------------------ *)
(* variational fit *)

Inductive vmethod := IKmeans | IRandom | IVariational | IOther.

Definition supports_var : bool :=
  match c with CBIB _ _ _ _ _ | CBID _ _ | CBB _ _ | CBBin _ _ => false | _ => true end.

(* weight_model.fit_variational(D) with D of k rows (numeric side in M_Var):
   NotImplementedError for four classes; DirichletDistribution asserts k = n
   and adds alpha to the k row sums; EqualWeighting stores n = k *)
Definition wm_fit_var (k : Z) : M ws unit :=
  match c with
  | CBIB _ _ _ _ _ | CBID _ _ | CBB _ _ | CBBin _ _ => raise NotImplementedError
  | CDirDist n al =>
      if (k =? n)%Z then
        if (Z.of_nat (length al) =? k)%Z || (Z.of_nat (length al) =? 1)%Z || (k =? 1)%Z
        then ret tt else raise ValueError
      else raise AssertionError
  | CEqual => upd (set_wn k)
  | CGeom _ _ => if (k =? 0)%Z then raise IndexError else ret tt
  | CDP _ | CPY _ _ | CFreq _ => ret tt
  end.
Definition fit_var_weights (k : Z) (D : matr) : M ms unit :=
  onw (wm_fit_var k) ;;
  upd (fun s => let x := s_var s in upd_var (VST (vk x) (vresp x) (vtheta x) D) s).

(* _base.py:1014-1032: y.shape[1], np.zeros((var_k, n)), then the numbers
   (variational_mean_log_w_j raises NotImplementedError without support, at the
   latest fit_variational does) *)
Definition update_var_d : M ms unit :=
  s <- get ;;
  if s_1d s then raise IndexError else
  match vk (s_var s) with
  | None => raise TypeError
  | Some k =>
      if (k <? 0)%Z then raise ValueError else
      if negb supports_var then raise NotImplementedError else
      D <- of_res (e_vd E (s_y s) (s_var s)) ;;
      upd (fun s => let x := s_var s in upd_var (VST (vk x) D (vtheta x) (vwd x)) s)
  end.
(* _base.py:993-1012 *)
Definition update_var_theta : M ms unit :=
  s <- get ;;
  h <- of_res (prior_niw s) ;;
  t <- of_res (e_vtheta E (s_y s) h (vresp (s_var s))) ;;
  upd (fun s => let x := s_var s in upd_var (VST (vk x) (vresp x) t (vwd x)) s).
(* _base.py:974-977 *)
Definition maximize_variational : M ms unit :=
  update_var_d ;;
  s <- get ;;
  fit_var_weights (Z.of_nat (length (vresp (s_var s)))) (vresp (s_var s)) ;;
  update_var_theta.

(* np.zeros((k, n)); var_d[d, range(n)] = 1 *)
Definition one_hot (k : nat) (dl : list nat) : matr :=
  map (fun j => map (fun b => if Nat.eqb b j then 1 else 0) dl) (seq 0 k).

Fixpoint prior_vatoms (n : nat) : M ms (list vatom) :=
  match n with
  | O => ret []
  | S m =>
      a <- prior_atom ;;
      s <- get ;;
      p <- of_res (e_inv E (snd a)) ;;
      h <- of_res (prior_niw s) ;;
      upd (fun s => let x := s_var s in
             upd_var (VST (vk x) (vresp x) (vtheta x ++ [(fst a, n_lam h, p, n_nu h)]) (vwd x)) s) ;;
      prior_vatoms m
  end.

(* _base.py:809-858.  1 / var_k is a Python division for int, a numpy one for
   np.int64; np.tile of a negative count raises. *)
Definition init_variational (k : Z) (is_int : bool) (meth : vmethod) : M ms unit :=
  upd (fun s => let x := s_var s in upd_var (VST (Some k) (vresp x) [] (vwd x)) s) ;;
  (match meth with
   | IKmeans =>
       s <- get ;;
       (if s_1d s then raise ValueError else ret tt) ;;
       l <- kmeans_cluster_size_biased (e_argsort E) (s_y s) k ;;
       upd (fun s => let x := s_var s in upd_var (VST (vk x) (one_hot (Z.to_nat k) l) (vtheta x) (vwd x)) s) ;;
       fit_var_weights k (repeat [] (Z.to_nat k)) ;;
       update_var_theta ;;
       update_var_d
   | IRandom =>
       prior_vatoms (Z.to_nat k) ;;
       s <- get ;;
       if (k =? 0)%Z && is_int then raise ZeroDivisionError
       else if (k <? 0)%Z then raise ValueError
       else upd (fun s => let x := s_var s in
                   upd_var (VST (vk x) (repeat (repeat (1 / zq k) (length (s_y s))) (Z.to_nat k)) (vtheta x) (vwd x)) s)
   | IVariational | IOther => raise AttributeError
   end) ;;
  s <- get ;;
  fit_var_weights (Z.of_nat (length (vresp (s_var s)))) (vresp (s_var s)).

(* _base.py:224-229: at most n more iterations; returns their number *)
Fixpoint var_loop (tol : Q) (n : nat) (elbo diff : lx) (iters : nat) : M ms nat :=
  if lx_ltb (LQ tol) diff then
    match n with
    | O => ret iters
    | S m =>
        maximize_variational ;;
        s <- get ;;
        h <- of_res (prior_niw s) ;;
        e <- of_res (e_elbo E (s_y s) h (s_var s)) ;;
        var_loop tol m e (lx_abs (lx_add elbo (lx_opp e))) (S iters)
    end
  else ret iters.

(* _base.py:167-234; show_progress is not modelled *)
Definition fit_variational (y : yarg) (n_groups : pysize) (warm : bool) (tol : Q) (meth : vmethod) : M ms unit :=
  init_common y ;;
  (if warm then ret tt else
     s <- get ;;
     match n_groups, s_n s with
     | SNone, Some n => init_variational n true meth
     | SNone, None => raise AttributeError
     | SInt k, _ => init_variational k true meth
     | SNp64 k, _ => init_variational k false meth
     | SOther, _ => (* KMeans and range reject it.  Simplification: Python stores it in
                       var_k first, on which a later warm start raises; here var_k stays. *)
         upd (fun s => let x := s_var s in upd_var (VST (vk x) (vresp x) [] (vwd x)) s) ;;
         match meth with IKmeans | IRandom => raise TypeError | IVariational | IOther => raise AttributeError end
     end) ;;
  s <- get ;;
  i <- var_loop tol (Z.to_nat (s_total s)) LNeg LPos 0 ;;
  upd (fun s => upd_flags (s_gfit s) true (s_vconv s) s) ;;
  if (Z.of_nat i <? s_total s)%Z then upd (fun s => upd_flags (s_gfit s) (s_vfit s) true s) else ret tt.

(* ndarray.argmax(0): first index of the largest entry of each column *)
Fixpoint argmax_from (best : Q) (bi i : nat) (l : list Q) : nat :=
  match l with [] => bi | x :: t => if qltb best x then argmax_from x i (S i) t else argmax_from best bi (S i) t end.
Definition argmax (l : list Q) : nat := match l with [] => 0%nat | x :: t => argmax_from x 0 1 t end.
Definition col (D : matr) (i : nat) : list Q := map (fun r => nth i r 0) D.
Definition argmax0 (D : matr) (n : nat) : list nat := map (fun i => argmax (col D i)) (seq 0 n).

(* ------------------------------------------------------------------ *)
(* Gibbs fit *)

(* _base.py:745-807 *)
Definition init_gibbs (init_groups : pysize) (meth : vmethod) : M ms unit :=
  upd (upd_sims 0 [] [] []) ;;
  upd (upd_theta []) ;; upd (upd_gen true) ;;
  s <- get ;;
  let n := length (s_y s) in
  upd (upd_aff (repeat (repeat 0%nat n) n)) ;;
  u <- unif_many (repeat (eps, 1) n) ;;
  upd (upd_u u) ;;
  (if is_snone init_groups then tail_to_slice else onw (wm_complete c init_groups) ;; ret tt) ;;
  match meth with
  | IKmeans =>
      let k := match s_n s with
               | Some k => k
               | None => match size_val init_groups with Some k => k | None => 2%Z end
               end in
      (if s_1d s then raise ValueError else ret tt) ;;
      l <- kmeans_cluster_size_biased (e_argsort E) (s_y s) k ;;
      upd (upd_d (Some l))
  | IRandom =>
      l <- onw (wm_random_assignment (SInt (Z.of_nat n))) ;;
      upd (upd_d (Some l))
  | IVariational =>
      s <- get ;;
      fit_variational (if s_1d s then YArr1 (map (fun r => vat r 0) (s_y s)) else YArr2 (s_y s) (s_dim s))
                      (SInt (Z.of_nat (length (w (s_wm s))))) false (1 # 10 ^ 8) IKmeans ;;
      s <- get ;;
      upd (upd_d (Some (argmax0 (vresp (s_var s)) (length (s_y s)))))
  | IOther => raise AttributeError
  end.

(* one iteration: _base.py:153-154 and 159-160 *)
Definition sweep : M ms unit := gibbs_step ;; update_map.
Fixpoint burn_loop (n : nat) : M ms unit :=
  match n with O => ret tt | S m => sweep ;; burn_loop m end.
(* _base.py:158-162 *)
Fixpoint train_loop (n : nat) (i : Z) : M ms unit :=
  match n with
  | O => ret tt
  | S m =>
      sweep ;;
      s <- get ;;
      (if (s_sub s =? 0)%Z then raise ZeroDivisionError
       else if (i mod s_sub s =? 0)%Z then save_params else ret tt) ;;
      train_loop m (i + 1)
  end.

(* _base.py:101-165; show_progress is not modelled *)
Definition fit_gibbs (y : yarg) (init_groups : pysize) (warm : bool) (meth : vmethod) : M ms unit :=
  init_common y ;;
  (if warm then ret tt else init_gibbs init_groups meth ;; update_map) ;;
  s <- get ;;
  burn_loop (Z.to_nat (s_burn s)) ;;
  train_loop (Z.to_nat (s_total s - s_burn s)) 0 ;;
  upd (fun s => upd_flags true (s_vfit s) (s_vconv s) s).

(* ------------------------------------------------------------------ *)
(* histories *)
Inductive mop :=
| MGibbs (y : yarg) (init_groups : pysize) (warm : bool) (meth : vmethod)
| MVar (y : yarg) (n_groups : pysize) (warm : bool) (tol : Q) (meth : vmethod).
Definition exec_mop (op : mop) : M ms unit :=
  match op with
  | MGibbs y i warm meth => fit_gibbs y i warm meth
  | MVar y k warm tol meth => fit_variational y k warm tol meth
  end.
(* fits whose exceptions are caught by the caller *)
Fixpoint run_mops (ops : list mop) (o : oracle) (s : ms) (g : rng) : ms * rng :=
  match ops with
  | [] => (s, g)
  | op :: t => let '(_, s', g') := exec_mop op o s g in run_mops t o s' g'
  end.
End Env.
