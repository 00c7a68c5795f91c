(* The numbers of the variational mixture: responsibilities, the parametric
   densities and the lower bound, over the reals extended with infinities and NaN. *)
From Coq Require Import Reals.
From Verif Require Import Prelude M_Ext M_Sample.
Open Scope R_scope.

(* ---- responsibilities of one observation ---- *)
(* np.exp; arguments above ovf overflow to inf (ovf is 709.78... for doubles).
   Underflow to zero is not modelled. *)
Definition ext_exp (ovf : R) (a : ext) : ext :=
  match a with
  | EF x => if rltb ovf x then EPI else EF (exp x)
  | EPI => EPI
  | ENI => EF 0
  | ENaN => ENaN
  end.
(* numpy division of two doubles; a zero divisor counts as +0 *)
Definition ext_quot (a b : ext) : ext :=
  match a, b with
  | EF x, EF y => ext_div x y
  | ENaN, _ | _, ENaN => ENaN
  | EF _, _ => EF 0
  | _, EF y => if rltb y 0 then ext_opp a else a
  | _, _ => ENaN
  end.
(* np.max propagates NaN *)
Definition ext_max (a b : ext) : ext :=
  if is_nan a then a else if is_nan b then b else if ext_ltb a b then b else a.
(* l.max(initial=-np.inf) *)
Definition col_max (l : list ext) : ext := fold_right ext_max ENI l.
(* one column of: var_d -= shift; exp; += eps; /= sum *)
Definition normalised (eps ovf : R) (shift : ext) (l : list ext) : list ext :=
  let e := map (fun s => ext_add (ext_exp ovf (ext_add s (ext_opp shift))) (EF eps)) l in
  map (fun a => ext_quot a (ext_sum e)) e.
(* _base.py:1028-1031 and 613-616 *)
Definition resp_col (eps ovf : R) (l : list ext) : list ext := normalised eps ovf (col_max l) l.
(* _base.py:685-688 *)
Definition resp_col_mean (eps ovf : R) (l : list ext) : list ext :=
  normalised eps ovf (ext_quot (ext_sum l) (EF (INR (length l)))) l.

(* ---- log scores ---- *)
Definition mentry (p : list (list R)) (i j : nat) : R := nth j (nth i p []) 0.
(* np.linalg.norm of a matrix: the Frobenius norm *)
Definition frob (p : list (list R)) : R := sqrt (rsum (map (fun r => rsum (map (fun x => x * x) r)) p)).
(* u @ p @ u *)
Definition qform (p : list (list R)) (u : nat -> R) : R :=
  rsum (map (fun i => rsum (map (fun j => u i * mentry p i j * u j) (seq 0 (length p)))) (seq 0 (length p))).
Definition dev (x mu : list R) (i : nat) : R := nth i x 0 - nth i mu 0.
(* (v_mu, v_lambda, v_precision, v_scale), real valued *)
Record ratom := RA { ra_mu : list R; ra_lam : R; ra_prec : list (list R); ra_scale : R }.

Section Special.
Variables (digamma lgamma : R -> R).

(* mixture_models/_utils.py:120-126 *)
Definition e_log_norm_wishart (p : list (list R)) (scale : R) : ext :=
  ext_add (ext_log (EF (frob p)))
          (EF (INR (length p) * ln 2 + rsum (map (fun i => digamma ((scale - INR i) / 2)) (seq 0 (length p))))).
(* one entry of var_d before normalisation, _base.py:1019-1026 (606-612); mlw is
   variational_mean_log_w_j(j) and v_lambda is not 0 *)
Definition score (mlw : ext) (a : ratom) (x : list R) : ext :=
  let d := INR (length x) in
  ext_add mlw
   (ext_add (ext_scale (1 / 2) (e_log_norm_wishart (ra_prec a) (ra_scale a)))
            (EF (- (d * ln (2 * PI) / 2) - d / ra_lam a / 2 - ra_scale a * qform (ra_prec a) (dev x (ra_mu a)) / 2))).
(* _base.py:678-683: the constant is left out *)
Definition score_new (mlw : ext) (a : ratom) (x : list R) : ext :=
  let d := INR (length x) in
  ext_add mlw
   (ext_add (ext_scale (1 / 2) (e_log_norm_wishart (ra_prec a) (ra_scale a)))
            (EF (- (d / (2 * ra_lam a)) - ra_scale a / 2 * qform (ra_prec a) (dev x (ra_mu a))))).
(* _update_var_d, _base.py:1014-1032; the columns of var_d *)
Definition update_d (eps ovf : R) (mlw : list ext) (theta : list ratom) (y : list (list R)) : list (list ext) :=
  map (fun x => resp_col eps ovf (map (fun ma => score (fst ma) (snd ma) x) (combine mlw theta))) y.
(* var_map_cluster for explicit data, _base.py:672-690: the labels *)
Definition new_labels (eps ovf : R) (mlw : list ext) (theta : list ratom) (y : list (list R)) : list (res nat) :=
  map (fun x => np_argmax (resp_col_mean eps ovf (map (fun ma => score_new (fst ma) (snd ma) x) (combine mlw theta)))) y.

(* ---- densities ---- *)
(* utils/functions.py:41-47, one row *)
Definition density_normal (x mu : list R) (p : list (list R)) : R :=
  sqrt (/ (2 * PI) ^ length x * frob p) * exp (- qform p (dev x mu) / 2).
(* utils/functions.py:31-38, one row; nu > 0 *)
Definition density_students_t (x mu : list R) (p : list (list R)) (nu : R) : R :=
  let d := INR (length x) in
  exp (lgamma ((nu + d) / 2) - lgamma (nu / 2))
  * (sqrt (frob p) / Rpower (nu * PI) (d / 2))
  * Rpower (1 + qform p (dev x mu) / nu) (- (nu + d) / 2).
(* ---- the lower bound ---- *)
(* weighted sum over the rows of y *)
Definition wsum (vd : list R) (f : list R -> R) (y : list (list R)) : R := rsum (map (fun p => fst p * f (snd p)) (combine vd y)).
(* x_bar_j = (vd_j / n_j) @ y, for n_j <> 0 *)
Definition xbar (vd : list R) (y : list (list R)) (i : nat) : R := wsum (map (fun r => r / rsum vd) vd) (fun x => nth i x 0) y.
(* s_j *)
Definition s_mat (vd : list R) (y : list (list R)) (i j : nat) : R :=
  wsum (map (fun r => r / rsum vd) vd) (fun x => (nth i x 0 - xbar vd y i) * (nth j x 0 - xbar vd y j)) y.
(* np.einsum('ij,ji->', a, p) *)
Definition trace_prod (d : nat) (a : nat -> nat -> R) (p : list (list R)) : R :=
  rsum (map (fun i => rsum (map (fun j => a i j * mentry p j i) (seq 0 d))) (seq 0 d)).
(* one turn of the loop of _base.py:1034-1050; d is y.shape[1] *)
Definition px_term (d : nat) (y : list (list R)) (va : list R * ratom) : ext :=
  let (vd, a) := va in
  ext_add (e_log_norm_wishart (ra_prec a) (ra_scale a))
          (EF (- (INR d / ra_lam a) - ra_scale a * trace_prod d (s_mat vd y) (ra_prec a)
               - ra_scale a * qform (ra_prec a) (fun i => xbar vd y i - nth i (ra_mu a) 0))).
Definition e_q_log_p_x (d : nat) (y : list (list R)) (D : list (list R)) (theta : list ratom) (var_k : nat) : ext :=
  ext_scale (1 / 2) (ext_add (ext_sum (map (px_term d y) (combine D theta))) (EF (- (INR d * ln (2 * PI) * INR var_k)))).

(* mixture_models/_utils.py:109-117 *)
Definition log_wishart_norm (p : list (list R)) (scale : R) : ext :=
  let d := INR (length p) in
  ext_add (ext_scale (- scale / 2) (ext_log (EF (frob p))))
          (EF (- (ln 2 * (scale * d / 2) + ln PI * (d * (d - 1) / 4)
                  + rsum (map (fun i => lgamma ((scale - INR i) / 2)) (seq 0 (length p)))))).
(* mixture_models/_utils.py:129-134 *)
Definition entropy_wishart (p : list (list R)) (scale : R) : ext :=
  let d := INR (length p) in
  ext_add (ext_add (ext_opp (log_wishart_norm p scale)) (ext_scale (- ((scale - d - 1) / 2)) (e_log_norm_wishart p scale)))
          (EF (scale * d / 2)).

(* the priors mu, lambda, psi, nu and np.linalg.inv(psi) *)
Record rprior := RP { rp_mu : list R; rp_lam : R; rp_psi : list (list R); rp_inv : list (list R); rp_nu : R }.
(* _base.py:1060-1079 *)
Definition ptheta_term (d : nat) (h : rprior) (a : ratom) : ext :=
  ext_add (ext_scale (rp_nu h - INR d) (e_log_norm_wishart (ra_prec a) (ra_scale a)))
          (EF (- (INR d * rp_lam h / ra_lam a) - ra_scale a * trace_prod d (mentry (rp_psi h)) (ra_prec a)
               - rp_lam h * ra_scale a * qform (ra_prec a) (fun i => nth i (ra_mu a) 0 - nth i (rp_mu h) 0))).
Definition e_log_p_theta (d : nat) (h : rprior) (theta : list ratom) (var_k : nat) : ext :=
  ext_add (ext_scale (1 / 2) (ext_add (ext_sum (map (ptheta_term d h) theta)) (EF (INR d * ln (rp_lam h / (2 * PI)) * INR var_k))))
          (ext_scale (INR var_k) (log_wishart_norm (rp_inv h) (rp_nu h))).
(* _base.py:1081-1082, for positive responsibilities *)
Definition e_log_q_d (D : list (list R)) : ext := EF (rsum (map (fun vd => rsum (map (fun r => r * ln r) vd)) D)).
(* _base.py:1087-1097 *)
Definition qtheta_term (d : nat) (a : ratom) : ext :=
  ext_add (ext_add (e_log_norm_wishart (ra_prec a) (ra_scale a)) (EF (INR d * ln (ra_lam a / (2 * PI)))))
          (ext_opp (entropy_wishart (ra_prec a) (ra_scale a))).
Definition e_log_q_theta (d : nat) (theta : list ratom) (var_k : nat) : ext :=
  ext_scale (1 / 2) (ext_add (ext_sum (map (qtheta_term d) theta)) (EF (INR d * INR var_k))).
(* _calc_elbo, _base.py:979-988: pdw, pw and qw are what the weight model returns
   for variational_mean_log_p_d__w, variational_mean_log_p_w and
   variational_mean_log_q_w; _e_loq_q_w (_base.py:1084-1085) asks for the second *)
Definition e_loq_q_w (pw qw : ext) : ext := pw.
Definition calc_elbo (d : nat) (y : list (list R)) (D : list (list R)) (theta : list ratom) (var_k : nat) (h : rprior) (pdw pw qw : ext) : ext :=
  let plus a b := ext_add a b in
  let minus a b := ext_add a (ext_opp b) in
  minus (minus (minus (plus (plus (plus (plus (EF 0) (e_q_log_p_x d y D theta var_k)) pdw) pw) (e_log_p_theta d h theta var_k))
               (e_log_q_d D)) (e_loq_q_w pw qw)) (e_log_q_theta d theta var_k).
End Special.
