(* Specifications of the numbers of the variational mixture. *)
From Coq Require Import Reals.
From Verif Require Import Prelude M_Ext S_Sample M_VarNum.
Open Scope R_scope.

(* rs is a vector of strictly positive probabilities *)
Definition prob_vector (rs : list R) : Prop := Forall (fun r => 0 < r) rs /\ rsum rs = 1.
(* entry j of the normalised exponentials of the scores *)
Definition softmax (l : list ext) (j : nat) : R := pw l j / total l.
(* larger score, larger probability *)
Definition monotone_in (l : list ext) (rs : list R) : Prop :=
  forall i j, (i < length l)%nat -> (j < length l)%nat -> (pw l i < pw l j <-> nth i rs 0 < nth j rs 0).
(* j is the first index of a largest score *)
Definition first_best (l : list ext) (j : nat) : Prop :=
  (j < length l)%nat /\ (forall i, (i < length l)%nat -> pw l i <= pw l j) /\ (forall i, (i < j)%nat -> pw l i < pw l j).
(* the arithmetic mean *)
Definition r_mean (xs : list R) (m : R) : Prop := m * INR (length xs) = rsum xs.

(* determinant by expansion along the first row *)
Definition skip (j i : nat) : nat := if Nat.ltb i j then i else S i.
Fixpoint det (k : nat) (m : nat -> nat -> R) : R :=
  match k with
  | O => 1
  | S n => rsum (map (fun j => (-1) ^ j * m 0%nat j * det n (fun a b => m (S a) (skip j b))) (seq 0 (S n)))
  end.
Definition det_of (p : list (list R)) : R := det (length p) (fun i j => nth j (nth i p []) 0).
Definition square_mat (k : nat) (p : list (list R)) : Prop := length p = k /\ Forall (fun r => length r = k) p.
(* squared Mahalanobis distance *)
Definition mahalanobis (k : nat) (p : list (list R)) (x mu : list R) : R :=
  rsum (map (fun i => rsum (map (fun j => (nth i x 0 - nth i mu 0) * nth j (nth i p []) 0 * (nth j x 0 - nth j mu 0)) (seq 0 k))) (seq 0 k)).
(* the k-variate normal density with precision p *)
Definition normal_pdf (k : nat) (x mu : list R) (p : list (list R)) : R :=
  sqrt (det_of p / (2 * PI) ^ k) * exp (- mahalanobis k p x mu / 2).
(* the k-variate Student density with nu degrees of freedom *)
Definition student_pdf (gam : R -> R) (k : nat) (x mu : list R) (p : list (list R)) (nu : R) : R :=
  gam ((nu + INR k) / 2) / gam (nu / 2) * sqrt (det_of p / (nu * PI) ^ k)
  * Rpower (1 + mahalanobis k p x mu / nu) (- ((nu + INR k) / 2)).
(* c times the identity *)
Definition scalar_mat (k : nat) (c : R) : list (list R) :=
  map (fun i => map (fun j => if Nat.eqb i j then c else 0) (seq 0 k)) (seq 0 k).
(* Frobenius norm *)
Definition norm2 (p : list (list R)) : R := rsum (map (fun r => rsum (map (fun x => x * x) r)) p).

(* expectation of log w + log N(x | mu, Lambda) when (mu, Lambda) is Normal -
   Wishart(m, lam, W, nu) and the expected log weight is elw; dg is the digamma
   function *)
Definition expected_log_joint (dg : R -> R) (k : nat) (elw : R) (x m : list R) (lam : R) (W : list (list R)) (nu : R) : R :=
  elw + (ln (det_of W) + INR k * ln 2 + rsum (map (fun i => dg ((nu + 1 - INR i) / 2)) (seq 1 k))) / 2
  - INR k / 2 * ln (2 * PI) - (INR k / lam + nu * mahalanobis k W x m) / 2.

(* ---- evidence lower bound of a mixture of normals with Normal - Wishart
   variational factors (Bishop, Pattern Recognition and Machine Learning,
   equations 10.70 - 10.77); k is the dimension, dg digamma, lg log-gamma ---- *)
Record factor := Factor { f_mean : list R; f_lam : R; f_W : list (list R); f_nu : R }.
(* E[log |Lambda|] *)
Definition e_log_det (dg : R -> R) (k : nat) (f : factor) : R :=
  rsum (map (fun i => dg ((f_nu f + 1 - INR i) / 2)) (seq 1 k)) + INR k * ln 2 + ln (det_of (f_W f)).
(* log of the normalising constant of the Wishart density *)
Definition log_B (lg : R -> R) (k : nat) (W : list (list R)) (nu : R) : R :=
  - (nu / 2) * ln (det_of W) - (nu * INR k / 2 * ln 2 + INR k * (INR k - 1) / 4 * ln PI + rsum (map (fun i => lg ((nu + 1 - INR i) / 2)) (seq 1 k))).
Definition wishart_entropy (dg lg : R -> R) (k : nat) (f : factor) : R :=
  - log_B lg k (f_W f) (f_nu f) - (f_nu f - INR k - 1) / 2 * e_log_det dg k f + f_nu f * INR k / 2.
(* E[log N(x | mu, Lambda^-1)] *)
Definition e_log_normal (dg : R -> R) (k : nat) (f : factor) (x : list R) : R :=
  (e_log_det dg k f - INR k / f_lam f - f_nu f * mahalanobis k (f_W f) x (f_mean f) - INR k * ln (2 * PI)) / 2.
(* contribution of one group to E[log p(X | Z, mu, Lambda)] *)
Definition group_term (dg : R -> R) (k : nat) (y : list (list R)) (rf : list R * factor) : R :=
  rsum (map (fun p => fst p * e_log_normal dg k (snd rf) (snd p)) (combine (fst rf) y)).
Definition true_px (dg : R -> R) (k : nat) (y D : list (list R)) (fs : list factor) : R := rsum (map (group_term dg k y) (combine D fs)).
(* E[log p(mu, Lambda)] *)
Definition true_ptheta (dg lg : R -> R) (k : nat) (m0 : list R) (lam0 : R) (W0inv W0 : list (list R)) (nu0 : R) (fs : list factor) : R :=
  rsum (map (fun f =>
    (INR k * ln (lam0 / (2 * PI)) + e_log_det dg k f - INR k * lam0 / f_lam f - lam0 * f_nu f * mahalanobis k (f_W f) (f_mean f) m0) / 2
    + log_B lg k W0 nu0 + (nu0 - INR k - 1) / 2 * e_log_det dg k f
    - f_nu f / 2 * rsum (map (fun i => rsum (map (fun j => nth j (nth i W0inv []) 0 * nth i (nth j (f_W f) []) 0) (seq 0 k))) (seq 0 k))) fs).
(* E[log q(Z)] *)
Definition true_qz (D : list (list R)) : R := rsum (map (fun r => rsum (map (fun x => x * ln x) r)) D).
(* E[log q(mu, Lambda)] *)
Definition true_qtheta (dg lg : R -> R) (k : nat) (fs : list factor) : R :=
  rsum (map (fun f => e_log_det dg k f / 2 + INR k / 2 * ln (f_lam f / (2 * PI)) - INR k / 2 - wishart_entropy dg lg k f) fs).
Definition true_elbo (dg lg : R -> R) (k : nat) (y D : list (list R)) (fs : list factor) (m0 : list R) (lam0 : R) (W0inv W0 : list (list R)) (nu0 pz pw qw : R) : R :=
  true_px dg k y D fs + pz + pw + true_ptheta dg lg k m0 lam0 W0inv W0 nu0 fs - true_qz D - qw - true_qtheta dg lg k fs.
(* the variational factor an atom stands for *)
Definition factor_of (a : ratom) : factor := Factor (ra_mu a) (ra_lam a) (ra_prec a) (ra_scale a).
(* matrices for which the Frobenius norm is the determinant, e.g. 1 x 1 *)
Definition det_is_norm (k : nat) (p : list (list R)) : Prop := square_mat k p /\ 0 < det_of p /\ sqrt (norm2 p) = det_of p.
(* hypotheses on the state: one responsibility row per atom, masses not zero *)
Definition state_ok (d : nat) (y D : list (list R)) (theta : list ratom) : Prop :=
  length D = length theta /\ Forall (fun vd => length vd = length y /\ rsum vd <> 0) D /\ Forall (fun a => det_is_norm d (ra_prec a)) theta.
