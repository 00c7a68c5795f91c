(* Specification: coordinate updates of the variational approximation. *)
From Coq Require Import Reals Qreals.
From Verif Require Import Prelude M_Weights M_Ext M_Var S_Var.
Open Scope R_scope.

Definition sticks_in (k : nat) (v : nat -> R) : Prop := forall j, (j < k)%nat -> 0 < v j < 1.
(* weights of the sticks v; with k groups the last one takes the rest *)
Definition stick_weight (v : nat -> R) (j : nat) : R := v j * prodn (fun i => 1 - v i) j.
Definition stick_weight_last (k : nat) (v : nat -> R) (j : nat) : R :=
  (if (S j <? k)%nat then v j else 1) * prodn (fun i => 1 - v i) j.
(* log of the unnormalised density of Beta(a, b) at v, of Dirichlet(l) at w *)
Definition beta_kernel (a b v : R) : R := (a - 1) * ln v + (b - 1) * ln (1 - v).
Definition dirichlet_kernel (l : list R) (w : nat -> R) : R := sumn (fun j => (nth j l 0 - 1) * ln (w j)) (length l).

(* Kullback-Leibler divergences between Beta distributions are not negative:
   log B(a, b) + log lies above its tangents *)
Definition log_beta (lg : R -> R) (a b : R) : R := lg a + lg b - lg (a + b).
Definition beta_divergence_nonneg (psi lg : R -> R) : Prop :=
  forall a b a' b', 0 < a -> 0 < b -> 0 < a' -> 0 < b' ->
    log_beta lg a' b' + (a - a') * (psi a' - psi (a' + b')) + (b - b') * (psi b' - psi (a' + b')) <= log_beta lg a b.

(* the part of the lower bound that depends on the weights:
   E log p(d|w) + E log p(w) - E log q(w) *)
Definition weight_bound (psi lg : R -> R) (c : cls) (s : vs) (x : R) : Prop :=
  exists d p q, mean_log_pd psi c None s = (Ok (EF d), s) /\ mean_log_p psi lg c s = Ok (EF p) /\ mean_log_q psi lg c s = Ok (EF q) /\ x = d + p - q.
(* the same object with other Beta parameters *)
Definition with_params (l : list (R * R)) (s : vs) : vs := VS (vd s) (vk s) (PBeta l) (vn s).
Definition positive_params (l : list (R * R)) : Prop := Forall (fun ab => 0 < fst ab /\ 0 < snd ab) l.

(* nonnegative numbers adding up to 1 *)
Definition distribution (rs : list R) : Prop := Forall (fun r => 0 <= r) rs /\ rsum rs = 1.
(* expected score plus entropy of the labels of one observation (0 ln 0 = 0) *)
Definition label_bound (xs rs : list R) : R := sumn (fun j => nth j rs 0 * nth j xs 0 - nth j rs 0 * ln (nth j rs 0)) (length xs).
