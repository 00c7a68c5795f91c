(* Specifications for the log-likelihoods of the weight models. *)
From Coq Require Import Reals Qreals.
From Verif Require Import Prelude Numpy Rng M_Weights M_Loglik S_Weights.
Open Scope Q_scope.

Definition rsum (l : list R) : R := fold_right Rplus 0%R l.

(* the labels a call with argument dd looks at: dd, or the fitted ones *)
Definition which (dd : option (list nat)) (s : ws) : list nat :=
  match dd with Some l => l | None => d s end.

(* x is the log-likelihood of the labels dl under the weights wl: -inf if one
   of their weights is 0, otherwise the (non-positive) sum of their logs *)
Definition ll_value (x : elog) (wl : list Q) (dl : list nat) : Prop :=
  match x with
  | NegInf => exists i, In i dl /\ nth i wl 0 == 0
  | Fin y => (forall i, In i dl -> 0 < nth i wl 0) /\
             y = rsum (map (fun i => ln (Q2R (nth i wl 0))) dl) /\ (y <= 0)%R
  | LNaN => False
  end.

(* all sticks but the last are different from 1 *)
Definition open_sticks (v : list Q) : Prop := Forall (fun x => ~ x == 1) (removelast v).

(* log-density of the sticks of a beta-binomial chain given the binomials that
   precede them (v_j | b_j, then b_{j+1} | v_j), the first binomial having its
   beta-binomial marginal law *)
Fixpoint chain_terms (n : Z) (alpha : Q) (v : list Q) (b : list Z) : list lterm :=
  match v, b with
  | [x], b0 :: _ => [TBeta (Some x) (1 + zq b0) (alpha + zq n - zq b0)]
  | x :: t, b0 :: (b1 :: _) as bt =>
      TBeta (Some x) (1 + zq b0) (alpha + zq n - zq b0) :: TBinom b1 n x :: chain_terms n alpha t (tl b)
  | _, _ => []
  end.

(* BetaBernoulli: sticks drawn anew (indicator 1), with the first stick *)
Definition new_sticks (v : list Q) (b : list nat) : list Q :=
  match v with
  | [] => []
  | x :: t => x :: map fst (filter (fun y => negb (Nat.eqb (snd y) 0)) (combine t (tl b)))
  end.
Definition copied_sticks (v : list Q) (b : list nat) : list Q :=
  match v with
  | [] => []
  | x :: t => map fst (filter (fun y => Nat.eqb (snd y) 0) (combine t (tl b)))
  end.
