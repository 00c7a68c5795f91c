(* Log-likelihoods of the weight models. *)
From Coq Require Import Reals Qreals.
From Verif Require Import Prelude Numpy Rng M_Weights.
Open Scope Q_scope.
Open Scope m_scope.

(* a numpy double that is a finite real, -inf or NaN *)
Inductive elog := Fin (x : R) | NegInf | LNaN.
Definition eadd (a b : elog) : elog :=
  match a, b with
  | Fin x, Fin y => Fin (x + y)%R
  | LNaN, _ | _, LNaN => LNaN
  | _, _ => NegInf
  end.
(* np.log *)
Definition np_log (x : Q) : elog :=
  if qltb 0 x then Fin (ln (Q2R x)) else if Qeq_bool x 0 then NegInf else LNaN.
Definition esum (l : list elog) : elog := fold_right eadd (Fin 0) l.

(* weight_models/_base.py:122-129, assignation_log_likelihood *)
Definition wm_assign_ll (c : cls) (dd : option (list nat)) : M ws elog :=
  xs <- wm_assign_weights c dd ;; ret (esum (map np_log xs)).

(* The terms that weighting_log_likelihood adds up.  The scipy/numpy values of
   the terms are not modelled, only which terms with which arguments.
   TBeta x a b: beta.logpdf(x, a, b), x = None is NaN;
   TBetaBinom k n a b: betabinom.logpmf(k, n, a, b);
   TBinom k n p: binom.logpmf(k, n, p);
   TDir w alpha: dirichlet.logpdf(w, alpha) (which itself may raise ValueError);
   TLog k p: k * np.log(p);
   TEppf a counts: dirichlet_log_eppf(a, counts), utils/functions.py:18-24. *)
Inductive lterm :=
| TBeta (x : option Q) (a b : Q)
| TBetaBinom (k n : Z) (a b : Q)
| TBinom (k n : Z) (p : Q)
| TDir (w alpha : list Q)
| TLog (k : nat) (p : Q)
| TEppf (a : Q) (counts : list nat).

(* _dirichlet_process.py:16-23, _pitman_yor_process.py:19-27,
   _beta_in_beta.py:27-35: v = w_j / prod_v; prod_v *= 1 - v.  A division by 0
   gives NaN or inf; both make every later prod_v NaN or inf and are written
   None (weights reached by the library only give 0/0). *)
Fixpoint recover (prod_v : option Q) (w : list Q) : list (option Q) :=
  match w with
  | [] => []
  | x :: t =>
      let v := match prod_v with
               | Some q => if Qeq_bool q 0 then None else Some (x / q)
               | None => None end in
      let prod' := match prod_v, v with Some q, Some y => Some (q * (1 - y)) | _, _ => None end in
      v :: recover prod' t
  end.
(* the first stick is w[0] itself *)
Definition recover_sticks (w : list Q) : list (option Q) :=
  match w with [] => [] | x :: t => Some x :: recover (Some (1 - x)) t end.

(* np.unique with return_counts: sorted distinct values and multiplicities *)
Fixpoint uinsert (x : Q) (l : list (Q * nat)) : list (Q * nat) :=
  match l with
  | [] => [(x, 1%nat)]
  | (y, n) :: t => if Qeq_bool x y then (y, S n) :: t
                   else if qltb x y then (x, 1%nat) :: l else (y, n) :: uinsert x t
  end.
Definition qunique (l : list Q) : list (Q * nat) := fold_right uinsert [] l.

Fixpoint index_terms {A} (f : nat -> A -> lterm) (j : nat) (l : list A) : list lterm :=
  match l with [] => [] | x :: t => f j x :: index_terms f (S j) t end.

(* _beta_bernoulli.py:31-33: for j in range(1, len(v)): if not bernoullis[j] *)
Fixpoint bb_terms (alpha : Q) (vs : list Q) (bs : list nat) : res (list lterm) :=
  match vs with
  | [] => Ok []
  | x :: t => match bs with
    | [] => Err IndexError
    | b :: bt => match bb_terms alpha t bt with
        | Ok r => Ok (if Nat.eqb b 0 then TBeta (Some x) 1 alpha :: r else r)
        | e => e
        end
    end
  end.

(* _beta_binomial.py:20-25: the loop over j = 1 .. len(v) - 2; [vs] are the
   sticks from v[1] on, [bs] the binomials from binomials[1] on *)
Fixpoint bbin_terms (n : Z) (alpha : Q) (vs : list Q) (bs : list Z) (b : Z) : res (list lterm) :=
  match vs with
  | [] => Err IndexError (* not used: vs is not empty at the call *)
  | [x] => Ok [TBeta (Some x) (1 + zq b) (alpha + zq n - zq b)]
  | x :: t => match bs with
    | [] => Err IndexError
    | b' :: bt => match bbin_terms n alpha t bt b' with
        | Ok r => Ok (TBeta (Some x) (1 + zq b) (alpha + zq n - zq b) :: TBinom b' n x :: r)
        | e => e
        end
    end
  end.

(* weighting_log_likelihood of every class, as the list of its terms *)
Definition wm_weight_ll (c : cls) (s : ws) : res (list lterm) :=
  match c with
  | CDirDist _ alpha =>      (* _dirichlet_distribution.py:21-24 *)
      Ok (if is_nil (w s) then [] else [TDir (w s) alpha])
  | CDP alpha =>             (* _dirichlet_process.py:15-23; self.w[0] *)
      if is_nil (w s) then Err IndexError else
      Ok (map (fun x => TBeta x 1 alpha) (recover_sticks (w s)))
  | CPY pyd alpha =>         (* _pitman_yor_process.py:18-27 *)
      if is_nil (w s) then Err IndexError else
      Ok (index_terms (fun j x => TBeta x (1 - pyd) (alpha + nq j * pyd)) 0 (recover_sticks (w s)))
  | CGeom a b => Ok [TBeta (Some (p s)) a b]   (* _geometric_process.py:18-20 *)
  | CBIB x alpha a b _ =>    (* _beta_in_beta.py:26-40 *)
      if is_nil (w s) then Err IndexError else
      if Qeq_bool x 1 then Err ZeroDivisionError else
      Ok (map (fun y => TBeta y (1 + x / (1 - x) * p s) (alpha + x / (1 - x) * (1 - p s)))
              (recover_sticks (w s)) ++ [TBeta (Some (p s)) a b])
  | CBID alpha a =>          (* _beta_in_dirichlet.py:19-25 *)
      let u := qunique (v s) in
      Ok (map (fun y => TBeta (Some (fst y)) 1 alpha) u ++ [TEppf a (map snd u)])
  | CBB q alpha =>           (* _beta_bernoulli.py:16-34 *)
      let logs := if Qeq_bool q 0 then [] else map (fun b => TLog b q) (bern s) in
      match v s with
      | [] => Err IndexError
      | x :: t => match bb_terms alpha t (tl (bern s)) with
          | Ok r => Ok (logs ++ TBeta (Some x) 1 alpha :: r)
          | e => e
          end
      end
  | CBBin n alpha =>         (* _beta_binomial.py:17-29 *)
      match binoms s, v s with
      | b :: bt, [x] => Ok [TBetaBinom b n 1 alpha; TBeta (Some x) (1 + zq b) (alpha + zq n - zq b)]
      | b :: bt, _ :: x :: t =>
          match bbin_terms n alpha (x :: t) bt b with
          | Ok r => Ok (TBetaBinom b n 1 alpha :: r)
          | e => e
          end
      | _, _ => Err IndexError
      end
  | CEqual | CFreq _ => Ok []  (* _equal.py:12-13, _frequency.py:12-13 *)
  end.
