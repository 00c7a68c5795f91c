(* The numpy array primitives used by pyrichlet, on lists, exact arithmetic. *)
From Verif Require Import Prelude.
Open Scope Q_scope.

(* np.sum of a vector *)
Fixpoint qsum (l : list Q) : Q := match l with [] => 0 | x :: t => x + qsum t end.

(* np.cumsum *)
Fixpoint cumsum_from (acc : Q) (l : list Q) : list Q :=
  match l with [] => [] | x :: t => (acc + x) :: cumsum_from (acc + x) t end.
Definition cumsum (l : list Q) : list Q := cumsum_from 0 l.

(* np.cumprod *)
Fixpoint cumprod_from (acc : Q) (l : list Q) : list Q :=
  match l with [] => [] | x :: t => (acc * x) :: cumprod_from (acc * x) t end.
Definition cumprod (l : list Q) : list Q := cumprod_from 1 l.

(* elementwise product of two vectors; lengths agree at every use, except
   (0,) * (1,) for an empty v, where broadcasting gives (0,), as here. *)
Fixpoint qmul2 (a b : list Q) : list Q :=
  match a, b with x :: a', y :: b' => (x * y) :: qmul2 a' b' | _, _ => [] end.

(* builtin max / ndarray.max on a vector of labels (callers guard emptiness) *)
Fixpoint nmax (l : list nat) : nat :=
  match l with [] => 0%nat | x :: t => Nat.max x (nmax t) end.

Fixpoint nsum (l : list nat) : nat :=
  match l with [] => 0%nat | x :: t => (x + nsum t)%nat end.

(* number of occurrences, np.sum(d == j) *)
Definition ncount (j : nat) (d : list nat) : nat :=
  length (filter (Nat.eqb j) d).

(* np.bincount on a vector of non-negative labels *)
Definition bincount (d : list nat) : list nat :=
  match d with [] => [] | _ => map (fun j => ncount j d) (seq 0 (S (nmax d))) end.

(* np.cumsum on integer counts *)
Fixpoint ncumsum_from (acc : nat) (l : list nat) : list nat :=
  match l with [] => [] | x :: t => (acc + x)%nat :: ncumsum_from (acc + x)%nat t end.
Definition ncumsum (l : list nat) : list nat := ncumsum_from 0 l.

(* np.concatenate((np.cumsum(a_c[::-1])[-2::-1], [0]))  -- the idiom used at
   _dirichlet_process.py:36, _pitman_yor_process.py:41, _beta_in_beta.py:52,
   _beta_bernoulli.py:56,92, _beta_binomial.py:43,76, _beta_in_dirichlet.py:47.
   x[-2::-1] is "drop the last element and reverse". *)
Definition tail_counts (a_c : list nat) : list nat :=
  rev (removelast (ncumsum (rev a_c))) ++ [0%nat].

(* np.bincount(mask, weights) *)
Definition wsum_at (j : nat) (mask : list nat) (x : list nat) : nat :=
  nsum (map (fun mw : nat * nat => if Nat.eqb (fst mw) j then snd mw else 0%nat)
            (combine mask x)).
Definition wbincount (mask : list nat) (x : list nat) : list nat :=
  match mask with
  | [] => []
  | _ => map (fun j => wsum_at j mask x) (seq 0 (S (nmax mask)))
  end.

Definition nq (n : nat) : Q := inject_Z (Z.of_nat n).
Definition zq (z : Z) : Q := inject_Z z.

(* v * np.cumprod(np.concatenate(([1], 1 - v[:-1]))) -- the stick-breaking
   expression, e.g. _dirichlet_process.py:43-44,55-56. *)
Definition stick (v : list Q) : list Q :=
  qmul2 v (cumprod (1 :: map (fun x => 1 - x) (removelast v))).

(* fancy indexing x[idx]; None = IndexError *)
Fixpoint gather {A} (x : list A) (idx : list nat) : option (list A) :=
  match idx with
  | [] => Some []
  | i :: t => match nth_error x i, gather x t with
              | Some a, Some r => Some (a :: r) | _, _ => None end
  end.

Definition qleb := Qle_bool.
Definition qltb (a b : Q) : bool := negb (Qle_bool b a).

Lemma qltb_lt a b : qltb a b = true <-> a < b.
Proof.
  unfold qltb; rewrite negb_true_iff; split; intros H.
  - apply Qnot_le_lt; intros K; apply Qle_bool_iff in K; congruence.
  - destruct (Qle_bool b a) eqn:E; [|reflexivity].
    apply Qle_bool_iff in E; exfalso; apply (Qlt_not_le _ _ H E).
Qed.
Lemma qltb_ge a b : qltb a b = false <-> b <= a.
Proof.
  unfold qltb; rewrite negb_false_iff; apply Qle_bool_iff.
Qed.
