(* When a variational fit has numbers. *)
From Coq Require Import Reals.
From Verif Require Import Prelude Numpy Rng M_Weights M_Ext M_Var M_VarNum M_VarLoop S_VarNum S_Affine.
Open Scope R_scope.

(* u' m u > 0 for every u that is not zero *)
Definition positive_definite (d : nat) (m : list (list R)) : Prop :=
  square_mat d m /\
  forall u : nat -> R, (exists i, (i < d)%nat /\ u i <> 0) ->
  0 < rsum (map (fun i => rsum (map (fun j => u i * nth j (nth i m []) 0 * u j) (seq 0 d))) (seq 0 d)).
(* the inversion does not fail on positive definite matrices, and returns the inverse *)
Definition inverts_positive (d : nat) (inv : list (list R) -> option (list (list R))) : Prop :=
  forall m, positive_definite d m -> exists p, inv m = Some p /\ square_mat d p /\ product_is_one d m p.
(* k-means labels below k for n observations *)
Definition labels_ok (k n : nat) (l : list nat) : Prop := length l = n /\ Forall (fun b => (b < k)%nat) l.
Definition every_group_used (k : nat) (l : list nat) : Prop := forall j, (j < k)%nat -> In j l.
(* the weight models with a variational update, with arguments that fit k groups *)
Definition fits_groups (k : nat) (w : vs) (c : cls) : Prop :=
  match c with
  | CDP _ | CPY _ _ | CGeom _ _ | CEqual => True
  | CDirDist n al => n = Z.of_nat k /\ length al = k
  | CFreq _ => vn w = Z.of_nat k
  | _ => False
  end.
(* every observation has positive probabilities for the k groups, with sum 1 *)
Definition col_at (D : list (list R)) (i : nat) : list R := map (fun r => nth i r 0) D.
Definition probabilities (k n : nat) (D : mat) : Prop :=
  length (rows D) = k /\ cols D = n /\ Forall (fun r => length r = n) (rows D) /\
  forall i, (i < n)%nat -> prob_vector (col_at (rows D) i).
(* equal observations get equal labels *)
Definition respects (y : list (list R)) (l : list nat) : Prop :=
  forall i j, (i < length y)%nat -> (j < length y)%nat -> nth i y [] = nth j y [] -> nth i l 0%nat = nth j l 0%nat.
(* z lists all values that occur in y *)
Definition covers (z y : list (list R)) : Prop := forall x, In x y -> In x z.
