(* Specifications of Gumbel-max sampling and of partition probabilities. *)
From Coq Require Import Reals Permutation.
From Verif Require Import Prelude M_Ext.
Open Scope R_scope.

(* a log-probability up to a constant: finite or -inf *)
Definition proper (l : list ext) : Prop := Forall (fun x => x = ENI \/ exists r, x = EF r) l.
(* its exponential *)
Definition weight (x : ext) : R := match x with EF r => exp r | _ => 0 end.
Definition pw (logp : list ext) (j : nat) : R := weight (nth j logp ENI).
(* draws of the open unit interval *)
Definition open_unit (us : list R) : Prop := Forall (fun u => 0 < u < 1) us.

(* Arrival time of runner j: standard exponential -ln(u_j) divided by the rate
   p_j.  j wins the race when nobody arrives earlier and, in case of a tie, it is
   the first; rates may be zero, hence the products. *)
Definition wins (logp : list ext) (us : list R) (j : nat) : Prop :=
  (j < length logp)%nat /\
  (forall i, (i < length logp)%nat -> pw logp i * (- ln (nth j us 0)) <= pw logp j * (- ln (nth i us 0))) /\
  (forall i, (i < j)%nat -> pw logp i * (- ln (nth j us 0)) < pw logp j * (- ln (nth i us 0))).

(* product of f over the indices 0 .. n-1 other than j *)
Fixpoint prod_but (j : nat) (f : nat -> R) (n : nat) : R :=
  match n with O => 1 | S m => prod_but j f m * (if Nat.eqb m j then 1 else f m) end.
(* The set A of points of the open unit k-cube has volume v, computed by cutting
   it along coordinate j: up to its boundary the cut at u_j = t is the box with
   sides [0, c i t], i <> j, and the integral of the volumes of these boxes
   over t is v. *)
Definition sliced_volume (k j : nat) (A : list R -> Prop) (v : R) : Prop :=
  exists c : nat -> R -> R,
    (forall i t, 0 <= t <= 1 -> 0 <= c i t <= 1) /\
    (forall us, length us = k -> open_unit us ->
       ((forall i, (i < k)%nat -> i <> j -> nth i us 0 < c i (nth j us 0)) -> A us) /\
       (A us -> forall i, (i < k)%nat -> i <> j -> nth i us 0 <= c i (nth j us 0))) /\
    exists pr : Riemann_integrable (fun t => prod_but j (fun i => c i t) k) 0 1, RiemannInt pr = v.

(* sum of the weights *)
Definition total (logp : list ext) : R := rsum (map weight logp).

(* ---- partitions ---- *)
Definition blocks (ns : list nat) : Prop := Forall (fun n => (1 <= n)%nat) ns.
(* the j-th block gets one more element *)
Fixpoint grow (j : nat) (ns : list nat) : list nat :=
  match j, ns with
  | _, [] => []
  | O, n :: t => S n :: t
  | S i, n :: t => n :: grow i t
  end.
(* alpha (alpha+1) ... (alpha+n-1) *)
Fixpoint rising (alpha : R) (n : nat) : R := match n with O => 1 | S m => rising alpha m * (alpha + INR m) end.
Definition rprod (l : list R) : R := fold_right Rmult 1 l.
(* Ewens' formula *)
Definition ewens (alpha : R) (ns : list nat) : R :=
  alpha ^ length ns * rprod (map (fun n => INR (fact (n - 1))) ns) / rising alpha (list_sum ns).
