(* Specification vocabulary for "the draw on labels is the posterior of the draw
   without labels". *)
From Verif Require Import Prelude Numpy Rng M_Weights S_Weights S_Moment.
Open Scope Q_scope.

(* the probability of the labels dd when the weights are known *)
Definition label_chance (dd : list nat) (r : res (list Q)) (s : ws) : Q :=
  qproduct (map (fun i => weight i r s) dd).
(* the product of x_j^e (1-x_j)^f over the exponents (e, f) given *)
Fixpoint powers (es : list (nat * nat)) (xs : list Q) : Q :=
  match es, xs with
  | (e, f) :: es', x :: xs' => qpow x e * qpow (1 - x) f * powers es' xs'
  | _, _ => 1
  end.
Definition stick_powers (es : list (nat * nat)) (r : res (list Q)) (s : ws) : Q := powers es (v s).
Definition p_powers (e f : nat) (r : res (list Q)) (s : ws) : Q := qpow (p s) e * qpow (1 - p s) f.
(* the product of x_j^(e_j) *)
Fixpoint plain_powers (es : list nat) (xs : list Q) : Q :=
  match es, xs with e :: es', x :: xs' => qpow x e * plain_powers es' xs' | _, _ => 1 end.
Definition weight_powers (es : list nat) (r : res (list Q)) (s : ws) : Q :=
  match r with Ok x => plain_powers es x | _ => 0 end.

(* Bayes' rule: the mean of psi under the call [post] is the mean of psi under
   the call [prior] reweighted by the likelihood [lik]. *)
Definition bayes (L : law) (prior : M ws (list Q)) (s0 : ws) (post : M ws (list Q)) (s1 : ws)
  (lik psi : res (list Q) -> ws -> Q) : Prop :=
  exists z m, 0 < z /\ mean_of L prior s0 lik z /\ mean_of L post s1 psi m /\
    mean_of L prior s0 (fun r s => lik r s * psi r s) (z * m).

(* the moments of the Dirichlet distribution up to degree N *)
Fixpoint rises (al : list Q) (es : list nat) : Q :=
  match al, es with a :: al', e :: es' => rising a e * rises al' es' | _, _ => 1 end.
Definition dir_moments (N : nat) (L : law) : Prop :=
  forall al es, al <> [] -> pos al -> length es = length al -> (list_sum es <= N)%nat ->
  e_dir L al (plain_powers es) == rises al es / rising (qsum al) (list_sum es).

(* the ways to ask for n weights when the labels dd are set: an integer size, or
   no size, which gives one weight per label value *)
Definition post_size (dd : list nat) (n : nat) (size : pysize) : Prop :=
  size = SNone /\ n = S (list_max dd) \/ size = SInt (Z.of_nat n).

(* The mean of psi under [post] stands in the relation R to its posterior mean. *)
Definition bayes_off (R : Q -> Q -> Prop) (L : law) (prior : M ws (list Q)) (s0 : ws) (post : M ws (list Q)) (s1 : ws)
  (lik psi : res (list Q) -> ws -> Q) : Prop :=
  exists z m y, 0 < z /\ mean_of L prior s0 lik z /\ mean_of L prior s0 (fun r s => lik r s * psi r s) (z * m) /\
    mean_of L post s1 psi y /\ R y m.
