(* Specification vocabulary for the prior of BetaInDirichlet: an urn that hands
   out labels of base sticks. *)
From Verif Require Import Prelude Numpy Rng M_Weights S_Weights S_Hist.
Open Scope Q_scope.

(* Labels drawn one after the other when k labels 0 .. k-1 exist already: each
   is an old label or the next new one. *)
Definition next (k p : nat) : nat := if (p <? k)%nat then k else S k.
Fixpoint picks (k : nat) (ps : list nat) : Prop :=
  match ps with [] => True | p :: t => (p <= k)%nat /\ picks (next k p) t end.
(* how many labels exist afterwards *)
Definition labels_after (k : nat) (ps : list nat) : nat := fold_left next ps k.

(* The urn: the next label is an old label j with weight "how often j was seen",
   or a new one with weight a; a new label brings a fresh Beta(1, alpha) stick. *)
Definition urn_weights (a : Q) (k : nat) (seen : list nat) : list Q :=
  map (fun j => nq (n_eq j seen)) (seq 0 k) ++ [a].
Fixpoint urn_requests (al a : Q) (k : nat) (seen ps : list nat) : list req :=
  match ps with
  | [] => []
  | p :: t =>
      RChoice (map Qred (urn_weights a k seen)) ::
      (if (p <? k)%nat then [] else [rbeta 1 al]) ++
      urn_requests al a (next k p) (seen ++ [p]) t
  end.

(* the answers to the label requests and to the stick requests of a log *)
Fixpoint choices (o : oracle) (g rs : rng) : list nat :=
  match rs with
  | [] => []
  | RChoice ws :: t => o_choice o g ws :: choices o (g ++ [RChoice ws]) t
  | r :: t => choices o (g ++ [r]) t
  end.
Fixpoint betas (o : oracle) (g rs : rng) : list Q :=
  match rs with
  | [] => []
  | RBeta a b :: t => o_beta o g a b :: betas o (g ++ [RBeta a b]) t
  | r :: t => betas o (g ++ [r]) t
  end.
(* the probability of the labels in a log: each request gives the weights *)
Fixpoint chance (o : oracle) (g rs : rng) : Q :=
  match rs with
  | [] => 1
  | RChoice ws :: t => nth (o_choice o g ws) ws 0 / qsum ws * chance o (g ++ [RChoice ws]) t
  | r :: t => chance o (g ++ [r]) t
  end.

(* the counts of the object are those of the labels seen, and every label has a
   base stick *)
Definition urn_state (seen : list nat) (s : ws) : Prop :=
  cbase s = counts_of seen (length (vbase s)) /\ Forall (fun j => (j < length (vbase s))%nat) seen.

(* An object with base sticks [base], sticks [sticks] and labels [labs] gets n
   more sticks, labelled ps, from the urn that has seen [seen]. *)
Definition urn_extends (al a : Q) (base sticks : list Q) (labs seen : list nat) (n : nat) (o : oracle) (g : rng) (s' : ws) (g' : rng) (ps : list nat) : Prop :=
  let rs := urn_requests al a (length base) seen ps in
  length ps = n /\ picks (length base) ps /\
  g' = g ++ rs /\ choices o g rs = ps /\
  vbase s' = base ++ betas o g rs /\
  v s' = sticks ++ map (fun p => nth p (vbase s') 0) ps /\
  dbase s' = labs ++ ps /\ stick_image (v s') (w s') /\
  urn_state (seen ++ ps) s'.

(* The probability that the urn hands out ps. *)
Fixpoint urn_chance (a : Q) (k : nat) (seen ps : list nat) : Q :=
  match ps with
  | [] => 1
  | p :: t =>
      (if (p <? k)%nat then nq (n_eq p seen) else a) / (nq (length seen) + a) *
      urn_chance a (next k p) (seen ++ [p]) t
  end.

(* Which draws coincide: a pattern lists labels in order of first appearance;
   a list has the pattern t when the same positions coincide. *)
Definition pattern (t : list nat) : Prop := picks 0 t.
Definition same_ties (x y : list nat) : Prop :=
  length x = length y /\
  forall i j, (i < length x)%nat -> (j < length x)%nat ->
    (nth i x 0%nat = nth j x 0%nat <-> nth i y 0%nat = nth j y 0%nat).
(* sizes of the blocks of a pattern *)
Definition block_sizes (t : list nat) : list nat := counts_of t (labels_after 0 t).
