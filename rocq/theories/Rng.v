(* Random generators as oracles over the log of requests. *)
From Verif Require Import Prelude Numpy.
Open Scope Q_scope.

(* One scalar (or one joint) draw requested from the generator, with its
   parameters.  A vectorised numpy call is a sequence of scalar requests. *)
Inductive req :=
| RBeta (a b : Q)                 (* Generator.beta *)
| RBinom (n : Z) (p : Q)          (* Generator.binomial *)
| RUnif (lo hi : Q)               (* Generator.uniform *)
| RDirichlet (alpha : list Q)     (* Generator.dirichlet *)
| RChoice (p : list Q)            (* Generator.choice(range(len(p)), p=p) *)
| RGumbel (ok : list bool)        (* gumbel_max_sampling over logits; false = -inf *)
| ROptim                          (* scipy.optimize.minimize over [0,1] *)
| RRoot                           (* scipy.optimize.brentq on [0,1] *)
| RInvWish (nu : Q) (psi : list (list Q))   (* scipy.stats.invwishart.rvs *)
| RMvn (mu : list Q) (sigma : list (list Q)) (* scipy.stats.multivariate_normal.rvs *)
| RKMeans (y : list (list Q)) (k : nat).    (* sklearn KMeans(n_clusters=k).fit_predict *)

Definition rng := list req.       (* requests made so far, oldest first *)

(* The answers; each may depend on everything requested before. *)
Record oracle := {
  o_beta : rng -> Q -> Q -> Q;
  o_binom : rng -> Z -> Q -> Z;
  o_unif : rng -> Q -> Q -> Q;
  o_dirichlet : rng -> list Q -> list Q;
  o_choice : rng -> list Q -> nat;
  o_gumbel : rng -> list bool -> nat;
  o_optim : rng -> option Q;      (* None: optimiser reports failure *)
  o_root : rng -> option Q;       (* None: brentq raises ValueError *)
  o_invw : rng -> Q -> list (list Q) -> list (list Q) + exn;  (* inr: the call raises *)
  o_mvn : rng -> list Q -> list (list Q) -> list Q + exn;
  o_kmeans : rng -> list (list Q) -> nat -> list nat
}.

(* Documented ranges of the numpy draws: the only facts assumed about the
   generator. *)
Record valid_oracle (o : oracle) : Prop := {
  vo_beta : forall g a b, 0 < a -> 0 < b -> 0 <= o_beta o g a b <= 1;
  vo_binom : forall g n p, (0 <= n)%Z -> 0 <= p <= 1 -> (0 <= o_binom o g n p <= n)%Z;
  vo_binom0 : forall g n p, (0 <= n)%Z -> p == 0 -> (o_binom o g n p = 0)%Z;
  vo_binom1 : forall g n p, (0 <= n)%Z -> p == 1 -> (o_binom o g n p = n)%Z;
  vo_unif : forall g lo hi, lo < hi -> lo <= o_unif o g lo hi /\ o_unif o g lo hi < hi;
  vo_unif_eq : forall g lo hi, lo == hi -> o_unif o g lo hi == lo;
  vo_dir_len : forall g al, length (o_dirichlet o g al) = length al;
  vo_dir_pos : forall g al, Forall (fun x => 0 < x) al ->
                 Forall (fun x => 0 <= x) (o_dirichlet o g al);
  vo_dir_sum : forall g al, al <> [] -> Forall (fun x => 0 < x) al ->
                 qsum (o_dirichlet o g al) == 1;
  vo_choice : forall g p, Exists (fun x => 0 < x) p ->
                 (o_choice o g p < length p)%nat /\ 0 < nth (o_choice o g p) p 0;
  vo_gumbel : forall g ok, In true ok -> nth (o_gumbel o g ok) ok false = true;
  vo_optim : forall g x, o_optim o g = Some x -> 0 <= x <= 1;
  vo_root : forall g x, o_root o g = Some x -> 0 <= x <= 1;
  vo_kmeans_len : forall g y k, length (o_kmeans o g y k) = length y;
  vo_kmeans : forall g y k, (0 < k)%nat -> Forall (fun j => (j < k)%nat) (o_kmeans o g y k)
}.

(* State-and-exception monad: object state, generator log, outcome. *)
Definition M (S A : Type) := oracle -> S -> rng -> res A * S * rng.

Definition ret {S A} (a : A) : M S A := fun _ s g => (Ok a, s, g).
Definition raise {S A} (e : exn) : M S A := fun _ s g => (Err e, s, g).
Definition bind {S A B} (m : M S A) (k : A -> M S B) : M S B :=
  fun o s g =>
    match m o s g with
    | (Ok a, s', g') => k a o s' g'
    | (Err e, s', g') => (Err e, s', g')
    | (Diverge, s', g') => (Diverge, s', g')
    end.
Definition get {S} : M S S := fun _ s g => (Ok s, s, g).
Definition upd {S} (f : S -> S) : M S unit := fun _ s g => (Ok tt, f s, g).

Declare Scope m_scope.
Delimit Scope m_scope with m.
Notation "x <- m ;; k" := (bind m (fun x => k))
  (at level 61, m at next level, right associativity) : m_scope.
Notation "m ;; k" := (bind m (fun _ => k))
  (at level 61, right associativity) : m_scope.

(* Parameters reach the generator in lowest terms, so that equal parameters
   give the same request. *)
Definition rbeta (a b : Q) : req := RBeta (Qred a) (Qred b).
Definition rbinom (n : Z) (p : Q) : req := RBinom n (Qred p).
Definition runif (lo hi : Q) : req := RUnif (Qred lo) (Qred hi).

Definition allpos (l : list (Q * Q)) : bool :=
  forallb (fun ab => qltb 0 (fst ab) && qltb 0 (snd ab)) l.

Fixpoint beta_draws (o : oracle) (ab : list (Q * Q)) (g : rng) : list Q * rng :=
  match ab with
  | [] => ([], g)
  | (a, b) :: t =>
      let x := o_beta o g (Qred a) (Qred b) in
      let r := beta_draws o t (g ++ [rbeta a b]) in
      (x :: fst r, snd r)
  end.

(* rng.beta(a=array, b=array): numpy rejects the whole call with ValueError if
   some a <= 0 or b <= 0, before drawing anything. *)
Definition beta_many {S} (ab : list (Q * Q)) : M S (list Q) :=
  fun o s g => if allpos ab then let r := beta_draws o ab g in (Ok (fst r), s, snd r)
               else (Err ValueError, s, g).

(* rng.beta(a=scalar, b=scalar, size=n): parameters are checked even if n = 0 *)
Definition beta_rep {S} (a b : Q) (n : nat) : M S (list Q) :=
  fun o s g => if allpos [(a, b)] then
                 let r := beta_draws o (repeat (a, b) n) g in (Ok (fst r), s, snd r)
               else (Err ValueError, s, g).

Definition beta1 {S} (a b : Q) : M S Q :=
  fun o s g => if allpos [(a, b)] then (Ok (o_beta o g (Qred a) (Qred b)), s, g ++ [rbeta a b])
               else (Err ValueError, s, g).

Definition prob_ok (p : Q) : bool := qleb 0 p && qleb p 1.

Fixpoint binom_draws (o : oracle) (n : Z) (ps : list Q) (g : rng) : list Z * rng :=
  match ps with
  | [] => ([], g)
  | p :: t =>
      let x := o_binom o g n (Qred p) in
      let r := binom_draws o n t (g ++ [rbinom n p]) in
      (x :: fst r, snd r)
  end.

(* rng.binomial(n, p array): ValueError unless n >= 0 and all p in [0,1] *)
Definition binom_many {S} (n : Z) (ps : list Q) : M S (list Z) :=
  fun o s g => if (0 <=? n)%Z && forallb prob_ok ps then
                 let r := binom_draws o n ps g in (Ok (fst r), s, snd r)
               else (Err ValueError, s, g).

Definition binom_rep {S} (n : Z) (p : Q) (k : nat) : M S (list Z) :=
  fun o s g => if (0 <=? n)%Z && prob_ok p then
                 let r := binom_draws o n (repeat p k) g in (Ok (fst r), s, snd r)
               else (Err ValueError, s, g).

Definition binom1 {S} (n : Z) (p : Q) : M S Z :=
  fun o s g => if (0 <=? n)%Z && prob_ok p then (Ok (o_binom o g n (Qred p)), s, g ++ [rbinom n p])
               else (Err ValueError, s, g).

Fixpoint unif_draws (o : oracle) (lh : list (Q * Q)) (g : rng) : list Q * rng :=
  match lh with
  | [] => ([], g)
  | (lo, hi) :: t =>
      let x := o_unif o g (Qred lo) (Qred hi) in
      let r := unif_draws o t (g ++ [runif lo hi]) in
      (x :: fst r, snd r)
  end.
(* rng.uniform(lo, hi) on arrays *)
Definition unif_many {S} (lh : list (Q * Q)) : M S (list Q) :=
  fun o s g => let r := unif_draws o lh g in (Ok (fst r), s, snd r).

Definition unif1 {S} (lo hi : Q) : M S Q :=
  fun o s g => (Ok (o_unif o g (Qred lo) (Qred hi)), s, g ++ [runif lo hi]).

(* rng.dirichlet(alpha): ValueError if some alpha <= 0 (numpy's check) *)
Definition dirichlet1 {S} (al : list Q) : M S (list Q) :=
  fun o s g => if forallb (qltb 0) al then (Ok (o_dirichlet o g (map Qred al)), s, g ++ [RDirichlet (map Qred al)])
               else (Err ValueError, s, g).

(* rng.choice(range(len(p)), p=p): ValueError for a negative probability or
   NaN (all-zero counts); [p] is given before normalisation. *)
Definition choice1 {S} (p : list Q) : M S nat :=
  fun o s g => if forallb (qleb 0) p && qltb 0 (qsum p)
               then (Ok (o_choice o g (map Qred p)), s, g ++ [RChoice (map Qred p)])
               else (Err ValueError, s, g).

Definition gumbel1 {S} (ok : list bool) : M S nat :=
  fun o s g => (Ok (o_gumbel o g ok), s, g ++ [RGumbel ok]).
Definition optim1 {S} : M S (option Q) :=
  fun o s g => (Ok (o_optim o g), s, g ++ [ROptim]).
Definition root1 {S} : M S (option Q) :=
  fun o s g => (Ok (o_root o g), s, g ++ [RRoot]).
Definition invw1 {S} (nu : Q) (psi : list (list Q)) : M S (list (list Q)) :=
  fun o s g => let nu := Qred nu in let psi := map (map Qred) psi in
    (match o_invw o g nu psi with inl x => Ok x | inr e => Err e end, s, g ++ [RInvWish nu psi]).
Definition mvn1 {S} (mu : list Q) (sigma : list (list Q)) : M S (list Q) :=
  fun o s g => let mu := map Qred mu in let sigma := map (map Qred) sigma in
    (match o_mvn o g mu sigma with inl x => Ok x | inr e => Err e end, s, g ++ [RMvn mu sigma]).
(* KMeans requires 1 <= k <= number of rows (ValueError otherwise) *)
Definition kmeans1 {S} (y : list (list Q)) (k : Z) : M S (list nat) :=
  fun o s g => if (k <=? 0)%Z || (Z.of_nat (length y) <? k)%Z then (Err ValueError, s, g)
               else (Ok (o_kmeans o g y (Z.to_nat k)), s, g ++ [RKMeans y (Z.to_nat k)]).
