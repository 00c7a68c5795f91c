(* Specification vocabulary for the mean of an observable of a call when the
   answers of the generator are random. *)
From Verif Require Import Prelude Numpy Rng M_Weights S_Weights.
Open Scope Q_scope.

(* What a call does with the generator, as a tree: ask a request, go on
   according to the answer, end with the value of an observable. *)
Inductive tree :=
| Leaf (y : Q)
| ABeta (a b : Q) (k : Q -> tree)
| ABinom (n : Z) (p : Q) (k : Z -> tree)
| AChoice (ws : list Q) (k : nat -> tree)
| ADir (al : list Q) (k : list Q -> tree).

(* the end of the tree reached with a generator, and the log at the end *)
Fixpoint follow (t : tree) (o : oracle) (g : rng) : Q * rng :=
  match t with
  | Leaf y => (y, g)
  | ABeta a b k => follow (k (o_beta o g a b)) o (g ++ [RBeta a b])
  | ABinom n q k => follow (k (o_binom o g n q)) o (g ++ [RBinom n q])
  | AChoice ws k => follow (k (o_choice o g ws)) o (g ++ [RChoice ws])
  | ADir al k => follow (k (o_dirichlet o g al)) o (g ++ [RDirichlet al])
  end.

(* The laws of the answers: the mean of a function of the answer. *)
Record law := {
  e_beta : Q -> Q -> (Q -> Q) -> Q;
  e_binom : Z -> Q -> (Z -> Q) -> Q;
  e_choice : list Q -> (nat -> Q) -> Q;
  e_dir : list Q -> (list Q -> Q) -> Q
}.

(* the mean of the end of a tree, request by request *)
Fixpoint tmean (L : law) (t : tree) : Q :=
  match t with
  | Leaf y => y
  | ABeta a b k => e_beta L a b (fun x => tmean L (k x))
  | ABinom n q k => e_binom L n q (fun x => tmean L (k x))
  | AChoice ws k => e_choice L ws (fun x => tmean L (k x))
  | ADir al k => e_dir L al (fun x => tmean L (k x))
  end.

(* [y] is the mean of the observable [f] of the call [m] on the object [s]:
   under every generator the call makes the requests of a tree and the
   observable is the end of the tree, whose mean is y. *)
Definition mean_of {S A} (L : law) (m : M S A) (s : S) (f : res A -> S -> Q) (y : Q) : Prop :=
  exists t, (forall o g, valid_oracle o ->
               let '(r, s', g') := m o s g in
               let '(z, g'') := follow t o g in g' = g'' /\ f r s' == z) /\
            tmean L t == y.

(* a (a+1) .. (a+n-1) *)
Fixpoint rising (a : Q) (n : nat) : Q :=
  match n with O => 1 | S k => a * rising (a + 1) k end.
(* E x^i (1-x)^j under Beta(a, b) *)
Definition beta_moment (a b : Q) (i j : nat) : Q := rising a i * rising b j / rising (a + b) (i + j).

Definition pos (l : list Q) : Prop := Forall (fun x => 0 < x) l.

(* the possible answers (as in [valid_oracle]) *)
Definition can_beta (a b x : Q) : Prop := 0 < a -> 0 < b -> 0 <= x <= 1.
Definition can_binom (n : Z) (q : Q) (x : Z) : Prop :=
  (0 <= n)%Z -> (0 <= q <= 1 -> (0 <= x <= n)%Z) /\ (q == 0 -> x = 0%Z) /\ (q == 1 -> x = n).
Definition can_choice (ws : list Q) (i : nat) : Prop := Exists (fun x => 0 < x) ws -> (i < length ws)%nat /\ 0 < nth i ws 0.
Definition can_dir (al x : list Q) : Prop :=
  length x = length al /\ (pos al -> Forall (fun y => 0 <= y) x) /\ (al <> [] -> pos al -> qsum x == 1).

(* Laws that depend on the possible answers only, are linear, and have the
   moments of the requested distributions: for Beta up to degree N, for the
   others up to degree two. *)
Record moments (N : nat) (L : law) : Prop := {
  beta_ext : forall a b f h, (forall x, can_beta a b x -> f x == h x) -> e_beta L a b f == e_beta L a b h;
  beta_add : forall a b f h, 0 < a -> 0 < b -> e_beta L a b (fun x => f x + h x) == e_beta L a b f + e_beta L a b h;
  beta_scale : forall a b c f, 0 < a -> 0 < b -> e_beta L a b (fun x => c * f x) == c * e_beta L a b f;
  beta_mom : forall a b i j, 0 < a -> 0 < b -> (i + j <= N)%nat ->
    e_beta L a b (fun x => qpow x i * qpow (1 - x) j) == beta_moment a b i j;
  binom_ext : forall n q f h, (forall x, can_binom n q x -> f x == h x) -> e_binom L n q f == e_binom L n q h;
  binom_add : forall n q f h, (0 <= n)%Z -> 0 <= q <= 1 -> e_binom L n q (fun x => f x + h x) == e_binom L n q f + e_binom L n q h;
  binom_scale : forall n q c f, (0 <= n)%Z -> 0 <= q <= 1 -> e_binom L n q (fun x => c * f x) == c * e_binom L n q f;
  binom_one : forall n q, (0 <= n)%Z -> 0 <= q <= 1 -> e_binom L n q (fun _ => 1) == 1;
  binom_mean : forall n q, (0 <= n)%Z -> 0 <= q <= 1 -> e_binom L n q zq == zq n * q;
  binom_square : forall n q, (0 <= n)%Z -> 0 <= q <= 1 -> e_binom L n q (fun x => zq x * zq x) == zq n * q + zq n * (zq n - 1) * q * q;
  choice_ext : forall ws f h, (forall i, can_choice ws i -> f i == h i) -> e_choice L ws f == e_choice L ws h;
  choice_mean : forall ws f, Forall (fun x => 0 <= x) ws -> 0 < qsum ws ->
    e_choice L ws f == qsum (map (fun i => nth i ws 0 * f i) (seq 0 (length ws))) / qsum ws;
  dir_ext : forall al f h, (forall x, can_dir al x -> f x == h x) -> e_dir L al f == e_dir L al h;
  dir_mean : forall al j, al <> [] -> pos al -> e_dir L al (fun x => nth j x 0) == nth j al 0 / qsum al;
  dir_two : forall al i j, al <> [] -> pos al -> (i < length al)%nat -> (j < length al)%nat ->
    e_dir L al (fun x => nth i x 0 * nth j x 0) == nth i al 0 * (nth j al 0 + (if Nat.eqb i j then 1 else 0)) / (qsum al * (qsum al + 1))
}.

(* observables *)
Definition weight (j : nat) (r : res (list Q)) (s : ws) : Q := match r with Ok x => nth j x 0 | _ => 0 end.
Definition weights2 (i j : nat) (r : res (list Q)) (s : ws) : Q := weight i r s * weight j r s.
Definition stick_at (j : nat) (r : res (list Q)) (s : ws) : Q := nth j (v s) 0.
Definition stick2 (j : nat) (r : res (list Q)) (s : ws) : Q := nth j (v s) 0 * nth j (v s) 0.

(* covariance from the means of the product and of the factors *)
Definition cov (xy x y : Q) : Q := xy - x * y.

(* the mean of phi(x) for one draw x of Beta(1, al) *)
Definition one_stick (L : law) (al : Q) (phi : Q -> Q) : Q := e_beta L 1 (Qred al) phi.
(* the mean of g(x) h(y) for two draws of Beta(1, al) that coincide with
   probability t and are independent otherwise *)
Definition two_sticks (L : law) (al t : Q) (g h : Q -> Q) : Q :=
  t * one_stick L al (fun x => g x * h x) + (1 - t) * (one_stick L al g * one_stick L al h).
Definition stick_fun (phi : Q -> Q) (j : nat) (r : res (list Q)) (s : ws) : Q := phi (nth j (v s) 0).
Definition stick_pair (g h : Q -> Q) (i j : nat) (r : res (list Q)) (s : ws) : Q := g (nth i (v s) 0) * h (nth j (v s) 0).
