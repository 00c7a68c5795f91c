(* Specification vocabulary for "which draws are requested and what is done
   with the answers". *)
From Verif Require Import Prelude Numpy Rng M_Weights S_Weights.
Open Scope Q_scope.

(* A Beta(a, b) request (parameters in lowest terms) is [rbeta a b].
   The answers a generator gives to a list of beta requests, in order. *)
Fixpoint beta_answers (o : oracle) (g : rng) (rs : list req) : list Q :=
  match rs with
  | RBeta a b :: t => o_beta o g a b :: beta_answers o (g ++ [RBeta a b]) t
  | _ => []
  end.
Fixpoint binom_answers (o : oracle) (g : rng) (rs : list req) : list Z :=
  match rs with
  | RBinom n p :: t => o_binom o g n p :: binom_answers o (g ++ [RBinom n p]) t
  | _ => []
  end.

(* labels 0 .. max(d) *)
Definition labels (d : list nat) : list nat := seq 0 (S (list_max d)).

(* posterior beta parameters of a Dirichlet process *)
Definition dp_post (alpha : Q) (d : list nat) (j : nat) : req :=
  rbeta (1 + nq (n_eq j d)) (alpha + nq (n_gt j d)).
(* posterior beta parameters of a Pitman-Yor process *)
Definition py_post (pyd alpha : Q) (d : list nat) (j : nat) : req :=
  rbeta (1 - pyd + nq (n_eq j d)) (alpha + nq j * pyd + nq (n_gt j d)).
(* prior of the j-th stick of a Pitman-Yor process *)
Definition py_prior (pyd alpha : Q) (j : nat) : req := rbeta (1 - pyd) (alpha + nq j * pyd).

(* Beta-binomial chain: from a stick x, m times: B ~ Bin(n, x), then the next
   stick ~ Beta(1 + B, alpha + n - B).  Requests and resulting sticks. *)
Fixpoint bbin_chain (o : oracle) (n : Z) (alpha : Q) (m : nat) (g : rng) (x : Q) : list req * list Q :=
  match m with
  | O => ([], [])
  | S m' =>
      let b := o_binom o g n (Qred x) in
      let r1 := rbinom n x in
      let r2 := rbeta (1 + zq b) (alpha + zq n - zq b) in
      let y := o_beta o (g ++ [r1]) (Qred (1 + zq b)) (Qred (alpha + zq n - zq b)) in
      let rest := bbin_chain o n alpha m' (g ++ [r1; r2]) y in
      (r1 :: r2 :: fst rest, y :: snd rest)
  end.
(* Gibbs update of the beta-binomial sticks given d: the latent sticks, the
   binomials attached to them and the new sticks. *)
Definition bbin_latent (alpha : Q) (d : list nat) : list req :=
  rbeta 1 alpha :: map (dp_post alpha d) (labels d).
Definition bbin_counts (o : oracle) (n : Z) (alpha : Q) (d : list nat) (g : rng) : list req :=
  map (rbinom n) (beta_answers o g (bbin_latent alpha d)).
Definition bbin_post (n : Z) (alpha : Q) (d : list nat) (bs : list Z) (j : nat) : req :=
  rbeta (1 + nq (n_eq j d) + zq (nth j bs 0 + nth (S j) bs 0)%Z)
        (alpha + nq (n_gt j d) + 2 * zq n - zq (nth j bs 0 + nth (S j) bs 0)%Z).

(* Outcome of a call: result, object state and request log afterwards. *)
Definition ends_with {S A} (x : res A * S * rng) (P : res A -> S -> rng -> Prop) : Prop :=
  match x with (r, s', g') => P r s' g' end.

(* Exactly the requests [rs] are made, their answers become the sticks, the
   weights are the stick-breaking image of the sticks and are returned. *)
Definition drawn (s : ws) (rs : list req) (o : oracle) (g : rng) (r : res (list Q)) (s' : ws) (g' : rng) : Prop :=
  r = Ok (w s') /\ g' = g ++ rs /\ v s' = beta_answers o g rs /\ stick_image (v s') (w s') /\ d s' = d s.

(* One draw of p from the conjugate Beta posterior; geometric weights. *)
Definition geom_drawn (a b : Q) (s : ws) (n : nat) (o : oracle) (g : rng) (r : res (list Q)) (s' : ws) (g' : rng) : Prop :=
    let rq := rbeta (a + nq (length (d s))) (b + nq (list_sum (d s))) in
    r = Ok (w s') /\ g' = g ++ [rq] /\ [p s'] = beta_answers o g [rq] /\ d s' = d s /\
    length (w s') = n /\ (forall j, (j < n)%nat -> nth j (w s') 0 == p s' * qpow (1 - p s') j).

(* latent sticks, binomials, new sticks, then k - max(d) - 1 chain steps *)
Definition bbin_drawn (n : Z) (al : Q) (s : ws) (k : nat) (o : oracle) (g : rng) (r : res (list Q)) (s' : ws) (g' : rng) : Prop :=
    let lat := bbin_latent al (d s) in
    let cnt := bbin_counts o n al (d s) g in
    let bs := binom_answers o (g ++ lat) cnt in
    let g1 := (g ++ lat) ++ cnt in
    let pst := map (bbin_post n al (d s) bs) (labels (d s)) in
    let vs := beta_answers o g1 pst in
    let more := bbin_chain o n al (k - S (list_max (d s))) (g1 ++ pst) (last vs 0) in
    r = Ok (w s') /\ g' = g1 ++ pst ++ fst more /\ v s' = vs ++ snd more /\ stick_image (v s') (w s') /\ d s' = d s.

(* parameter region in which every Pitman-Yor request is legal *)
Definition py_ok (pd al : Q) : Prop := 0 <= pd /\ pd < 1 /\ 0 < al.

(* conjugate posterior of a common stick length given labels dd *)
Definition bib_req (a b : Q) (dd : list nat) : req := rbeta (a + nq (length dd)) (b + nq (list_sum dd)).

(* the indicators that BetaBernoulli.random proposes first, one per label *)
Definition bb_proposals (o : oracle) (g : rng) (q : Q) (dd : list nat) : list Z :=
  binom_answers o g (repeat (rbinom 1 q) (S (list_max dd))).

(* every label up to the largest occurs *)
Definition no_gaps (dd : list nat) : Prop := forall j, (j <= list_max dd)%nat -> (0 < n_eq j dd)%nat.
