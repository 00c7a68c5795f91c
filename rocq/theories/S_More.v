(* Specifications for C62 (BetaInBeta, 0 < x < 1) and C63 (BetaBernoulli, any p). *)
From Verif Require Import Prelude Numpy Rng M_Weights S_Weights S_Draws.
Open Scope Q_scope.

(* prior and posterior stick requests of a BetaInBeta model with mean parameter pp *)
Definition bib_prior (x al pp : Q) : req := rbeta (1 + x / (1 - x) * pp) (al + x / (1 - x) * (1 - pp)).
Definition bib_post (x al pp : Q) (dd : list nat) (j : nat) : req :=
  rbeta (1 + x / (1 - x) * pp + nq (n_eq j dd)) (al + x / (1 - x) * (1 - pp) + nq (n_gt j dd)).
(* requests with which random_p renews p on a fitted object *)
Definition closed_method (pm : pmethod) : Prop := pm = PStatic \/ pm = PIndependent \/ pm = PGeometric.
Definition p_requests (pm : pmethod) (a b : Q) (dd : list nat) : list req :=
  match pm with PIndependent => [rbeta a b] | PGeometric => [bib_req a b dd] | _ => [] end.
(* p afterwards: the last answer, or the old p *)
Definition p_after (o : oracle) (g : rng) (rs : list req) (p0 : Q) : Q := last (beta_answers o g rs) p0.

(* sticks of a Bernoulli chain: keep the stick on a 0, take the next fresh one on a 1 *)
Fixpoint chain_sticks (x : Q) (fresh : list Q) (ms : list Z) : list Q :=
  match ms with
  | [] => []
  | m :: t => if (m =? 0)%Z then x :: chain_sticks x fresh t
              else hd x fresh :: chain_sticks (hd x fresh) (tl fresh) t
  end.
Definition ones (ms : list Z) : nat := length (filter (fun m => negb (m =? 0)%Z) ms).
