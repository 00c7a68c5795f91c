(* Specification of the point from which a cold variational fit iterates. *)
From Verif Require Import Prelude Numpy Rng M_Weights M_Niw M_Utils M_Mix S_Sort.
Open Scope Q_scope.

(* the number of groups: the argument, or the number a mixture was built with *)
Definition groups_of (n_groups : pysize) (built : option Z) : option Z :=
  match n_groups with SInt k | SNp64 k => Some k | SNone => built | SOther => None end.
(* k rows of n entries *)
Definition k_rows (k n : nat) (D : matr) (entry : nat -> nat -> Q) : Prop :=
  length D = k /\ Forall (fun r => length r = n) D /\ forall j i, (j < k)%nat -> (i < n)%nat -> nth i (nth j D []) 0 == entry j i.

(* n atoms drawn from the prior one after another: a covariance from the
   inverse Wishart law, a mean from the normal law with that covariance over
   lambda; stored as mean, lambda, inverse, nu *)
Inductive prior_draws (E : env) (o : oracle) (h : niw) : nat -> rng -> list vatom -> rng -> Prop :=
| pdr_nil g : prior_draws E o h 0 g [] g
| pdr_cons n g sg mu p l g' :
    o_invw o g (Qred (n_nu h)) (map (map Qred) (n_psi h)) = inl sg ->
    let g1 := g ++ [RInvWish (Qred (n_nu h)) (map (map Qred) (n_psi h))] in
    let cv := map (map (fun x => Qred (x / n_lam h))) sg in
    o_mvn o g1 (map Qred (n_mu h)) cv = inl mu -> e_inv E sg = Ok p ->
    prior_draws E o h n (g1 ++ [RMvn (map Qred (n_mu h)) cv]) l g' ->
    prior_draws E o h (S n) g ((mu, n_lam h, p, n_nu h) :: l) g'.
