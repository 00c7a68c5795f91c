(* Specifications for the Gibbs fits of the mixture classes. *)
From Verif Require Import Prelude Numpy Rng M_Weights M_Niw M_Utils M_Mix M_Query S_Niw.
Open Scope Q_scope.

(* the smallest k with a <= k * b, for b > 0 *)
Definition ceil_div (a b : Z) : Z := (- ((- a) / b))%Z.
Definition planned_saves (s : ms) : nat := Z.to_nat (ceil_div (s_total s - s_burn s) (s_sub s)).

(* the object after a successful fit_gibbs(warm_start=False) on any object,
   then any number of warm starts and variational fits, successful or not *)
Inductive gibbs_history (E : env) (c : cls) (fuel : nat) (o : oracle) : ms -> rng -> Prop :=
| gh_cold s g y ig meth s' g' :
    fit_gibbs E c fuel y ig false meth o s g = (Ok tt, s', g') -> gibbs_history E c fuel o s' g'
| gh_warm s g y ig meth r s' g' : gibbs_history E c fuel o s g ->
    fit_gibbs E c fuel y ig true meth o s g = (r, s', g') -> gibbs_history E c fuel o s' g'
| gh_var s g y k warm tol meth r s' g' : gibbs_history E c fuel o s g ->
    fit_variational E c y k warm tol meth o s g = (r, s', g') -> gibbs_history E c fuel o s' g'.

(* observations i and k have the same label in a saved state *)
Definition together (i k : nat) (r : rparams) : bool := Nat.eqb (nth i (r_d r) 0%nat) (nth k (r_d r) 0%nat).
Definition n_together (i k : nat) (sims : list rparams) : nat := length (filter (together i k) sims).

(* every weight has an atom *)
Definition self_contained (r : rparams) : Prop :=
  forall j, (j < length (r_w r))%nat -> exists a, In (j, a) (r_theta r).
Definition distinct (l : list nat) : nat := length (nodup Nat.eq_dec l).

(* the rows whose label is j *)
Fixpoint members {A} (j : nat) (dl : list nat) (y : list A) : list A :=
  match dl, y with
  | i :: t, r :: u => if Nat.eqb i j then r :: members j t u else members j t u
  | _, _ => []
  end.

(* the atom is the pair of answers to an inverse Wishart and a normal request
   with the parameters of h *)
Definition drawn_from (o : oracle) (h : niw) (a : atom) : Prop :=
  exists g, let nu := Qred (n_nu h) in let psi := map (map Qred) (n_psi h) in
    o_invw o g nu psi = inl (snd a) /\
    o_mvn o (g ++ [RInvWish nu psi]) (map Qred (n_mu h)) (map (map Qred) (map (map (fun x => x / n_lam h)) (snd a))) = inl (fst a).
(* the atom of j in t' is drawn from the posterior given the rows labelled j *)
Definition redrawn (o : oracle) (s : ms) (j : nat) (t' : list (nat * atom)) : Prop :=
  exists h h' a, prior_niw s = Ok h /\ is_posterior (members j (labels_of s) (s_y s)) h h' /\ drawn_from o h' a /\ lookup j t' = Some a.

(* the density functions raise no KeyError of their own *)
Definition no_key (QE : qenv) : Prop :=
  (forall x m c, q_pdf QE x m c <> Err KeyError) /\ (forall x m c, q_norm QE x m c <> Err KeyError).
Definition comp_ok (comp : option Z) (r : rparams) : Prop :=
  match comp with None => True | Some j => (0 <= j < Z.of_nat (length (r_w r)))%Z end.

(* scipy raises no IndexError of its own *)
Definition env_no_index (E : env) : Prop := forall rows a, e_logpdf E rows a <> Err IndexError.
Definition draws_no_index (o : oracle) : Prop :=
  (forall g nu psi, o_invw o g nu psi <> inr IndexError) /\ (forall g mu sg, o_mvn o g mu sg <> inr IndexError).
(* one finite log density per row *)
Definition finite_env (E : env) : Prop := forall rows a l, e_logpdf E rows a = Ok l ->
  length l = length rows /\ Forall (fun x => exists q, x = LQ q) l.

(* the rows given to a fit *)
Definition rows_of (y : yarg) : list vec :=
  match y with
  | YFrame l _ | YList2 l _ | YArr2 l _ => l
  | YSeries l | YList1 l | YArr1 l => column l
  | YNum _ | YOther => []
  end.
Definition is_data (y : yarg) : bool := match y with YNum _ | YOther => false | _ => true end.
