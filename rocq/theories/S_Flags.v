(* Specifications about the fitted flags, failing fits and the settings. *)
From Verif Require Import Prelude Numpy Rng M_Weights M_Niw M_Utils M_Mix M_Query.
Open Scope Q_scope.

Definition is_ok {A} (r : res A) : bool := match r with Ok _ => true | _ => false end.
(* the fits of a history with their results *)
Fixpoint outcomes (E : env) (c : cls) (fuel : nat) (ops : list mop) (o : oracle) (s : ms) (g : rng) : list (mop * res unit) :=
  match ops with
  | [] => []
  | op :: t => let '(r, s', g') := exec_mop E c fuel op o s g in (op, r) :: outcomes E c fuel t o s' g'
  end.
Definition gibbs_ok (x : mop * res unit) : bool := match fst x with MGibbs _ _ _ _ => is_ok (snd x) | MVar _ _ _ _ _ => false end.
Definition var_ok (x : mop * res unit) : bool := match fst x with MVar _ _ _ _ _ => is_ok (snd x) | MGibbs _ _ _ _ => false end.
(* fit_gibbs(init_method='variational') *)
Definition nested_var (x : mop * res unit) : bool := match fst x with MGibbs _ _ false IVariational => true | _ => false end.

(* scipy, sklearn and the weight model raise no NotFittedError of their own *)
Record quiet (QE : qenv) : Prop := {
  qt_pdf : forall x m c, q_pdf QE x m c <> Err NotFittedError;
  qt_norm : forall x m c, q_norm QE x m c <> Err NotFittedError;
  qt_spectral : forall m k, q_spectral QE m k <> Err NotFittedError;
  qt_student : forall x m p n, q_student QE x m p n <> Err NotFittedError;
  qt_normal : forall x m p, q_normal QE x m p <> Err NotFittedError;
  qt_mean : forall v x j, q_mean_w QE v x j <> Err NotFittedError;
  qt_mode : forall v x j, q_mode_w QE v x j <> Err NotFittedError;
  qt_resp : forall y x m, q_resp QE y x m <> Err NotFittedError }.

(* the five queries of a kind raise NotFittedError, or none of them does *)
Definition gibbs_guarded (QE : qenv) (s : ms) : Prop :=
  (forall y dim comp per, gibbs_eap_density QE s y dim comp per = Err NotFittedError) /\
  (forall y dim comp, gibbs_map_density QE s y dim comp = Err NotFittedError) /\
  (forall y, gibbs_map_cluster QE s y = Err NotFittedError) /\
  (forall y, gibbs_eap_affinity_matrix QE s y = Err NotFittedError) /\
  (forall y k, gibbs_spectral QE s y k = Err NotFittedError).
Definition gibbs_open (QE : qenv) (s : ms) : Prop :=
  (forall y dim comp per, gibbs_eap_density QE s y dim comp per <> Err NotFittedError) /\
  (forall y dim comp, gibbs_map_density QE s y dim comp <> Err NotFittedError) /\
  (forall y, gibbs_map_cluster QE s y <> Err NotFittedError) /\
  (forall y, gibbs_eap_affinity_matrix QE s y <> Err NotFittedError) /\
  (forall y k, gibbs_spectral QE s y k <> Err NotFittedError).
Definition var_guarded (QE : qenv) (s : ms) : Prop :=
  (forall y dim comp, var_eap_density QE s y dim comp = Err NotFittedError) /\
  (forall y dim comp, var_map_density QE s y dim comp = Err NotFittedError) /\
  (forall y full, var_map_cluster QE s y full = Err NotFittedError) /\
  (forall y, var_eap_affinity_matrix QE s y = Err NotFittedError) /\
  (forall y k, var_spectral QE s y k = Err NotFittedError).
Definition var_open (QE : qenv) (s : ms) : Prop :=
  (forall y dim comp, var_eap_density QE s y dim comp <> Err NotFittedError) /\
  (forall y dim comp, var_map_density QE s y dim comp <> Err NotFittedError) /\
  (forall y full, var_map_cluster QE s y full <> Err NotFittedError) /\
  (forall y, var_eap_affinity_matrix QE s y <> Err NotFittedError) /\
  (forall y k, var_spectral QE s y k <> Err NotFittedError).

(* the degrees of freedom are given or can be read off the data: only a pandas
   Series has no second dimension *)
Definition has_nu (s : ms) (y : yarg) : Prop := s_nu s <> None \/ forall l, y <> YSeries l.
