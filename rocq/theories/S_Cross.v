(* Specification: what the two kinds of fits may change of each other. *)
From Verif Require Import Prelude Numpy Rng M_Weights M_Niw M_Utils M_Mix M_Query.
Open Scope Q_scope.

(* everything a Gibbs fit leaves in the mixture *)
Record same_gibbs (a b : ms) : Prop := {
  sg_fit : s_gfit a = s_gfit b; sg_d : s_d a = s_d b; sg_theta : s_theta a = s_theta b; sg_gen : s_gen a = s_gen b; sg_u : s_u a = s_u b;
  sg_aff : s_aff a = s_aff b; sg_map : s_map a = s_map b; sg_ll : s_mapll a = s_mapll b; sg_saved : s_saved a = s_saved b;
  sg_sims : s_sims a = s_sims b; sg_groups : s_groups a = s_groups b; sg_atoms : s_atoms a = s_atoms b }.
(* everything a variational fit leaves in the mixture *)
Record same_variational (a b : ms) : Prop := {
  sv_fit : s_vfit a = s_vfit b; sv_conv : s_vconv a = s_vconv b; sv_var : s_var a = s_var b }.

(* the answers of the Gibbs queries about given data, and of the getters *)
Definition same_gibbs_answers (QE : qenv) (a b : ms) : Prop :=
  (forall y dim comp per, gibbs_eap_density QE a (Some y) dim comp per = gibbs_eap_density QE b (Some y) dim comp per) /\
  (forall y dim comp, gibbs_map_density QE a (Some y) dim comp = gibbs_map_density QE b (Some y) dim comp) /\
  (forall y, gibbs_map_cluster QE a (Some y) = gibbs_map_cluster QE b (Some y)) /\
  (forall y, gibbs_eap_affinity_matrix QE a y = gibbs_eap_affinity_matrix QE b y) /\
  (forall y k, gibbs_spectral QE a y k = gibbs_spectral QE b y k) /\
  get_n_groups a = get_n_groups b /\ get_n_theta a = get_n_theta b /\ get_sim_params a = get_sim_params b.
(* a query without data answers for the data of the last fit *)
Definition gibbs_default_data (QE : qenv) (a : ms) (y : yarg) : Prop :=
  (forall dim comp per, gibbs_eap_density QE a None dim comp per = gibbs_eap_density QE a (Some y) dim comp per) /\
  (forall dim comp, gibbs_map_density QE a None dim comp = gibbs_map_density QE a (Some y) dim comp) /\
  gibbs_map_cluster QE a None = gibbs_map_cluster QE a (Some y).
(* the answers of the variational queries about given data *)
Definition same_var_answers (QE : qenv) (a b : ms) : Prop :=
  (forall y dim comp, var_eap_density QE a (Some y) dim comp = var_eap_density QE b (Some y) dim comp) /\
  (forall y dim comp, var_map_density QE a (Some y) dim comp = var_map_density QE b (Some y) dim comp) /\
  (forall y full, var_map_cluster QE a y full = var_map_cluster QE b y full) /\
  (forall y, var_eap_affinity_matrix QE a y = var_eap_affinity_matrix QE b y) /\
  (forall y k, var_spectral QE a y k = var_spectral QE b y k).
(* the variational statistics of the weight model are functions of what its
   fit_variational was given and, for EqualWeighting, of n *)
Definition reads_var_only (c : cls) (QE : qenv) : Prop :=
  forall v x x', (c = CEqual -> wn x = wn x') ->
    (forall j, q_mean_w QE v x j = q_mean_w QE v x' j) /\ (forall j, q_mode_w QE v x j = q_mode_w QE v x' j) /\
    forall y, q_resp QE y v x = q_resp QE y v x'.
(* lists, arrays and frames *)
Definition plain_data (y : yarg) : bool := match y with YSeries _ | YNum _ | YOther => false | _ => true end.
