(* Property theorems: where a Gibbs fit starts and which slices it draws. *)
From Verif Require Import Prelude Numpy Rng M_Weights M_Niw M_Utils M_Mix M_Query S_Oracle S_Weights S_Mix S_Flags S_MixEx S_Query S_Sort S_Assign S_Map S_GibbsStart P_MixEx P_Sort P_Fail P_GibbsStart.
Open Scope Q_scope.

(* ---- C89 ---- *)

Theorem c89_first_slices :
  forall E c fuel y ig meth o s g r s' g', is_data y = true -> has_nu s y -> fit_gibbs E c fuel y ig false meth o s g = (r, s', g') ->
  exists t, g' = g ++ first_slices (length (rows_of y)) ++ t.
Proof. exact c89_first_proof. Qed.
Print Assumptions c89_first_slices.

Theorem c89_start :
  forall E c fuel parg narg mu lam psi nu t b k o s0 g0 ops s g y ig meth s' g', argsorts (e_argsort E) ->
  new_mix c parg narg mu lam psi nu t b k o = Ok (s0, g0) -> run_mops E c fuel ops o s0 g0 = (s, g) ->
  fit_gibbs E c fuel y ig false meth o s g = (Ok tt, s', g') ->
  exists x1 g1 p ll s1 g2 b, let rows := rows_of y in let n := length rows in
    start_weights c fuel ig (answers o g (first_slices n)) o (s_wm s) (g ++ first_slices n) x1 g1 /\
    replay E c fuel y ig false meth 0 o s g = (Ok [(p, ll)], s1, g2) /\ g' = g2 ++ b /\
    match meth with
    | IKmeans => exists k, start_groups (built_groups c narg) ig = Some k /\ (1 <= k <= Z.of_nat n)%Z /\ kmeans_labels o g1 rows k (r_d p) /\
        exists a a2, g1 = g ++ first_slices n ++ a /\ g2 = g1 ++ [RKMeans rows (Z.to_nat k)] ++ a2 /\ Forall not_kmeans (a ++ a2 ++ b)
    | IRandom => r_d p = map (assign_label (w x1)) (unif_answers o g1 n)
    | IVariational => exists sv sv' gv y2, s_wm sv = x1 /\ rows_of y2 = rows /\ cols_of y2 = cols_of y /\ (forall l, y2 <> YSeries l) /\
        fit_variational E c y2 (SInt (Z.of_nat (length (w x1)))) false (1 # 100000000) IKmeans o sv g1 = (Ok tt, sv', gv) /\
        likeliest (vresp (s_var sv')) n (r_d p)
    | IOther => False
    end.
Proof. exact c89_history_proof. Qed.
Print Assumptions c89_start.

Theorem c89_sweep_slices :
  forall E c fuel o s g s' g', valid_oracle o -> gibbs_step E c fuel o s g = (Ok tt, s', g') ->
  exists a b, g' = g ++ a ++ sweep_slices (w (s_wm s')) (labels_of s) ++ b /\ s_u s' = answers o (g ++ a) (sweep_slices (w (s_wm s')) (labels_of s)).
Proof. exact c89_sweep_proof. Qed.
Print Assumptions c89_sweep_slices.

Definition c89_runs (c : cls) (narg : Z) (ig : pysize) (meth : vmethod) : Prop :=
  exists s0 g0 s' g', new_mix c 0 narg None 1 None None 3 1 1 o_half = Ok (s0, g0) /\ fit_gibbs sorted_env c 60 y4 ig false meth o_half s0 g0 = (Ok tt, s', g').
Example c89_nontrivial : argsorts (e_argsort sorted_env) /\ c89_runs (CDP 1) 0 SNone IKmeans /\ c89_runs (CDP 1) 0 (SInt 3) IKmeans /\ c89_runs (CDP 1) 0 (SInt 3) IRandom /\
  c89_runs (CDP 1) 0 (SInt 3) IVariational /\ c89_runs CEqual 2 (SInt 3) IKmeans.
Proof. split; [exact stable_argsorts|]. repeat match goal with |- _ /\ _ => split end; eexists _, _, _, _; (split; [vm_compute; reflexivity|]); vm_compute; reflexivity. Qed.
Example c89_first_nontrivial : let q := ex_run flat_env (CDP 1) 0 3 1 1 o_half [] in is_data y3 = true /\ has_nu (fst q) y3 /\ first_slices (length (rows_of y3)) <> [].
Proof. split; [reflexivity|]. split; [right; discriminate|]. discriminate. Qed.
Example c89_sweep_nontrivial : let q := ex_run flat_env (CDP 1) 0 7 1 2 o_half [cold y3] in
  valid_oracle o_half /\ (let r := gibbs_step flat_env (CDP 1) 60 o_half (fst q) (snd q) in fst (fst r) = Ok tt /\ length (sweep_slices (w (s_wm (snd (fst r)))) (labels_of (fst q))) = 3%nat).
Proof. split; [apply ex_oracle_valid; [split; discriminate|intros; split; [discriminate|reflexivity]]|]. vm_compute. auto. Qed.
