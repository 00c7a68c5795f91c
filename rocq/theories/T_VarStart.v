(* Property theorems: where a variational fit starts. *)
From Verif Require Import Prelude Numpy Rng M_Weights M_Niw M_Utils M_Mix M_Query S_Oracle S_Mix S_Flags S_MixEx S_Sort S_VarFit S_VarStart P_MixEx P_Sort P_Fail P_VarStart.
Open Scope Q_scope.

(* ---- C87 ---- *)

Theorem c87_kmeans_start :
  forall E c y k tol o s g s' g', argsorts (e_argsort E) -> fit_variational E c y k false tol IKmeans o s g = (Ok tt, s', g') ->
  exists s1 es s2 n l H0 h T D, groups_of k (s_n s) = Some n /\ (1 <= n <= Z.of_nat (length (rows_of y)))%Z /\
    (let l0 := o_kmeans o g (rows_of y) (Z.to_nat n) in same_partition l0 l /\ contiguous (distinct l0) l /\ by_size (distinct l0) l) /\
    k_rows (Z.to_nat n) (length l) H0 (fun j i => if Nat.eqb (nth i l 0%nat) j then 1 else 0) /\
    prior_niw s1 = Ok h /\ s_y s1 = rows_of y /\ e_vtheta E (rows_of y) h H0 = Ok T /\
    e_vd E (rows_of y) (VST (Some n) H0 T (repeat [] (Z.to_nat n))) = Ok D /\ s_var s1 = VST (Some n) D T D /\
    var_run E c o s1 (g ++ [RKMeans (rows_of y) (Z.to_nat n)]) es s2 g' /\ s_var s' = s_var s2.
Proof. exact c87_kmeans_proof. Qed.
Print Assumptions c87_kmeans_start.

Theorem c87_random_start :
  forall E c y k tol o s g s' g', fit_variational E c y k false tol IRandom o s g = (Ok tt, s', g') ->
  exists s1 g1 es s2 n T D, groups_of k (s_n s) = Some n /\ (0 <= n)%Z /\
    k_rows (Z.to_nat n) (length (rows_of y)) D (fun _ _ => 1 / zq n) /\
    (n = 0%Z \/ exists h, prior_niw s1 = Ok h /\ prior_draws E o h (Z.to_nat n) g T g1) /\
    s_y s1 = rows_of y /\ s_var s1 = VST (Some n) D T D /\ var_run E c o s1 g1 es s2 g' /\ s_var s' = s_var s2.
Proof. exact c87_random_proof. Qed.
Print Assumptions c87_random_start.

Theorem c87_group_count :
  forall E c y n tol meth o s g s' g', fit_variational E c y (SInt n) false tol meth o s g = (Ok tt, s', g') ->
  (1 <= n)%Z /\ (meth = IKmeans \/ meth = IRandom) /\ (meth = IKmeans -> (n <= Z.of_nat (length (rows_of y)))%Z).
Proof. exact c87_count_proof. Qed.
Print Assumptions c87_group_count.

Theorem c87_random_without_groups :
  forall E c y n tol o s g, is_data y = true -> has_nu s y -> (n <= 0)%Z ->
  exists s', fit_variational E c y (SInt n) false tol IRandom o s g = (Err (if (n =? 0)%Z then ZeroDivisionError else ValueError), s', g).
Proof. exact c87_zero_proof. Qed.
Print Assumptions c87_random_without_groups.

Theorem c87_bad_arguments :
  forall E c y k tol meth o s g, is_data y = true -> has_nu s y -> (k = SOther \/ exists n, groups_of k (s_n s) = Some n) ->
  (k = SOther \/ meth = IOther \/ meth = IVariational) ->
  exists s', fit_variational E c y k false tol meth o s g = (Err (match meth with IKmeans | IRandom => TypeError | _ => AttributeError end), s', g) /\
    vtheta (s_var s') = [] /\ s_y s' = rows_of y /\ s_vfit s' = s_vfit s /\ s_gfit s' = s_gfit s /\ s_sims s' = s_sims s.
Proof. exact c87_arguments_proof. Qed.
Print Assumptions c87_bad_arguments.

Example c87_kmeans_nontrivial : let q := ex_run sorted_env (CDP 1) 0 3 1 1 o_half [] in
  argsorts (e_argsort sorted_env) /\ exists s' g', fit_variational sorted_env (CDP 1) y3 (SInt 2) false 1 IKmeans o_half (fst q) (snd q) = (Ok tt, s', g') /\ length (vtheta (s_var s')) = 2%nat.
Proof. split; [exact stable_argsorts|]. eexists _, _. split; vm_compute; reflexivity. Qed.
Example c87_random_nontrivial : let q := ex_run flat_env (CDP 1) 0 3 1 1 o_half [] in
  exists s' g', fit_variational flat_env (CDP 1) y3 (SInt 2) false 1 IRandom o_half (fst q) (snd q) = (Ok tt, s', g') /\ length (vtheta (s_var s')) = 2%nat.
Proof. eexists _, _. split; vm_compute; reflexivity. Qed.
(* a fitted object loses its atoms and stays marked as fitted *)
Example c87_bad_arguments_nontrivial : let q := ex_run flat_env (CDP 1) 0 3 1 1 o_half [MVar y3 (SInt 2) false 1 IKmeans] in
  is_data y3 = true /\ has_nu (fst q) y3 /\ s_vfit (fst q) = true /\ length (vtheta (s_var (fst q))) = 2%nat /\ groups_of (SInt 2) (s_n (fst q)) = Some 2%Z.
Proof. split; [reflexivity|]. split; [right; discriminate|]. vm_compute. auto. Qed.
