(* C76: the posterior draws are draws from the exact conditional laws. *)
From Coq Require Import Reals Qreals.
From Verif Require Import Prelude Numpy Rng M_Weights M_Ext M_Var M_Niw M_Utils M_Mix S_Weights S_Draws S_Niw S_Mix S_Var S_Opt S_More S_Oracle S_Cond S_CondAtom S_MixEx P_MixEx P_Cond P_CondAtom P_CondShare.
Open Scope R_scope.

Theorem c76_dirichlet_process :
  forall al size k o s g,
  (0 < al)%Q -> asks size (d s) k ->
  exists rs, length rs = k /\ ends_with (wm_random (CDP al) size o s g) (drawn s rs o g) /\ exact_sticks (fun _ => beta_kernel 1 (Q2R al)) (d s) rs.
Proof. exact c76_dp_proof. Qed.
Print Assumptions c76_dirichlet_process.

Theorem c76_pitman_yor :
  forall pyd al size k o s g,
  py_ok pyd al -> asks size (d s) k ->
  exists rs, length rs = k /\ ends_with (wm_random (CPY pyd al) size o s g) (drawn s rs o g) /\
    exact_sticks (fun j => beta_kernel (1 - Q2R pyd) (Q2R al + INR j * Q2R pyd)) (d s) rs.
Proof. exact c76_py_proof. Qed.
Print Assumptions c76_pitman_yor.

Theorem c76_geometric :
  forall a b size n o s g,
  (0 < a)%Q -> (0 < b)%Q -> (0 < n)%nat -> (size = SNone /\ d s <> [] /\ n = S (list_max (d s)) \/ size = SInt (Z.of_nat n)) ->
  exists rq, ends_with (wm_random (CGeom a b) size o s g) (fun r s' g' => r = Ok (w s') /\ g' = g ++ [rq] /\ [p s'] = beta_answers o g [rq]) /\
    forall x, 0 < x < 1 -> log_lik (fun j => x * (1 - x) ^ j) (d s) + beta_kernel (Q2R a) (Q2R b) x = req_kernel rq x.
Proof. exact c76_geom_proof. Qed.
Print Assumptions c76_geometric.

Theorem c76_dirichlet_distribution :
  forall n al size o s g,
  d s <> [] -> Forall (fun x => 0 < x)%Q al -> (list_max (d s) < length al)%nat ->
  exists l, length l = length al /\ wm_random (CDirDist n al) size o s g = (Ok (o_dirichlet o g l), set_w (o_dirichlet o g l) s, g ++ [RDirichlet l]) /\
    forall x, log_lik x (d s) + dirichlet_kernel (map Q2R al) x = dirichlet_kernel (map Q2R l) x.
Proof. exact c76_dir_proof. Qed.
Print Assumptions c76_dirichlet_distribution.

Theorem c76_beta_binomial_given_counts :
  forall n al size k o s g,
  valid_oracle o -> (0 <= n)%Z -> (0 < al)%Q -> d s <> [] -> (size = SNone /\ k = 1%nat \/ size = SInt (Z.of_nat k)) ->
  exists g1 bs rs more, length rs = S (list_max (d s)) /\ length bs = S (S (list_max (d s))) /\ 
    ends_with (wm_random (CBBin n al) size o s g) (fun r s' g' => r = Ok (w s') /\ g' = g1 ++ rs ++ more /\ firstn (S (list_max (d s))) (v s') = beta_answers o g1 rs) /\
    (exists lat cnt, g1 = g ++ lat ++ cnt /\ bs = binom_answers o (g ++ lat) cnt) /\
    exact_sticks (fun j x => beta_kernel (1 + IZR (nth j bs 0%Z)) (Q2R al + IZR n - IZR (nth j bs 0%Z)) x + binom_kernel n (nth (S j) bs 0%Z) x) (d s) rs.
Proof. exact c76_bbin_proof. Qed.
Print Assumptions c76_beta_binomial_given_counts.

Theorem c76_beta_in_beta_given_p :
  forall x al a b pm size k o s g,
  valid_oracle o -> (0 < x)%Q -> (x < 1)%Q -> (0 < al)%Q -> (0 < a)%Q -> (0 < b)%Q ->
  closed_method pm -> (0 <= p s <= 1)%Q -> d s <> [] -> asks size (d s) k ->
  exists rp p1 rs more, length rs = S (list_max (d s)) /\ p1 = last (beta_answers o g rp) (p s) /\ 
    ends_with (wm_random (CBIB x al a b pm) size o s g) (fun r s' g' => r = Ok (w s') /\ g' = g ++ rp ++ rs ++ more /\ firstn (S (list_max (d s))) (v s') = beta_answers o (g ++ rp) rs) /\
    let c := Q2R x / (1 - Q2R x) in
    exact_sticks (fun _ => beta_kernel (1 + c * Q2R p1) (Q2R al + c * (1 - Q2R p1))) (d s) rs.
Proof. exact c76_bib_proof. Qed.
Print Assumptions c76_beta_in_beta_given_p.

Theorem c76_beta_bernoulli_given_indicators :
  forall q al size o s g r s' g',
  d s <> [] -> wm_random (CBB q al) size o s g = (Ok r, s', g') ->
  let bs := firstn (S (list_max (d s))) (bern s') in let m := fun j => list_sum (firstn (S j) bs) in
  exists g1 rs more, g' = g1 ++ rs ++ more /\ length bs = S (list_max (d s)) /\
    (forall j, (j <= list_max (d s))%nat -> nth_error (v s') j = nth_error (beta_answers o g1 rs) (m j)) /\
    exact_shared (beta_kernel 1 (Q2R al)) m (d s) rs.
Proof. exact c76_bb_proof. Qed.
Print Assumptions c76_beta_bernoulli_given_indicators.

Theorem c76_beta_in_dirichlet_given_bases :
  forall al a size o s g r s' g',
  d s <> [] -> wm_random (CBID al a) size o s g = (Ok r, s', g') ->
  let n := S (list_max (d s)) in let old := firstn n (dbase s ++ repeat 0%nat (n - length (dbase s))) in
  exists rs more, g' = g ++ rs ++ more /\ firstn (length rs) (vbase s') = beta_answers o g rs /\
    exact_shared (beta_kernel 1 (Q2R al)) (fun j => nth j old 0%nat) (d s) rs.
Proof. exact c76_bid_proof. Qed.
Print Assumptions c76_beta_in_dirichlet_given_bases.

Theorem c76_atoms :
  forall E c fuel o s g s' g',
  gibbs_step E c fuel o s g = (Ok tt, s', g') ->
  forall j, In j (labels_of s) -> exists h h' a, prior_niw s = Ok h /\ lookup j (s_theta s') = Some a /\ drawn_from o h' a /\ exact_atom (members j (labels_of s) (s_y s)) h h'.
Proof. exact c76_atoms_proof. Qed.
Print Assumptions c76_atoms.

Definition c76_s : ws := set_p (1 # 2)%Q (set_d [0; 2; 2]%nat (ws_init 0 0)).
Example c76_nontrivial : asks SNone (d c76_s) 3 /\ asks (SInt (Z.of_nat 5)) (d c76_s) 5 /\ d c76_s <> [] /\ py_ok (1 # 4) (1 # 2) /\
  (list_max (d c76_s) < length [1 # 2; 1; 1 # 3; 2]%Q)%nat /\ (0 <= p c76_s <= 1)%Q /\
  log_lik (stick_weight (fun _ => 1 / 2)) (d c76_s) = ln (1 / 2 * 1) + (ln (1 / 2 * (1 * (1 - 1 / 2) * (1 - 1 / 2))) + (ln (1 / 2 * (1 * (1 - 1 / 2) * (1 - 1 / 2))) + 0)).
Proof.
  split; [left; split; [reflexivity|]; split; [discriminate|reflexivity]|]. split; [right; split; [reflexivity|simpl; lia]|]. split; [discriminate|].
  split; [unfold py_ok; repeat split; (discriminate || reflexivity)|]. split; [simpl; lia|]. split; [split; discriminate|]. reflexivity.
Qed.
(* p = 0: one stick shared by all positions; a stick per position for p = 1 *)
Example c76_shared_nontrivial : exists r s' g', wm_random (CBB 0 1) SNone (const_oracle (1 # 3)) c76_s [] = (Ok r, s', g') /\ firstn 3 (bern s') = [0; 0; 0]%nat /\ map Qred (v s') = [1 # 3; 1 # 3; 1 # 3]%Q.
Proof. eexists _, _, _. split; [vm_compute; reflexivity|]. split; reflexivity. Qed.
Example c76_separate_nontrivial : exists r s' g', wm_random (CBB 1 1) SNone (const_oracle (1 # 3)) c76_s [] = (Ok r, s', g') /\ firstn 3 (bern s') = [0; 1; 1]%nat.
Proof. eexists _, _, _. split; [vm_compute; reflexivity|]. reflexivity. Qed.
Example c76_bases_nontrivial : exists r s' g', wm_random (CBID 1 (1 # 2)) SNone (const_oracle (1 # 3)) c76_s [] = (Ok r, s', g') /\ length (v s') = 3%nat.
Proof. eexists _, _, _. split; [vm_compute; reflexivity|reflexivity]. Qed.
Example c76_atoms_nontrivial : exists s g s' g', gibbs_step flat_env (CDP 1) 60 o_half s g = (Ok tt, s', g') /\ labels_of s = [1; 0; 0]%nat.
Proof.
  set (x := ex_last flat_env (CDP 1) 0 7 1 2 o_half [] (MGibbs y3 SNone false IKmeans)).
  exists (ex_st x), (snd x). set (r := gibbs_step flat_env (CDP 1) 60 o_half (ex_st x) (snd x)). exists (snd (fst r)), (snd r).
  split; [|vm_compute; reflexivity]. assert (H : fst (fst r) = Ok tt) by (vm_compute; reflexivity). clearbody r. destruct r as [[a b] c]. simpl in *. rewrite H. reflexivity.
Qed.
