(* Witnesses for the theorems about pair plots. *)
From Coq Require Import Lqa QArith.Qround.
From Verif Require Import Prelude Numpy Rng M_Weights M_Niw M_Utils M_Mix M_Query M_Plot S_Oracle S_Weights S_Niw S_Mix S_Sort S_Query S_Plot S_MixEx P_Lists P_Niw P_MixEx P_Dens P_Clu P_QueryEx P_Plot.
Open Scope Q_scope.

Definition atoms_check (k : nat) (r : rparams) : bool :=
  forallb (fun j => match atom_of j (r_theta r) with
                    | Some a => Nat.eqb (length (fst a)) k && Nat.eqb (length (snd a)) k && forallb (fun x => Nat.eqb (length x) k) (snd a)
                    | None => false end) (seq 0 (length (r_w r))).
Lemma atoms_check_ok k r : atoms_check k r = true -> atoms_of_dim k r.
Proof.
  intros H j Hj. unfold atoms_check in H. rewrite forallb_forall in H. specialize (H j). rewrite in_seq in H. specialize (H ltac:(lia)).
  destruct (atom_of j (r_theta r)) as [a|]; [|discriminate H]. apply andb_true_iff in H as [H H3]. apply andb_true_iff in H as [H1 H2]. apply Nat.eqb_eq in H1, H2. exists a.
  split; [reflexivity|]. split; [exact H1|]. split; [exact H2|]. intros i Hi. rewrite forallb_forall in H3. apply Nat.eqb_eq, H3, nth_In. lia.
Qed.
(* a component near the row *)
Definition near (r m : vec) : bool := qltb (vat r 0) (vat m 0 + (1 # 2)) && qltb (vat m 0) (vat r 0 + (1 # 2)).
Definition near_env : env := ex_env (fun r a => if near r (fst a) then LQ 0 else LNeg).
Definition near_qenv : qenv := ex_qenv (fun r m => if near r m then 1 else 0).
Lemma near_ok : pdf_ok near_qenv.
Proof. apply ex_qenv_ok. intros r m. destruct (near r m); lra. Qed.
Lemma near_total : norm_total near_qenv.
Proof. intros x m v. eexists. reflexivity. Qed.
Definition o_near : oracle := ex_oracle (1 # 2) (fr (1 # 2)) true (fun r => Z.to_nat (Qfloor (vat r 0))).
Lemma o_near_valid : valid_oracle o_near.
Proof. apply ex_oracle_valid; [lra|]. intros g. unfold fr. lra. Qed.
(* n points on a parabola, each a cluster *)
Definition parabola (n : nat) : yarg := YList2 (map (fun i => [nq i; nq (i * i)]) (seq 0 n)) 2.
Definition nonneg_check (l : list Q) : bool := forallb (Qle_bool 0) l.
Lemma nonneg_check_ok l : nonneg_check l = true -> nonneg l.
Proof. intros H. apply Forall_forall. intros x Hx. unfold nonneg_check in H. rewrite forallb_forall in H. apply Qle_bool_iff, H, Hx. Qed.
Lemma eleven_facts : exists s0 g0 s g r unc, new_mix CEqual 0 11 None (1 # 100) None None 1 0 1 o_near = Ok (s0, g0) /\
  fit_gibbs near_env CEqual 60 (parabola 11) SNone false IKmeans o_near s0 g0 = (Ok tt, s, g) /\
  s_1d s = false /\ s_map s = Some r /\ s_dim s = 2%nat /\ atoms_of_dim 2 r /\ nonneg (r_w r) /\ gibbs_map_cluster near_qenv s None = Ok (seq 0 11, unc) /\ s_y s <> [].
Proof.
  eexists _, _, _, _, _, _. split; [vm_compute; reflexivity|]. split; [vm_compute; reflexivity|]. split; [reflexivity|]. split; [reflexivity|]. split; [reflexivity|].
  split; [apply atoms_check_ok; vm_compute; reflexivity|]. split; [apply nonneg_check_ok; vm_compute; reflexivity|]. split; [vm_compute; reflexivity|discriminate].
Qed.
Lemma twelve_facts : exists s0 g0 s g r unc cmds, new_mix CEqual 0 12 None (1 # 100) None None 1 0 1 o_near = Ok (s0, g0) /\
  fit_gibbs near_env CEqual 60 (parabola 12) SNone false IKmeans o_near s0 g0 = (Ok tt, s, g) /\
  s_1d s = false /\ s_map s = Some r /\ s_dim s = 2%nat /\ atoms_of_dim 2 r /\ nonneg (r_w r) /\ gibbs_map_cluster near_qenv s None = Ok (seq 0 12, unc) /\ s_y s <> [] /\
  gibbs_map_pairplot near_qenv s = Ok cmds.
Proof.
  eexists _, _, _, _, _, _, _. split; [vm_compute; reflexivity|]. split; [vm_compute; reflexivity|]. split; [reflexivity|]. split; [reflexivity|]. split; [reflexivity|].
  split; [apply atoms_check_ok; vm_compute; reflexivity|]. split; [apply nonneg_check_ok; vm_compute; reflexivity|]. split; [vm_compute; reflexivity|]. split; [discriminate|vm_compute; reflexivity].
Qed.
(* all rows belong to component 1 of a fit *)
Definition three_rows : yarg := YList2 [[-1; 0]; [2; 1]; [3; 2]] 2.
Definition is_contour_of (mu : vec) (c : pcmd) : bool := match c with PContour 0 1 _ m _ => forallb (fun p => Qeq_bool (fst p) (snd p)) (combine m mu) | _ => false end.
Lemma swapped_facts : exists s0 g0 s g r lab unc cmds, new_mix (CDP 1) 0 0 None 1 None None 2 1 1 o_half = Ok (s0, g0) /\
  fit_gibbs off_env (CDP 1) 60 three_rows SNone false IKmeans o_half s0 g0 = (Ok tt, s, g) /\
  s_map s = Some r /\ s_gfit s = true /\ s_y s = [[-1; 0]; [2; 1]; [3; 2]] /\ r_w r = [1 # 2; 1 # 4; 1 # 8] /\
  r_theta r = [(0%nat, ([19 # 9; 4 # 3], [[155 # 27; 26 # 9]; [26 # 9; 5 # 3]])); (1%nat, ([1 # 6; 1 # 2], [[127 # 18; 19 # 6]; [19 # 6; 3 # 2]])); (2%nat, ([4 # 3; 1], [[13 # 3; 2]; [2; 1]]))] /\
  gibbs_map_cluster left_qenv s None = Ok (lab, unc) /\ lab = [0; 0; 0]%nat /\ gibbs_map_pairplot left_qenv s = Ok cmds /\
  existsb (is_contour_of [1 # 6; 1 # 2]) cmds = false /\ In (PScatter 0 1 [-1; 2; 3] [0; 1; 2] [0; 0; 0]%nat) cmds /\
  In (PContour 0 1 0 [19 # 9; 4 # 3] [[155 # 27; 26 # 9]; [26 # 9; 5 # 3]]) cmds.
Proof.
  eexists _, _, _, _, _, _, _, _. split; [vm_compute; reflexivity|]. split; [vm_compute; reflexivity|]. do 5 (split; [reflexivity|]). split; [vm_compute; reflexivity|]. split; [reflexivity|].
  split; [vm_compute; reflexivity|]. split; [vm_compute; reflexivity|]. split; vm_compute; tauto.
Qed.
Lemma c72_refuted_proof : exists E QE c fuel o s0 g0 s g r grp lab unc cmds, valid_oracle o /\ pdf_ok QE /\ new_mix c 0 0 None 1 None None 2 1 1 o = Ok (s0, g0) /\
  fit_gibbs E c fuel (YList2 [[-1; 0]; [2; 1]; [3; 2]] 2) SNone false IKmeans o s0 g0 = (Ok tt, s, g) /\ gibbs_map_pairplot QE s = Ok cmds /\
  s_map s = Some r /\ clusters QE (s_y s) r grp lab unc /\ grp = [1; 1; 1]%nat /\
  (exists a xs ys, atom_of 0 (r_theta r) = Some a /\ In (PScatter 0 1 xs ys [0; 0; 0]%nat) cmds /\ exists sg, In (PContour 0 1 0 [coord 0 (fst a); coord 1 (fst a)] sg) cmds) /\
  (exists a, atom_of 1 (r_theta r) = Some a /\ forall k sg, ~ In (PContour 0 1 k [coord 0 (fst a); coord 1 (fst a)] sg) cmds).
Proof.
  destruct swapped_facts as (s0 & g0 & s & g & r & lab & unc & cmds & H0 & H1 & M & F & Y & W & T & K & L & Hp & Nc & Sc & Ct).
  assert (Kc : cluster left_qenv (s_y s) (r_w r) (r_theta r) = Ok (lab, unc)) by (unfold gibbs_map_cluster in K; rewrite F in K; cbn [negb cast_obs rbind fst] in K; unfold get_map in K; rewrite M in K; exact K).
  apply cluster_ok in Kc as (_ & _ & grp & Kc); [|apply left_ok|rewrite W; repeat constructor; lra].
  exists off_env, left_qenv, (CDP 1), 60%nat, o_half, s0, g0, s, g, r, grp, lab, unc, cmds. split; [apply o_half_valid|]. split; [apply left_ok|]. split; [exact H0|]. split; [exact H1|]. split; [exact Hp|]. split; [exact M|]. split; [exact Kc|]. split; [|split].
  - clear H0 H1 Hp Nc Sc Ct K. destruct Kc as (ls & (Ln & A) & G & _ & _ & H & _). rewrite Y in *. rewrite W in *. rewrite T in *. simpl in Ln, A, G, H.
    assert (Els : ls = [[0; 0; 0]; [1; 1; 1]; [0; 0; 0]]).
    { destruct ls as [|l0 [|l1 [|l2 [|]]]]; try discriminate Ln.
      destruct (A 0%nat ltac:(lia)) as (a0 & E0 & Q0). destruct (A 1%nat ltac:(lia)) as (a1 & E1 & Q1). destruct (A 2%nat ltac:(lia)) as (a2 & E2 & Q2).
      injection E0 as <-. injection E1 as <-. injection E2 as <-. vm_compute in Q0, Q1, Q2. injection Q0 as <-. injection Q1 as <-. injection Q2 as <-. reflexivity. }
    assert (B : forall i, (i < 3)%nat -> nth i grp 0%nat = 1%nat).
    { intros i Hi. destruct (H i Hi) as [[[Z _]|[_ X]] _]; rewrite Els in *.
      - exfalso. destruct i as [|[|[|]]]; try lia; vm_compute in Z; discriminate Z.
      - eapply first_max_unique; [exact X|]. destruct i as [|[|[|]]]; try lia; apply argmax_spec; discriminate. }
    destruct grp as [|a [|b [|d [|]]]]; try discriminate G. pose proof (B 0%nat ltac:(lia)). pose proof (B 1%nat ltac:(lia)). pose proof (B 2%nat ltac:(lia)). simpl in *. congruence.
  - rewrite T. eexists _, _, _. split; [reflexivity|]. split; [exact Sc|]. eexists. exact Ct.
  - rewrite T. eexists. split; [reflexivity|]. intros k sg I. assert (X : existsb (is_contour_of [1 # 6; 1 # 2]) cmds = true); [|congruence]. apply existsb_exists. eexists. split; [exact I|]. reflexivity.
Qed.
