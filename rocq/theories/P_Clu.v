(* Clusterings of Gibbs fits (C44). *)
From Coq Require Import Lqa.
From Verif Require Import Prelude Numpy Rng M_Weights M_Niw M_Utils M_Mix M_Query S_Oracle S_Weights S_Niw S_Mix S_Sort S_Query P_Lists P_Niw P_Mix33 P_Mix34 P_MixOk P_Sort P_Dens.
Open Scope Q_scope.

(* ---- argmax ---- *)
Lemma qltb_spec' a b : qltb a b = true <-> a < b.
Proof. unfold qltb. rewrite negb_true_iff. split; intros H; [apply Qnot_le_lt; intros K; apply Qle_bool_iff in K; congruence|]. destruct (Qle_bool b a) eqn:E; [|reflexivity]. apply Qle_bool_iff in E. exfalso. lra. Qed.
Lemma argmax_from_spec : forall l pre best bi, (bi < length pre)%nat -> nth bi pre 0 == best ->
  (forall i, (i < length pre)%nat -> nth i pre 0 <= best) -> (forall i, (i < bi)%nat -> nth i pre 0 < best) ->
  first_max (pre ++ l) (argmax_from best bi (length pre) l).
Proof.
  induction l as [|x t IH]; intros pre best bi Hb Eb Hm Hf; cbn [argmax_from].
  - rewrite app_nil_r. split; [exact Hb|]. split; intros i Hi; rewrite Eb; [apply Hm, Hi|apply Hf, Hi].
  - assert (Ha : pre ++ x :: t = (pre ++ [x]) ++ t) by (rewrite <- app_assoc; reflexivity).
    assert (Hl : S (length pre) = length (pre ++ [x])) by (rewrite app_length; simpl; lia). rewrite Ha, Hl.
    assert (Nx : nth (length pre) (pre ++ [x]) 0 = x) by (rewrite app_nth2, Nat.sub_diag by lia; reflexivity).
    assert (Np : forall i, (i < length pre)%nat -> nth i (pre ++ [x]) 0 = nth i pre 0) by (intros i Hi; apply app_nth1, Hi).
    assert (Ca : forall i, (i < length (pre ++ [x]))%nat -> (i < length pre)%nat \/ i = length pre) by (intros i Hi; rewrite app_length in Hi; simpl in Hi; lia).
    destruct (qltb best x) eqn:Q.
    + apply qltb_spec' in Q. apply IH; [lia|rewrite Nx; reflexivity| |].
      * intros i Hi. destruct (Ca i Hi) as [H| ->]; [rewrite (Np i H); specialize (Hm i H); lra|rewrite Nx; lra].
      * intros i Hi. rewrite (Np i Hi). specialize (Hm i Hi). lra.
    + assert (~ best < x) by (rewrite <- qltb_spec'; congruence). apply IH; [lia|rewrite (Np bi Hb); exact Eb| |].
      * intros i Hi. destruct (Ca i Hi) as [H0| ->]; [rewrite (Np i H0); apply Hm, H0|rewrite Nx; lra].
      * intros i Hi. rewrite (Np i) by lia. apply Hf, Hi.
Qed.
Lemma argmax_spec l : l <> [] -> first_max l (argmax l).
Proof.
  destruct l as [|x t]; [congruence|]. intros _. apply (argmax_from_spec t [x] x 0%nat); simpl; try lia; try reflexivity.
  intros [|i] Hi; [simpl; lra|lia].
Qed.
Lemma first_max_scale l t j : 0 < t -> first_max (map (fun q => q / t) l) j -> first_max l j.
Proof.
  intros T (A & B & C). rewrite map_length in A, B.
  assert (N : forall i, (i < length l)%nat -> nth i (map (fun q => q / t) l) 0 = nth i l 0 / t) by (intros i Hi; rewrite (nth_map_lt _ _ _ _ 0) by exact Hi; reflexivity).
  split; [exact A|]. split.
  - intros i Hi. specialize (B i Hi). rewrite !N in B by assumption. apply (Qmult_le_r _ _ (/ t)); [apply Qinv_lt_0_compat, T|exact B].
  - intros i Hi. specialize (C i Hi). rewrite !N in C by lia. apply (Qmult_lt_r _ _ (/ t)); [apply Qinv_lt_0_compat, T|exact C].
Qed.
Lemma first_max_unique l i j : first_max l i -> first_max l j -> i = j.
Proof.
  intros (A & B & C) (A' & B' & C'). destruct (Nat.lt_trichotomy i j) as [H|[H|H]]; [|exact H|].
  - specialize (C' i H). specialize (B j A'). lra.
  - specialize (C j H). specialize (B' i A). lra.
Qed.
(* the largest entry is at least the average *)
Lemma sum_le {A} (f h : A -> Q) l : (forall x, In x l -> f x <= h x) -> sum_over f l <= sum_over h l.
Proof. induction l as [|a l IH]; intros H; cbn [sum_over]; [lra|]. specialize (IH (fun x Hx => H x (or_intror Hx))). specialize (H a (or_introl eq_refl)). lra. Qed.
Lemma max_average l j : first_max l j -> sum_over (fun x => x) l <= nq (length l) * nth j l 0.
Proof.
  intros (A & B & C). assert (H : sum_over (fun x => x) l <= sum_over (fun _ => nth j l 0) l).
  { apply sum_le. intros x Hx. destruct (In_nth l x 0 Hx) as (i & Hi & <-). apply B, Hi. }
  rewrite sum_const in H. exact H.
Qed.
Lemma elem_le_sum l j : nonneg l -> nth j l 0 <= sum_over (fun x => x) l.
Proof.
  intros H. revert j. induction l as [|a l IH]; intros j; [destruct j; simpl; lra|]. inversion H; subst. cbn [sum_over].
  assert (0 <= sum_over (fun x => x) l) by (apply sum_nonneg; intros x Hx; unfold nonneg in *; rewrite Forall_forall in *; auto).
  destruct j; cbn [nth]; [lra|]. specialize (IH H3 j). lra.
Qed.

(* ---- one mixture ---- *)
Lemma qmul2_joint cols ww i : length cols = length ww -> qmul2 (map (fun c => nth i c 0) cols) ww = joint cols ww i.
Proof.
  intros H. unfold joint. revert ww H. induction cols as [|c cols IH]; intros [|q ww] H; try discriminate H; [reflexivity|].
  cbn [map qmul2 length seq nth]. f_equal. rewrite <- seq_shift, map_map. apply IH. simpl in H. lia.
Qed.
Lemma joint_nonneg QE x r ls i : pdf_ok QE -> nonneg (r_w r) -> atom_densities QE x r ls -> nonneg (joint ls (r_w r) i).
Proof.
  intros P W (L & A). apply Forall_forall. intros z Hz. apply in_map_iff in Hz as (j & <- & Hj). apply in_seq in Hj.
  destruct (A j) as (a & _ & H); [lia|]. apply Qmult_le_0_compat; apply nth_nonneg; [apply P in H; apply H|exact W].
Qed.
Lemma cluster_ok QE x r lab unc : pdf_ok QE -> nonneg (r_w r) -> cluster QE x (r_w r) (r_theta r) = Ok (lab, unc) ->
  (length x <> 1)%nat /\ (0 < length (r_w r))%nat /\ exists grp, clusters QE x r grp lab unc.
Proof.
  intros P W H. unfold cluster in H. apply rbind_ok in H as (rows & Hr & H). unfold prob_rows in Hr. apply rbind_ok in Hr as (ls & Hls & Hr). injection Hr as <-.
  destruct (is_nil (r_w r) || Nat.eqb (length x) 1) eqn:B; [discriminate H|]. apply orb_false_iff in B as (B1 & B2). apply Nat.eqb_neq in B2. injection H as <- <-.
  assert (Lw : (0 < length (r_w r))%nat) by (destruct (r_w r); [discriminate B1|simpl; lia]).
  split; [exact B2|]. split; [exact Lw|]. destruct (rmap_ok _ _ _ Hls) as [L K]. rewrite map_length, seq_length in L, K.
  assert (A : atom_densities QE x r ls).
  { split; [exact L|]. intros j Hj. specialize (K j 0%Z [] Hj). rewrite zseq_nth in K by exact Hj. apply rbind_ok in K as (a & Ha & K).
    rewrite dict_get_of in Ha. fold (atom_of j (r_theta r)) in Ha. destruct (atom_of j (r_theta r)) as [a'|]; [|discriminate Ha]. injection Ha as <-. eauto. }
  set (rows := map (fun i => qmul2 (map (fun c => nth i c 0) ls) (r_w r)) (seq 0 (length x))).
  assert (Er : rows = map (joint ls (r_w r)) (seq 0 (length x))) by (apply map_ext; intros i; apply qmul2_joint, L). rewrite Er.
  exists (map row_group (map (joint ls (r_w r)) (seq 0 (length x)))), ls. split; [exact A|].
  rewrite ranks_length, !map_length, seq_length. do 3 (split; [reflexivity|]). split.
  - intros i Hi. rewrite !map_map, (nth_map_seq (fun j => row_group (joint ls (r_w r) j))), (nth_map_seq (fun j => row_uncertainty (joint ls (r_w r) j))) by exact Hi.
    set (q := joint ls (r_w r) i). assert (Nq : nonneg q) by (eapply joint_nonneg; eassumption).
    assert (Eq : qsum q = sum_over (fun x => x) q) by apply qsum_over.
    assert (S0 : 0 <= sum_over (fun x => x) q) by (apply sum_nonneg; intros z Hz; unfold nonneg in Nq; rewrite Forall_forall in Nq; auto).
    assert (Lq : length q = length (r_w r)) by (unfold q, joint; rewrite map_length, seq_length; reflexivity).
    destruct (Qeq_bool (qsum q) 0) eqn:Z.
    + apply Qeq_bool_iff in Z. rewrite Eq in Z. unfold chosen, uncertainty. fold q.
      assert (G : row_group q = 0%nat) by (unfold row_group; rewrite (proj2 (Qeq_bool_iff _ _)) by (rewrite Eq; exact Z); reflexivity). rewrite G.
      split; [left; split; [exact Z|reflexivity]|]. left. split; [exact Z|]. unfold row_uncertainty. rewrite (proj2 (Qeq_bool_iff _ _)) by (rewrite Eq; exact Z). reflexivity.
    + assert (P0 : 0 < sum_over (fun x => x) q). { apply Qeq_bool_neq in Z. rewrite Eq in Z. apply Qle_lteq in S0 as [S0|S0]; [exact S0|]. exfalso. apply Z. symmetry. exact S0. }
      assert (G : first_max q (row_group q)).
      { unfold row_group. rewrite Z. apply (first_max_scale q (qsum q)); [rewrite Eq; exact P0|]. apply argmax_spec. intros X. apply map_eq_nil in X. rewrite X in Lq. simpl in Lq. lia. }
      unfold chosen, uncertainty. fold q. split; [right; split; [exact P0|exact G]|]. right. split; [exact P0|].
      unfold row_uncertainty. rewrite Z. exists (1 - nth (row_group q) q 0 / qsum q). split; [reflexivity|]. rewrite Eq. field. lra.
  - set (grp := map row_group (map (joint ls (r_w r)) (seq 0 (length x)))). split; [apply ranks_contiguous|]. split; [apply ranks_same_partition|].
    intros i j Hi Hj. rewrite !ranks_nth by assumption.
    assert (M : forall a b, In a grp -> In b grp -> (a < b)%nat -> (rank_in (nunique grp) a < rank_in (nunique grp) b)%nat).
    { intros a b Ha Hb Hab. apply rank_mono; [apply nunique_sorted| |exact Hab]. destruct (rank_label grp a Ha) as [R1 R2]. rewrite <- R1. apply nth_In, R2. }
    split; [apply M; apply nth_In; assumption|]. intros H. destruct (Nat.lt_trichotomy (nth i grp 0%nat) (nth j grp 0%nat)) as [G|[G|G]]; [exact G|rewrite G in H; lia|].
    apply M in G; [lia|apply nth_In; assumption|apply nth_In; assumption].
Qed.
Lemma c44_clusters_proof : forall E QE c fuel parg narg mu lam psi nu t b k o s0 g0 ops s g y lab unc, valid_oracle o ->
  (forall x al a b pm, c = CBIB x al a b pm -> in01 parg) -> pdf_ok QE ->
  new_mix c parg narg mu lam psi nu t b k o = Ok (s0, g0) -> run_mops E c fuel ops o s0 g0 = (s, g) ->
  gibbs_map_cluster QE s y = Ok (lab, unc) ->
  exists x fl r grp, cast_obs s y = Ok (x, fl) /\ s_map s = Some r /\ clusters QE x r grp lab unc.
Proof.
  intros E QE c fuel parg narg mu lam psi nu t b k o s0 g0 ops s g y lab unc V P Pd N R H.
  destruct (c64_subprob_proof E c fuel _ _ _ _ _ _ _ _ _ _ _ _ _ _ _ V P N R) as (_ & _ & Wm).
  unfold gibbs_map_cluster in H. destruct (s_gfit s); [|discriminate H]. cbn [negb] in H.
  apply rbind_ok in H as ([x fl] & Hx & H). apply rbind_ok in H as (r & Hr & H). unfold get_map in Hr. destruct (s_map s) eqn:Em; [|discriminate Hr]. injection Hr as ->.
  apply cluster_ok in H as (_ & _ & grp & H); [|exact Pd|apply Wm; reflexivity]. exists x, fl, r, grp. auto.
Qed.
(* consequences for the uncertainties *)
Lemma c44_uncertainty_proof : forall QE x r grp lab unc i v, pdf_ok QE -> nonneg (r_w r) -> clusters QE x r grp lab unc ->
  (i < length x)%nat -> nth i unc None = Some v -> (0 < length (r_w r))%nat /\ 0 <= v /\ v <= 1 - 1 / nq (length (r_w r)).
Proof.
  intros QE x r grp lab unc i v P W (ls & A & _ & _ & _ & H & _) Hi Hu. destruct (H i Hi) as [Hc Hv]. rewrite Hu in Hv. unfold chosen, uncertainty in *.
  pose proof (joint_nonneg QE x r ls i P W A) as Nq. 
  assert (Lq : length (joint ls (r_w r) i) = length (r_w r)) by (unfold joint; rewrite map_length, seq_length; reflexivity).
  set (q := joint ls (r_w r) i) in *. cbv zeta in *. set (t := sum_over (fun x => x) q) in *.
  destruct Hv as [[_ X]|(T & v' & X & Ev)]; [discriminate X|]. injection X as <-. destruct Hc as [[X _]|[_ G]]; [lra|].
  assert (Lw : (0 < length (r_w r))%nat) by (rewrite <- Lq; destruct G; lia). split; [exact Lw|].
  pose proof (elem_le_sum q (nth i grp 0%nat) Nq) as U. pose proof (max_average q _ G) as M. fold t in U, M. rewrite Lq in M.
  set (m := nth (nth i grp 0%nat) q 0) in *.
  split.
  - assert ((1 - v) * t <= 1 * t) by lra. apply Qmult_le_r in H0; [lra|exact T].
  - assert (Nk : 0 < nq (length (r_w r))) by (unfold nq, Qlt; simpl; lia).
    assert (1 / nq (length (r_w r)) <= 1 - v); [|lra]. apply Qle_shift_div_r; [exact Nk|].
    apply (Qmult_le_r _ _ t); [exact T|]. rewrite Qmult_1_l. setoid_replace ((1 - v) * nq (length (r_w r)) * t) with (nq (length (r_w r)) * ((1 - v) * t)) by ring. rewrite Ev. exact M.
Qed.
Lemma c44_single_row_proof : forall QE s y x fl v, cast_obs s y = Ok (x, fl) -> length x = 1%nat -> gibbs_map_cluster QE s y <> Ok v.
Proof.
  intros QE s y x fl v Hx L H. unfold gibbs_map_cluster in H. destruct (s_gfit s); [|discriminate H]. cbn [negb] in H. rewrite Hx in H. cbn [rbind] in H.
  apply rbind_ok in H as (r & _ & H). unfold cluster in H. apply rbind_ok in H as (rows & _ & H). cbn [fst] in H. rewrite L in H. cbn [Nat.eqb] in H. rewrite orb_true_r in H. discriminate H.
Qed.

(* ---- affinity for explicit data ---- *)
Definition label_table (n : nat) (ls : list (list nat)) : list (list nat) :=
  map (fun i => map (fun k => length (filter (fun l => Nat.eqb (nth i l 0%nat) (nth k l 0%nat)) ls)) (seq 0 n)) (seq 0 n).
Lemma label_table_add n ls l : length l = n -> add_matrix (label_table n ls) (equal_matrix l) = label_table n (ls ++ [l]).
Proof.
  intros <-. rewrite equal_matrix_table. unfold label_table. rewrite add_tables. apply map_ext. intros i. apply map_ext. intros k.
  rewrite filter_app, app_length. f_equal. simpl. destruct (Nat.eqb _ _); reflexivity.
Qed.
Lemma fold_table n : forall (gs : list (list nat * list (option Q))) ls, (forall g, In g gs -> length (fst g) = n) ->
  fold_left (fun m g => add_matrix m (equal_matrix (fst g))) gs (label_table n ls) = label_table n (ls ++ map fst gs).
Proof.
  induction gs as [|g gs IH]; intros ls H; cbn [fold_left map]; [rewrite app_nil_r; reflexivity|].
  rewrite label_table_add by (apply H; left; reflexivity). rewrite IH by (intros; apply H; right; assumption). rewrite <- app_assoc. reflexivity.
Qed.
Lemma repeat_map {A B} (x : B) : forall (l : list A), map (fun _ => x) l = repeat x (length l).
Proof. induction l; simpl; congruence. Qed.
Lemma table0 n : repeat (repeat 0%nat n) n = label_table n [].
Proof. unfold label_table. cbn [filter length]. rewrite (repeat_map 0%nat (seq 0 n)), (repeat_map _ (seq 0 n)), seq_length. reflexivity. Qed.
Lemma c44_affinity_proof : forall E QE c fuel parg narg mu lam psi nu t b k o s0 g0 ops s g ya m, valid_oracle o ->
  (forall x al a b pm, c = CBIB x al a b pm -> in01 parg) -> pdf_ok QE ->
  new_mix c parg narg mu lam psi nu t b k o = Ok (s0, g0) -> run_mops E c fuel ops o s0 g0 = (s, g) ->
  gibbs_eap_affinity_matrix QE s (Some ya) = Ok m -> get_sim_params s <> [] ->
  exists x fl grps, cast_obs s (Some ya) = Ok (x, fl) /\ length grps = length (get_sim_params s) /\
    (forall n r0, (n < length grps)%nat -> exists lab unc, clusters QE x (nth n (get_sim_params s) r0) (nth n grps []) lab unc) /\
    length m = length x /\ forall i j, (i < length x)%nat -> (j < length x)%nat ->
      exists q, nth j (nth i m []) None = Some q /\
        q * nq (length grps) == nq (length (filter (fun l => Nat.eqb (nth i l 0%nat) (nth j l 0%nat)) grps)).
Proof.
  intros E QE c fuel parg narg mu lam psi nu t b k o s0 g0 ops s g ya m V P Pd N R H NE.
  destruct (c64_subprob_proof E c fuel _ _ _ _ _ _ _ _ _ _ _ _ _ _ _ V P N R) as (_ & Ws & _).
  unfold gibbs_eap_affinity_matrix in H. destruct (s_gfit s); [|discriminate H]. cbn [negb] in H.
  apply rbind_ok in H as ([x fl] & Hx & H). apply rbind_ok in H as (gs & Hg & H). cbn [fst] in *. injection H as <-. destruct (rmap_ok _ _ _ Hg) as [L K].
  assert (C : forall n r0, (n < length gs)%nat -> exists grp, clusters QE x (nth n (s_sims s) r0) grp (fst (nth n gs ([], []))) (snd (nth n gs ([], [])))).
  { intros n r0 Hn. rewrite L in Hn. specialize (K n r0 ([], []) Hn). destruct (nth n gs ([], [])) as [lab unc] eqn:En.
    apply cluster_ok in K as (_ & _ & grp & K); [exists grp; exact K|exact Pd|]. apply Ws, nth_In, Hn. }
  destruct (s_sims s) as [|r1 rt] eqn:Es; [exfalso; apply NE; exact Es|]. rewrite <- Es in *.
  assert (F : exists grps, length grps = length gs /\ forall n r0, (n < length gs)%nat -> clusters QE x (nth n (s_sims s) r0) (nth n grps []) (fst (nth n gs ([], []))) (snd (nth n gs ([], [])))).
  { assert (G : forall m, (m <= length gs)%nat -> exists grps, length grps = m /\ forall n r0, (n < m)%nat -> clusters QE x (nth n (s_sims s) r0) (nth n grps []) (fst (nth n gs ([], []))) (snd (nth n gs ([], [])))).
    { induction m as [|m IH]; intros Hm; [exists []; split; [reflexivity|intros; lia]|]. destruct IH as (grps & Lg & Hgs); [lia|]. destruct (C m r1 ltac:(lia)) as (grp & Hgrp).
      exists (grps ++ [grp]). split; [rewrite app_length; simpl; lia|]. intros n r0 Hn. destruct (Nat.eq_dec n m) as [->|D].
      - rewrite app_nth2, <- Lg, Nat.sub_diag by lia. cbn [nth]. rewrite (nth_indep (s_sims s) r0 r1) by lia. rewrite Lg. exact Hgrp.
      - rewrite app_nth1 by lia. apply Hgs. lia. }
    apply (G (length gs)). lia. }
  destruct F as (grps & Lg & F). exists x, fl, grps. split; [exact Hx|]. split; [unfold get_sim_params; lia|].
  split; [intros n r0 Hn; exists (fst (nth n gs ([], []))), (snd (nth n gs ([], []))); apply F; lia|].
  assert (Len : forall n, (n < length gs)%nat -> length (fst (nth n gs ([], []))) = length x) by (intros n Hn; destruct (F n r1 Hn) as (ls & _ & _ & Hl & _); exact Hl).
  rewrite table0, fold_table. 2: { intros gg Hin. destruct (In_nth gs gg ([], []) Hin) as (n & Hn & <-). apply Len, Hn. }
  cbn [app]. assert (NZ : (0 < length (s_sims s))%nat) by (rewrite Es; simpl; lia). destruct (Nat.eqb_spec (length (s_sims s)) 0) as [X|_]; [lia|].
  unfold div_count, label_table. split; [rewrite !map_length, seq_length; reflexivity|]. intros i j Hi Hj.
  rewrite map_map, (nth_map_seq (fun i0 => map _ (map _ (seq 0 (length x))))) by exact Hi. rewrite map_map, nth_map_seq by exact Hj.
  destruct (Nat.eqb_spec (length (s_sims s)) 0) as [X|_]; [lia|]. eexists. split; [reflexivity|]. rewrite Lg, L.
  assert (Ef : length (filter (fun l => Nat.eqb (nth i l 0%nat) (nth j l 0%nat)) (map fst gs)) = length (filter (fun l => Nat.eqb (nth i l 0%nat) (nth j l 0%nat)) grps)).
  { assert (Hall : forall n, (n < length gs)%nat -> Nat.eqb (nth i (fst (nth n gs ([], []))) 0%nat) (nth j (fst (nth n gs ([], []))) 0%nat) = Nat.eqb (nth i (nth n grps []) 0%nat) (nth j (nth n grps []) 0%nat)).
    { intros n Hn. destruct (F n r1 Hn) as (ls & _ & G1 & G2 & _ & _ & _ & (_ & G3) & _). apply eq_true_iff_eq. rewrite !Nat.eqb_eq. symmetry. apply G3; lia. }
    clear -Lg Hall. revert gs Lg Hall. induction grps as [|g0 grps IH]; intros [|g1 gs] Lg Hall; try discriminate Lg; [reflexivity|].
    cbn [map filter]. assert (H0 := Hall 0%nat ltac:(simpl; lia)). cbn [nth] in H0. rewrite H0.
    assert (IH' := IH gs ltac:(simpl in Lg; lia) (fun n Hn => Hall (S n) ltac:(simpl; lia))).
    destruct (Nat.eqb (nth i g0 0%nat) (nth j g0 0%nat)); cbn [length]; lia. }
  rewrite Ef. field. unfold nq, Qeq. simpl. lia.
Qed.
