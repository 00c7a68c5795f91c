(* The MAP state of a Gibbs run (C35). *)
From Coq Require Import Lqa.
From Verif Require Import Prelude Numpy Rng M_Weights M_Niw M_Utils M_Mix M_Query S_Oracle S_Mix S_Map P_Lists P_Wp P_Mix P_Mix33 P_Resp.
Open Scope Q_scope.
Open Scope m_scope.

(* order *)
Lemma lx_ltb_trans a b d : lx_ltb a b = true -> lx_ltb b d = true -> lx_ltb a d = true.
Proof.
  destruct a, b, d; simpl; try congruence. intros H1 H2. apply qltb_lt in H1, H2. apply qltb_lt. lra.
Qed.
Lemma lx_ltb_le a b d : lx_ltb a b = true -> lx_ltb a d = false -> d = LNan \/ lx_ltb d b = true.
Proof.
  destruct a, b, d; simpl; auto; try congruence. intros H1 H2. apply qltb_lt in H1. apply qltb_ge in H2. right. apply qltb_lt. lra.
Qed.
Lemma lx_ltb_asym a b : lx_ltb a b = true -> lx_ltb b a = false.
Proof. destruct a, b; simpl; auto; try congruence. intros H. apply qltb_lt in H. apply qltb_ge. lra. Qed.
Lemma lx_ltb_neg a : lx_ltb a LNeg = false. Proof. destruct a; reflexivity. Qed.
Lemma lx_ltb_nan a : lx_ltb a LNan = false. Proof. destruct a; reflexivity. Qed.

Definition better (b : option rparams * lx) (p : rparams * lx) : option rparams * lx :=
  if lx_ltb (snd b) (snd p) then (Some (fst p), snd p)
  else if lx_is_neg (snd b) then (Some (fst p), snd b) else b.
Lemma nth_error_snoc {A} (l : list A) x j y : nth_error (l ++ [x]) j = Some y ->
  (j < length l)%nat /\ nth_error l j = Some y \/ j = length l /\ y = x.
Proof.
  intros H. destruct (Nat.lt_ge_cases j (length l)) as [L|L].
  - left. split; [exact L|]. rewrite nth_error_app1 in H by exact L. exact H.
  - right. rewrite nth_error_app2 in H by exact L. destruct (j - length l)%nat as [|k] eqn:K; simpl in H; [|destruct k; discriminate H].
    split; [lia|congruence].
Qed.
Lemma is_best_fold r0 l0 tr : let b := fold_left better tr (r0, l0) in is_best r0 l0 tr (fst b) (snd b).
Proof.
  cbv zeta. induction tr as [|p tr IH] using rev_ind.
  { right. split; [intros [|j] q H; discriminate H|]. simpl. split; [reflexivity|]. destruct l0; reflexivity. }
  rewrite fold_left_app. simpl. destruct (fold_left better tr (r0, l0)) as [r l] eqn:B. simpl in IH.
  unfold better. simpl. destruct (lx_ltb l (snd p)) eqn:L; simpl.
  - left. exists (length tr), (fst p). split; [rewrite nth_error_app2 by lia; rewrite Nat.sub_diag; destruct p; reflexivity|].
    split; [reflexivity|].
    assert (A : forall j q, nth_error tr j = Some q -> snd q = LNan \/ lx_ltb (snd q) (snd p) = true).
    { intros j q Hq. destruct IH as [(i & p' & _ & _ & _ & H & _)|(H & -> & _)]; eapply lx_ltb_le; eauto. }
    split; [destruct IH as [(i & p' & _ & _ & H & _)|(_ & -> & _)]; [eapply lx_ltb_trans; eauto|exact L]|].
    split; intros j q; [intros Hq|intros Hj Hq]; apply nth_error_snoc in Hq as [[Hl Hq]|[Hl ->]]; try lia.
    + destruct (A j q Hq) as [->|H]; [apply lx_ltb_nan|apply lx_ltb_asym, H].
    + destruct (snd p); try reflexivity. simpl. apply qltb_ge. lra.
    + eauto.
  - destruct (lx_is_neg l) eqn:N; simpl.
    + destruct l; try discriminate N. destruct IH as [(i & p' & _ & _ & H & _)|(H & <- & _)]; [rewrite lx_ltb_neg in H; discriminate H|].
      right. split; [|split; [reflexivity|rewrite rev_app_distr; reflexivity]].
      intros j q Hq. apply nth_error_snoc in Hq as [[Hl Hq]|[Hl ->]]; [eauto|exact L].
    + destruct IH as [(i & p' & H1 & H2 & H3 & H4 & H5)|(H & -> & ->)].
      * left. exists i, p'. assert (Hi : (i < length tr)%nat) by (apply nth_error_Some; rewrite H1; discriminate).
        split; [rewrite nth_error_app1 by exact Hi; exact H1|]. split; [exact H2|]. split; [exact H3|].
        split; intros j q; [intros Hq|intros Hj Hq]; apply nth_error_snoc in Hq as [[Hl Hq]|[Hl ->]]; try lia; eauto.
      * right. split; [|split; [reflexivity|destruct l0; try reflexivity; discriminate N]].
        intros j q Hq. apply nth_error_snoc in Hq as [[Hl Hq]|[Hl ->]]; [eauto|exact L].
Qed.

Definition mapof (s : ms) := (s_map s, s_mapll s).
Notation v := (wipe true).
Lemma bind_ok {S A B} (m : M S A) (k : A -> M S B) o s g r s' g' : bind m k o s g = (Ok r, s', g') ->
  exists a s1 g1, m o s g = (Ok a, s1, g1) /\ k a o s1 g1 = (Ok r, s', g').
Proof. unfold bind. destruct (m o s g) as [[[a|e|] s1] g1]; intros H; try discriminate H. eauto. Qed.
Lemma ok_bind {S A B} (m : M S A) (k : A -> M S B) o s g a s1 g1 : m o s g = (Ok a, s1, g1) -> bind m k o s g = k a o s1 g1.
Proof. intros H. unfold bind. rewrite H. reflexivity. Qed.
Lemma resp_ok {A} (m : M ms A) o s1 s2 g r t g' : resp v m -> m o s1 g = (r, t, g') -> v s1 = v s2 ->
  exists t2, m o s2 g = (r, t2, g') /\ v t = v t2.
Proof. intros H Hm Hv. specialize (H o s1 s2 g Hv). rewrite Hm in H. destruct (m o s2 g) as [[r2 t2] g2]. destruct H as (-> & -> & H). eauto. Qed.
Lemma keeps_ok {S A B} (f : S -> B) (m : M S A) o s g r t g' : keeps f m -> m o s g = (r, t, g') -> f t = f s.
Proof. intros H Hm. specialize (H o s g). rewrite Hm in H. exact H. Qed.

Section C35.
Variables (E : env) (c : cls) (fuel : nat).
Lemma update_map_sim o s s2 g s' g' : update_map E c o s g = (Ok tt, s', g') -> v s = v s2 ->
  exists p s2', visit E c o s2 g = (Ok p, s2', g') /\ v s' = v s2' /\ mapof s' = better (mapof s) p.
Proof.
  unfold update_map. intros H Hv. apply bind_ok in H as (l & s1 & g1 & H1 & H).
  destruct (resp_ok _ _ _ _ _ _ _ _ (resp_run_loglik E c) H1 Hv) as (t2 & H2 & Hv2).
  assert (K : mapof s1 = mapof s) by (eapply (keeps_ok mapof); [apply keeps_run_loglik; reflexivity|exact H1]).
  exists (get_run_params s1, l), t2.
  assert (Eg : get_run_params s1 = get_run_params t2) by (change (get_run_params (v s1) = get_run_params (v t2)); rewrite Hv2; reflexivity).
  rewrite <- K. unfold visit. rewrite (ok_bind _ _ _ _ _ _ _ _ H2).
  unfold bind, get in *. simpl. unfold better, mapof. simpl.
  destruct (lx_ltb (s_mapll s1) l); [|destruct (lx_is_neg (s_mapll s1))];
    unfold upd, ret in *; injection H as <- <-; rewrite Eg; auto.
Qed.
Lemma sweep_sim o s s2 g s' g' : sweep E c fuel o s g = (Ok tt, s', g') -> v s = v s2 ->
  exists p s1 g1 s2', gibbs_step E c fuel o s2 g = (Ok tt, s1, g1) /\ visit E c o s1 g1 = (Ok p, s2', g') /\ v s' = v s2' /\
    mapof s' = better (mapof s) p.
Proof.
  unfold sweep. intros H Hv. apply bind_ok in H as ([] & s1 & g1 & H1 & H).
  destruct (resp_ok _ _ _ _ _ _ _ _ (resp_gibbs_step E c fuel) H1 Hv) as (t2 & H2 & Hv2).
  assert (K : mapof s1 = mapof s) by (eapply (keeps_ok mapof); [apply keeps_gibbs_step; reflexivity|exact H1]).
  destruct (update_map_sim _ _ _ _ _ _ H Hv2) as (p & s2' & H3 & H4 & H5).
  exists p, t2, g1, s2'. rewrite <- K. auto.
Qed.
Lemma visits_cons n o s g s1 g1 p s2 g2 r t g' : gibbs_step E c fuel o s g = (Ok tt, s1, g1) -> visit E c o s1 g1 = (Ok p, s2, g2) ->
  visits E c fuel n o s2 g2 = (Ok r, t, g') -> visits E c fuel (S n) o s g = (Ok (p :: r), t, g').
Proof. intros H1 H2 H3. simpl. rewrite (ok_bind _ _ _ _ _ _ _ _ H1), (ok_bind _ _ _ _ _ _ _ _ H2), (ok_bind _ _ _ _ _ _ _ _ H3). reflexivity. Qed.
Lemma burn_sim o n : forall s s2 g s' g', burn_loop E c fuel n o s g = (Ok tt, s', g') -> v s = v s2 ->
  exists tr s2', visits E c fuel n o s2 g = (Ok tr, s2', g') /\ v s' = v s2' /\ length tr = n /\ mapof s' = fold_left better tr (mapof s).
Proof.
  induction n as [|n IH]; intros s s2 g s' g' H Hv.
  { injection H as <- <-. exists [], s2. auto. }
  simpl in H. apply bind_ok in H as ([] & s1 & g1 & H1 & H).
  destruct (sweep_sim _ _ _ _ _ _ H1 Hv) as (p & a1 & h1 & a2 & G1 & G2 & G3 & G4).
  destruct (IH _ _ _ _ _ H G3) as (tr & t & K1 & K2 & K3 & K4).
  exists (p :: tr), t. split; [eapply visits_cons; eauto|]. split; [exact K2|]. split; [simpl; lia|]. simpl. rewrite <- G4. exact K4.
Qed.
Lemma save_v o s g r s' g' : save_params o s g = (r, s', g') -> v s' = v s /\ mapof s' = mapof s /\ g' = g.
Proof.
  unfold save_params, bind, upd, get. simpl. destruct (Nat.eqb _ _); unfold raise; intros [= <- <- <-]; auto.
Qed.
Lemma train_sim o n : forall i s s2 g s' g', train_loop E c fuel n i o s g = (Ok tt, s', g') -> v s = v s2 ->
  exists tr s2', visits E c fuel n o s2 g = (Ok tr, s2', g') /\ v s' = v s2' /\ length tr = n /\ mapof s' = fold_left better tr (mapof s).
Proof.
  induction n as [|n IH]; intros i s s2 g s' g' H Hv.
  { injection H as <- <-. exists [], s2. auto. }
  cbn [train_loop] in H. apply bind_ok in H as ([] & s1 & g1 & H1 & H).
  destruct (sweep_sim _ _ _ _ _ _ H1 Hv) as (p & a1 & h1 & a2 & G1 & G2 & G3 & G4).
  apply bind_ok in H as (s1' & s1'' & g1' & X & H). injection X as <- <- <-.
  apply bind_ok in H as ([] & s3 & g3 & H3 & H).
  assert (K : v s3 = v s1 /\ mapof s3 = mapof s1 /\ g3 = g1).
  { destruct (s_sub s1 =? 0)%Z; [discriminate H3|]. destruct (i mod s_sub s1 =? 0)%Z; [eapply save_v, H3|injection H3 as <- <-; auto]. }
  destruct K as (Kv & Km & ->). rewrite <- Kv in G3.
  destruct (IH _ _ _ _ _ _ H G3) as (tr & t & K1 & K2 & K3 & K4).
  exists (p :: tr), t. split; [eapply visits_cons; eauto|]. split; [exact K2|]. split; [simpl; lia|]. simpl. rewrite <- G4, <- Km. exact K4.
Qed.
Lemma visits_app o n m : forall s g t1 s1 g1 t2 s2 g2, visits E c fuel n o s g = (Ok t1, s1, g1) -> visits E c fuel m o s1 g1 = (Ok t2, s2, g2) ->
  visits E c fuel (n + m) o s g = (Ok (t1 ++ t2), s2, g2).
Proof.
  induction n as [|n IH]; intros s g t1 s1 g1 t2 s2 g2 H1 H2.
  { injection H1 as <- <- <-. exact H2. }
  cbn [visits] in H1. apply bind_ok in H1 as ([] & a1 & h1 & A1 & H1). apply bind_ok in H1 as (p & a2 & h2 & A2 & H1).
  apply bind_ok in H1 as (t & a3 & h3 & A3 & H1). injection H1 as <- <- <-.
  simpl. rewrite (ok_bind _ _ _ _ _ _ _ _ A1), (ok_bind _ _ _ _ _ _ _ _ A2), (ok_bind _ _ _ _ _ _ _ _ (IH _ _ _ _ _ _ _ _ A3 H2)). reflexivity.
Qed.
End C35.

Lemma keeps_map_init_gibbs E c fuel ig meth : keeps mapof (init_gibbs E c fuel ig meth).
Proof.
  unfold init_gibbs. keep; try (apply (keeps_tail_to_slice mapof); reflexivity); try reflexivity.
  apply keeps_fit_variational; reflexivity.
Qed.

Lemma c35_best_proof : forall E c fuel y ig warm meth o s g s' g', fit_gibbs E c fuel y ig warm meth o s g = (Ok tt, s', g') ->
  exists tr s1, replay E c fuel y ig warm meth (Z.to_nat (s_burn s) + Z.to_nat (s_total s - s_burn s)) o s g = (Ok tr, s1, g') /\
    length tr = ((if warm then 0 else 1) + Z.to_nat (s_burn s) + Z.to_nat (s_total s - s_burn s))%nat /\
    get_run_params s1 = get_run_params s' /\ is_best (s_map s) (s_mapll s) tr (s_map s') (s_mapll s').
Proof.
  intros E c fuel y ig warm meth o s g s' g' H. unfold fit_gibbs in H.
  apply bind_ok in H as ([] & s1 & g1 & H1 & H). apply bind_ok in H as ([] & s2 & g2 & H2 & H).
  apply bind_ok in H as (s3 & s3' & g3 & X & H). injection X as <- <- <-.
  apply bind_ok in H as ([] & s3 & g3 & H3 & H). apply bind_ok in H as ([] & s4 & g4 & H4 & H).
  injection H as <- <-.
  assert (K1 : mapof s1 = mapof s) by (eapply (keeps_ok mapof); [apply keeps_init_common; reflexivity|exact H1]).
  assert (S1 : (s_total s1, s_burn s1, s_sub s1) = (s_total s, s_burn s, s_sub s))
    by (eapply (keeps_ok (fun s => (s_total s, s_burn s, s_sub s))); [apply (keeps_init_common (fun s => (s_total s, s_burn s, s_sub s))); reflexivity|exact H1]).
  assert (A : exists t0 s2', (if warm then ret [] else init_gibbs E c fuel ig meth ;; p <- visit E c ;; ret [p]) o s1 g1 = (Ok t0, s2', g2) /\
      v s2 = v s2' /\ length t0 = (if warm then 0 else 1)%nat /\ mapof s2 = fold_left better t0 (mapof s1) /\
      (s_total s2, s_burn s2, s_sub s2) = (s_total s1, s_burn s1, s_sub s1)).
  { destruct warm; [injection H2 as <- <-; exists [], s1; auto 6|].
    apply bind_ok in H2 as ([] & a & h & A1 & A2).
    destruct (update_map_sim E c _ _ a _ _ _ A2 eq_refl) as (p & b & B1 & B2 & B3).
    exists [p], b. rewrite (ok_bind _ _ _ _ _ _ _ _ A1), (ok_bind _ _ _ _ _ _ _ _ B1).
    assert (Km : mapof a = mapof s1) by (eapply (keeps_ok mapof); [apply keeps_map_init_gibbs|exact A1]).
    rewrite <- Km. repeat split; auto.
    transitivity (s_total a, s_burn a, s_sub a).
    - eapply (keeps_ok (fun s => (s_total s, s_burn s, s_sub s))); [apply (keeps_update_map (fun s => (s_total s, s_burn s, s_sub s))); reflexivity|exact A2].
    - eapply (keeps_ok (fun s => (s_total s, s_burn s, s_sub s))); [apply keeps_settings_init_gibbs|exact A1]. }
  destruct A as (t0 & s2' & A1 & A2 & A3 & A4 & A5). rewrite S1 in A5. injection A5 as T B _. rewrite T, B in *.
  destruct (burn_sim E c fuel _ _ _ _ _ _ _ H3 A2) as (tr1 & b1 & B1 & B2 & B3 & B4).
  destruct (train_sim E c fuel _ _ _ _ _ _ _ _ H4 B2) as (tr2 & b2 & C1 & C2 & C3 & C4).
  exists (t0 ++ tr1 ++ tr2), b2. split.
  { unfold replay. rewrite (ok_bind _ _ _ _ _ _ _ _ H1), (ok_bind _ _ _ _ _ _ _ _ A1),
      (ok_bind _ _ _ _ _ _ _ _ (visits_app E c fuel _ _ _ _ _ _ _ _ _ _ _ B1 C1)). reflexivity. }
  split; [rewrite !app_length; lia|].
  split; [change (get_run_params (v b2) = get_run_params (v s4)); rewrite C2; reflexivity|].
  pose proof (is_best_fold (s_map s) (s_mapll s) (t0 ++ tr1 ++ tr2)) as Z. cbv zeta in Z.
  rewrite !fold_left_app in Z. change (s_map s, s_mapll s) with (mapof s) in Z. rewrite <- K1, <- A4, <- B4, <- C4 in Z. exact Z.
Qed.
