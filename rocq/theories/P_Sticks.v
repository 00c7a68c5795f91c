(* Proofs of C02, C03, C04, C07. *)
From Coq Require Import Lqa.
From Verif Require Import Prelude Numpy Rng M_Weights S_Weights S_Hist S_Oracle P_Lists P_Hoare P_Wp P_Inv P_Complete P_Random P_Tail.
Open Scope Q_scope.
Open Scope m_scope.

Lemma random_len_pos c nn dd z : stick_breaking c -> positive_size z -> (0 < random_len c nn dd z)%nat.
Proof.
  intros Hc Hz. unfold random_len. destruct c; try destruct Hc; destruct z; cbn [positive_size size_val] in *; try tauto;
  repeat match goal with |- context [if ?b then _ else _] => destruct b end; lia.
Qed.

Lemma c02_random_proof c o z s g a s' g' :
  stick_breaking c -> positive_size z ->
  wm_random c z o s g = (Ok a, s', g') ->
  stick_image (v s') (w s') /\ (0 < length (v s'))%nat /\ a = w s' /\ qtotal (w s') == 1 - remaining (v s').
Proof.
  intros Hc Hz E. pose proof (wm_random_wp c o z s g (proj1 (growing_stick c) Hc) (pos_size_pos _ Hz)) as H.
  unfold wp in H. rewrite E in H. destruct H as ((Hw & _) & Hl & _ & Ha).
  repeat split; auto.
  - rewrite Hw; apply stick_image_stick.
  - rewrite Hw; apply stick_image_stick.
  - rewrite Hl. apply random_len_pos; assumption.
  - rewrite Hw, <- qsum_total. apply stick_sum.
Qed.

Lemma c02_reached_proof c o s g : stick_breaking c -> reached c o s g ->
  stick_image (v s) (w s) /\ qtotal (w s) == 1 - remaining (v s).
Proof.
  intros Hc Hr. destruct (reached_coherent c o s g Hc Hr) as [Hw _]. rewrite Hw. split.
  - apply stick_image_stick.
  - rewrite <- qsum_total; apply stick_sum.
Qed.

(* BetaBernoulli: a raising complete(1), caught, then complete(1) again *)
Lemma c02_bb_witness : exists o s0 g0 s g,
  valid_oracle o /\ new_ws (CBB (1 # 2) 1) 0 0 o = Ok (s0, g0) /\
  fst (fst (wm_complete (CBB (1 # 2) 1) (SInt 1) o s0 g0)) = Err IndexError /\
  run_ops (CBB (1 # 2) 1) [OpComplete (SInt 1)] o s0 g0 = (s, g) /\
  wm_complete (CBB (1 # 2) 1) (SInt 1) o s g = (Ok (Some []), s, g) /\
  ~ stick_image (v s) (w s).
Proof.
  exists (const_oracle (1 # 2)), (ws_init 0 0), [].
  eexists; eexists. split; [apply const_oracle_valid; split; discriminate|].
  split; [reflexivity|]. split; [vm_compute; reflexivity|]. split; [vm_compute; reflexivity|].
  split; [vm_compute; reflexivity|]. intros [H _]. discriminate H.
Qed.
(* DirichletProcess: random(0) empties v and keeps the old w *)
Lemma c02_dp_zero_witness : exists o s0 g0 s g a s' g',
  valid_oracle o /\ new_ws (CDP 1) 0 0 o = Ok (s0, g0) /\
  exec_ops (CDP 1) [OpRandom (SInt 2)] o s0 g0 = (Ok tt, s, g) /\
  wm_random (CDP 1) (SInt 0) o s g = (Ok a, s', g') /\
  v s' = [] /\ length a = 2%nat /\ w s' = a.
Proof.
  exists (const_oracle (1 # 2)), (ws_init 0 0), []. do 5 eexists.
  split; [apply const_oracle_valid; split; discriminate|].
  repeat (split; [vm_compute; reflexivity|]). vm_compute; reflexivity.
Qed.

Lemma extends_stick s s' c : coherent c s -> coherent c s' -> (exists t, v s' = v s ++ t) -> extends (w s) (w s').
Proof. intros [-> _] [-> _] [t ->]. apply stick_extends. Qed.

Lemma app_same_len {A} (l t : list A) : length (l ++ t) = length l -> l ++ t = l.
Proof. rewrite app_length. intros H. destruct t; [apply app_nil_r|simpl in H; lia]. Qed.

Lemma c03_proof c o s g z n a s' g' :
  stick_breaking c -> reached c o s g -> size_val z = Some n ->
  wm_complete c z o s g = (Ok a, s', g') ->
  extends (w s) (w s') /\
  (n <= Z.of_nat (length (w s')))%Z /\
  (length (w s') <= Nat.max (Nat.max 1 (length (w s))) (Z.to_nat n))%nat /\
  a = match c with CBID _ _ => None | _ => Some (w s') end /\
  (forall a2 s2 g2, wm_complete c z o s' g' = (Ok a2, s2, g2) -> w s2 = w s' /\ v s2 = v s').
Proof.
  intros Hc Hr Hz E. pose proof (reached_coherent c o s g Hc Hr) as Hs. apply growing_stick in Hc.
  pose proof (wm_complete_wp c o z n s g Hc Hs Hz) as H. unfold wp in H. rewrite E in H.
  destruct H as (Hs' & Hv & Hl & Hd & Ha).
  pose proof (coherent_len c s Hs) as L. pose proof (coherent_len c s' Hs') as L'.
  assert (M1 : (min_len c <= 1)%nat) by (destruct c; simpl; lia).
  split; [eapply extends_stick; eassumption|]. split; [lia|]. split; [lia|]. split; [exact Ha|].
  intros a2 s2 g2 E2. pose proof (wm_complete_wp c o z n s' g' Hc Hs' Hz) as H. unfold wp in H. rewrite E2 in H.
  destruct H as (Hs2 & (t & Hv2) & Hl2 & _).
  assert (Ev : v s2 = v s') by (rewrite Hv2; apply app_same_len; rewrite <- Hv2; lia).
  split; [|exact Ev]. destruct Hs2 as [-> _], Hs' as [-> _]. congruence.
Qed.

(* the fixed-size classes ignore the size *)
Lemma c03_fixed_proof c o s g z z' : ~ stick_breaking c -> z <> SOther -> z' <> SOther ->
  wm_complete c z o s g = wm_complete c z' o s g.
Proof.
  intros Hc H1 H2. destruct c; simpl in Hc; try tauto; simpl; auto.
  destruct z, z'; try congruence; reflexivity.
Qed.
(* Dirichlet distribution: complete keeps existing weights *)
Lemma c03_dd_keep_proof k al o s g z : w s <> [] -> z <> SOther ->
  wm_complete (CDirDist k al) z o s g = (Ok (Some (w s)), s, g).
Proof.
  intros Hw Hz. simpl. unfold dd_complete, bind. destruct z; try congruence; simpl;
  destruct (w s) eqn:E; try congruence; simpl; rewrite ?E; reflexivity.
Qed.

Lemma c03_bb_witness : exists o s0 g0, valid_oracle o /\
  new_ws (CBB (1 # 2) 1) 0 0 o = Ok (s0, g0) /\
  fst (fst (wm_complete (CBB (1 # 2) 1) (SInt 1) o s0 g0)) = Err IndexError.
Proof.
  exists (const_oracle (1 # 2)), (ws_init 0 0), [].
  split; [apply const_oracle_valid; split; discriminate|]. split; [reflexivity|]. vm_compute; reflexivity.
Qed.
(* for every generator and all parameters *)
Lemma c03_bb_fresh_proof pp al o s0 g0 : 0 <= pp <= 1 -> 0 < al ->
  new_ws (CBB pp al) 0 0 o = Ok (s0, g0) ->
  fst (fst (wm_complete (CBB pp al) (SInt 1) o s0 g0)) = Err IndexError.
Proof.
  intros Hp Ha [= <- <-]. simpl wm_complete.
  assert (W : wp o (bb_complete pp al (SInt 1)) (fun r _ _ => r = Err IndexError) (ws_init 0 0) []).
  { unfold bb_complete. wstep; [|discriminate]. wstep; [|discriminate]. injection H0 as <-. wstep. simpl.
    wstep. wstep; [|].
    - wstep. wstep. wstep; [wstep; wstep; [reflexivity|discriminate]|].
      unfold prob_ok in *. exfalso. destruct Hp as [Hp1 Hp2]. apply Qle_bool_iff in Hp1, Hp2.
      simpl in *. unfold qleb in *. rewrite Hp1, Hp2 in *; discriminate.
    - apply qltb_lt in Ha. unfold allpos in *; simpl in *. rewrite Ha in *; discriminate. }
  unfold wp in W. unfold bind. destruct (bb_complete _ _ _ _ _ _) as [[r s'] g']. subst r. reflexivity.
Qed.

Lemma tail_loop_mass c o x : forall fuel s g,
  wp o (tail_loop c fuel x) (fun r s' g' => r = Ok tt -> x <= qsum (w s')) s g.
Proof.
  induction fuel as [|f IH]; intros s g; simpl; wstep; wstep; try discriminate.
  - wstep. intros _. apply qltb_ge; assumption.
  - apply wp_bind. eapply wp_mono; [apply (wp_any_triv o (wm_complete c (SInt (Z.of_nat (length (w s)) + 1))))|].
    intros [a|e|] s' g' _; try discriminate. apply IH.
  - wstep. intros _. apply qltb_ge; assumption.
Qed.

Lemma range_ok x : qleb 1 x || qltb x 0 = false -> 0 <= x /\ x < 1.
Proof.
  intros H. apply orb_false_iff in H as [H1 H2]. split; [apply qltb_ge; assumption|].
  apply Qnot_le_lt; intros K; apply Qle_bool_iff in K; unfold qleb in H1; congruence.
Qed.

Lemma c04_mass_proof c fuel x o s g a s' g' : (forall pa pb, c <> CGeom pa pb) ->
  wm_tail c fuel x o s g = (Ok a, s', g') ->
  0 <= x /\ x < 1 /\ x <= qtotal (w s') /\ a = w s'.
Proof.
  intros Hc E.
  assert (W : wp o (base_tail c fuel x) (fun r s' g' => forall a, r = Ok a -> 0 <= x /\ x < 1 /\ x <= qtotal (w s') /\ a = w s') s g).
  { unfold base_tail. wstep; [wstep; discriminate|]. apply range_ok in Heqb as [H0 H1].
    wstep. apply wp_bind. eapply wp_mono; [apply wp_any_triv|]. intros [y|e|] s1 g1 _; try discriminate.
    eapply wp_call; [apply tail_loop_mass| | |]; try discriminate.
    intros [] s2 g2 Hm. wsteps. intros a0 [= <-]. rewrite <- qsum_total. repeat split; auto. }
  assert (E' : base_tail c fuel x o s g = (Ok a, s', g')).
  { destruct c; try exact E. destruct (Hc a0 b); reflexivity. }
  unfold wp in W. rewrite E' in W. apply W; reflexivity.
Qed.

Lemma c04_range_proof c fuel x o s g : ~ (0 <= x /\ x < 1) ->
  wm_tail c fuel x o s g = (Err ValueError, s, g).
Proof.
  intros H. assert (E : qleb 1 x || qltb x 0 = true).
  { destruct (qleb 1 x || qltb x 0) eqn:E; auto. destruct (H (range_ok x E)). }
  destruct c; simpl wm_tail; unfold base_tail, geom_tail; rewrite E; reflexivity.
Qed.

Lemma c04_extends_proof c fuel x o s g a s' g' : stick_breaking c -> reached c o s g ->
  wm_tail c fuel x o s g = (Ok a, s', g') -> extends (w s) (w s') /\ stick_image (v s') (w s').
Proof.
  intros Hc Hr E. pose proof (reached_coherent c o s g Hc Hr) as Hs. apply growing_stick in Hc.
  pose proof (wm_tail_wp c o fuel x s g Hc Hs) as H. unfold wp in H. rewrite E in H.
  destruct H as (Hs' & Hv & _). split; [eapply extends_stick; eassumption|].
  destruct Hs' as [-> _]; apply stick_image_stick.
Qed.

Lemma c04_strict_witness : exists o s0 g0 fuel x a s' g', valid_oracle o /\
  new_ws (CDP 1) 0 0 o = Ok (s0, g0) /\ wm_tail (CDP 1) fuel x o s0 g0 = (Ok a, s', g') /\
  ~ x < qtotal a.
Proof.
  exists (const_oracle (1 # 2)), (ws_init 0 0), [], 5%nat, (1 # 2). do 3 eexists.
  split; [apply const_oracle_valid; split; discriminate|]. split; [reflexivity|].
  split; [vm_compute; reflexivity|]. vm_compute. discriminate.
Qed.

(* ---------------- C07 ---------------- *)
Lemma exec_op_keeps c o op s g : growing c = true -> keeps_op op -> coherent c s ->
  wp o (exec_op c op) (fun r s' g' => r = Ok tt -> coherent c s' /\ exists t, v s' = v s ++ t) s g.
Proof.
  intros Hc Hop Hs.
  assert (R : forall s', v s' = v s -> exists t, v s' = v s ++ t) by (intros s' ->; exists []; rewrite app_nil_r; auto).
  destruct op; simpl exec_op.
  - destruct Hop.
  - destruct (size_val size) as [n|] eqn:E.
    + eapply wp_call; [apply (wm_complete_wp c o size n s g Hc Hs E)| | |]; try discriminate.
      intros a s' g' H. wstep. intros _; split; apply H.
    + pose proof (exec_op_coherent c o (OpComplete size) s g Hc I Hs) as K.
      apply (wm_complete_none c o size s g Hc) in E. simpl in *.
      eapply wp_call; [exact E| | |]; simpl; try discriminate.
  - eapply wp_call; [apply (wm_tail_wp c o fuel x s g Hc Hs)| | |]; try discriminate.
    intros a s' g' H. wstep. intros _; split; apply H.
  - unfold wm_fit. wstep. intros _. split; [exact Hs|]. apply R; reflexivity.
  - unfold wm_reset. wstep. intros _. split; [exact Hs|]. apply R; reflexivity.
  - eapply wp_call; [apply (wm_assign_wp c o dd s g Hc Hs)| | |]; try discriminate.
    intros a s' g' H. wstep. intros _; split; apply H.
  - unfold wm_random_assignment. destruct size; wsteps; try discriminate; intros _; (split; [exact Hs|apply R; reflexivity]).
Qed.
Lemma exec_ops_keeps c o : growing c = true -> forall ops s g, Forall keeps_op ops -> coherent c s ->
  wp o (exec_ops c ops) (fun r s' g' => r = Ok tt -> coherent c s' /\ exists t, v s' = v s ++ t) s g.
Proof.
  intros Hc; induction ops as [|op t IH]; intros s g H Hs; simpl.
  - wstep. intros _; split; [exact Hs|]. exists []; rewrite app_nil_r; reflexivity.
  - inversion H; subst. eapply wp_call; [apply exec_op_keeps; eassumption| | |]; try discriminate.
    intros [] s' g' K. destruct (K eq_refl) as (Hs' & t1 & E1).
    eapply wp_mono; [apply IH; assumption|]. intros r s2 g2 K2 Er. destruct (K2 Er) as (Hs2 & t2 & E2).
    split; [assumption|]. exists (t1 ++ t2). rewrite app_assoc. congruence.
Qed.

Lemma sfrom_le t : forall acc, 0 <= acc -> Forall in01 t -> Forall (fun x => x <= acc) (sfrom acc t).
Proof.
  induction t as [|x t IH]; intros acc Ha H; simpl; constructor; inversion H; subst; destruct H2.
  - nra.
  - eapply Forall_impl; [|apply IH; [nra|assumption]]. simpl; intros; nra.
Qed.

Lemma c07_proof c fuel u o s g a s1 g1 ops s2 g2 :
  valid_oracle o -> stick_breaking c -> (forall pa pb, c <> CGeom pa pb) -> reached c o s g ->
  wm_tail c fuel (1 - u) o s g = (Ok a, s1, g1) ->
  Forall keeps_op ops -> exec_ops c ops o s1 g1 = (Ok tt, s2, g2) ->
  exists t, w s2 = w s1 ++ t /\ Forall (fun x => x <= u) t.
Proof.
  intros Ho Hc Hng Hr Et Hops Eo.
  destruct (c04_mass_proof _ _ _ _ _ _ _ _ _ Hng Et) as (_ & _ & Hm & _).
  pose proof (reached_coherent c o s g Hc Hr) as Hs. apply growing_stick in Hc.
  pose proof (wm_tail_wp c o fuel (1 - u) s g Hc Hs) as H. unfold wp in H. rewrite Et in H.
  destruct H as (Hs1 & _).
  pose proof (exec_ops_keeps c o Hc ops s1 g1 Hops Hs1) as H. unfold wp in H. rewrite Eo in H.
  destruct (H eq_refl) as (Hs2 & t & Ev).
  pose proof (reached_okw c o s g Ho Hr) as K0.
  pose proof (wm_tail_ok c fuel (1 - u) o Ho s g K0) as K1. rewrite Et in K1. destruct K1 as [K1 _].
  pose proof (exec_ops_okw c ops o Ho s1 g1 K1) as K2. rewrite Eo in K2. destruct K2 as [K2 _].
  destruct Hs1 as [E1 _], Hs2 as [E2 _]. rewrite E2, E1, Ev, !stick_sfrom, sfrom_app.
  eexists; split; [reflexivity|].
  destruct K2 as (_ & K2 & _). rewrite Ev in K2. apply Forall_app in K2 as [Ka Kb].
  pose proof (acc_after_remaining (v s1) (1 * 1)) as Ea.
  pose proof (remaining_in01 _ Ka) as Hrem.
  rewrite <- qsum_total, E1, stick_sum in Hm.
  eapply Forall_impl; [|apply sfrom_le; [|exact Kb]].
  - simpl; intros y Hy. rewrite Ea in Hy. lra.
  - rewrite Ea. lra.
Qed.
