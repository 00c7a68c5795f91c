(* Termination of tail (C06). *)
From Coq Require Import Lqa.
From Verif Require Import Prelude Numpy Rng M_Weights S_Weights S_Hist S_Oracle P_Lists P_Hoare P_Wp P_Inv P_Complete P_Random P_Tail P_Sticks P_Geom.
Open Scope Q_scope.
Open Scope m_scope.

Section Pv.
Variable P : Q -> Prop.
Definition pv (s : ws) : Prop := Forall P (v s) /\ Forall P (vbase s).
Variable o : oracle.
Hypothesis Ho : forall g a b, P (o_beta o g a b).

Lemma draws_P ab : forall g, Forall P (fst (beta_draws o ab g)).
Proof. induction ab as [|[a b] t IH]; intros g; simpl; constructor; auto. Qed.

Lemma Forall_last d l : P d -> Forall P l -> P (last l d).
Proof. intros Hd H; induction H; simpl; auto. destruct l; auto. Qed.
Lemma Forall_last' d l : l <> [] -> Forall P l -> P (last l d).
Proof. intros Hd H; induction H; simpl; [congruence|]. destruct l; auto. apply IHForall; discriminate. Qed.

Ltac pv_tac :=
  repeat match goal with H : pv _ |- _ => destruct H end;
  try (split; simpl; repeat (apply Forall_app; split); auto using draws_P; fail).

Lemma pv_dp_complete al z s g : pv s -> wp o (dp_complete al z) (fun _ s' _ => pv s') s g.
Proof. intros H. unfold dp_complete. wsteps; pv_tac. Qed.
Lemma pv_py_complete pd al z s g : pv s -> wp o (py_complete pd al z) (fun _ s' _ => pv s') s g.
Proof. intros H. unfold py_complete. wsteps; pv_tac. Qed.
Lemma pv_set_p x s : pv s -> pv (set_p x s). Proof. auto. Qed.
Lemma pv_bib_complete x al a b pm z s g : x < 1 -> pv s -> wp o (bib_complete x al a b pm z) (fun _ s' _ => pv s') s g.
Proof.
  intros Hx H. apply qltb_lt in Hx. unfold bib_complete. rewrite Hx.
  wstep; [|pv_tac]. wstep. wstep.
  - eapply wp_mono; [apply bib_random_p_wp|]. intros [y|e|] s' g' [_ Es]; rewrite Es; [|exact H|exact H].
    wsteps; pv_tac.
  - wsteps; pv_tac.
Qed.
Lemma pv_bid_step al a s g : pv s -> wp o (bid_complete_step al a) (fun _ s' _ => pv s') s g.
Proof.
  intros H. unfold bid_complete_step. wsteps; pv_tac; split; simpl; repeat (apply Forall_app; split); auto.
  constructor; auto. apply Forall_nth; auto. apply Nat.ltb_lt; assumption.
Qed.
Lemma pv_repeatM m : (forall s g, pv s -> wp o m (fun _ s' _ => pv s') s g) ->
  forall k s g, pv s -> wp o (repeatM k m) (fun _ s' _ => pv s') s g.
Proof.
  intros Hm; induction k; intros s g Hs; simpl; [wstep; auto|].
  eapply wp_call; [apply Hm; exact Hs| | |]; auto.
Qed.
Lemma pv_bid_complete al a z s g : pv s -> wp o (bid_complete al a z) (fun _ s' _ => pv s') s g.
Proof.
  intros H. unfold bid_complete.
  assert (F : forall s1 g1, pv s1 -> wp o (z0 <- need_int z;; s0 <- get;;
           repeatM (Z.to_nat (z0 - Z.of_nat (length (v s0)))) (bid_complete_step al a);; upd refresh_w) (fun _ s' _ => pv s') s1 g1).
  { intros s1 g1 H1. wstep; [|exact H1]. wstep. eapply wp_call; [apply pv_repeatM; [apply pv_bid_step|exact H1]| | |]; auto.
    }
  wstep. wstep.
  - repeat first [exact H | solve [apply F; destruct H; split; [assumption|apply draws_P]] | wstep].
  - wstep. apply F; exact H.
Qed.
Lemma pv_bb_complete q al z s g : pv s -> wp o (bb_complete q al z) (fun _ s' _ => pv s') s g.
Proof.
  intros H. unfold bb_complete. wstep; [|exact H]. wstep; [|exact H]. wstep. wstep; [|wstep; exact H].
  assert (F : forall s1 g1, pv s1 -> v s1 <> [] -> 
     wp o (s0 <- get;; m <- binom_rep 1 q (Z.to_nat (k - Z.of_nat (length (v s0))));;
           upd (set_bern (bern s0 ++ map Z.to_nat m));;
           (if is_nil (ncumsum (map Z.to_nat m)) then raise IndexError
            else nb <- beta_rep 1 al (last (ncumsum (map Z.to_nat m)) 0%nat);;
              match gather (last (v s0) 0 :: nb) (ncumsum (map Z.to_nat m)) with
              | Some e => upd (set_v (v s0 ++ e));; upd refresh_w;; s' <- get;; ret (w s')
              | None => raise IndexError
              end)) (fun _ s' _ => pv s') s1 g1).
  { intros s1 g1 [P1 P2] Hn. wsteps; try (split; simpl; auto; fail).
    split; simpl; auto. apply Forall_app; split; auto. eapply Forall_gather; [|eassumption].
    constructor; [apply Forall_last'; assumption|apply draws_P]. }
  wstep.
  - wstep; [|exact H]. wstep. apply F; simpl; [|discriminate]. destruct H; split; simpl; auto. 
  - wstep. apply F; auto. intros E; rewrite E in *; discriminate.
Qed.
Lemma pv_bbin_step n al s g : pv s -> wp o (bbin_step n al) (fun _ s' _ => pv s') s g.
Proof. intros H. unfold bbin_step. wsteps; pv_tac. Qed.
Lemma pv_bbin_complete n al z s g : pv s -> wp o (bbin_complete n al z) (fun _ s' _ => pv s') s g.
Proof.
  intros H. unfold bbin_complete. wstep; [|exact H].
  assert (F : forall s1 g1, pv s1 -> wp o (z0 <- need_int z;; s0 <- get;;
           repeatM (Z.to_nat (z0 - Z.of_nat (length (v s0)))) (bbin_step n al);; upd refresh_w;; s' <- get ;; ret (w s')) (fun _ s' _ => pv s') s1 g1).
  { intros s1 g1 H1. wstep; [|exact H1]. wstep. eapply wp_call; [apply pv_repeatM; [apply pv_bbin_step|exact H1]| | |]; auto.
    }
  wstep. wstep.
  - repeat first [solve [apply F; destruct H; split; simpl; auto using draws_P] | wstep]; try exact H; try (destruct H; split; simpl; auto using draws_P; fail).
  - wstep. apply F; exact H.
Qed.

Lemma pv_complete c z s g : drawn_sticks c -> pv s -> wp o (wm_complete c z) (fun _ s' _ => pv s') s g.
Proof.
  intros Hc H. destruct c; try contradiction; simpl wm_complete;
  (eapply wp_call; [first [ apply pv_dp_complete; exact H | apply pv_py_complete; exact H | apply pv_bib_complete; [exact Hc|exact H]
     | apply pv_bid_complete; exact H | apply pv_bb_complete; exact H | apply pv_bbin_complete; exact H ] | | |]); auto;
  intros ? s' g' K; wstep; exact K.
Qed.
End Pv.

Lemma drawn_growing c : drawn_sticks c -> growing c = true.
Proof. destruct c; simpl; tauto. Qed.

(* ---------- tail_loop and grow_n ---------- *)
Lemma grow_n_appends c o : growing c = true -> forall n s g, coherent c s ->
  wp o (grow_n c n) (fun r s' g' => match r with
     | Ok _ => coherent c s' /\ exists t, v s' = v s ++ t /\ (n <= length t)%nat
     | Err _ => True | Diverge => False end) s g.
Proof.
  intros Hc; induction n as [|n IH]; intros s g Hs; simpl; wstep.
  - split; auto. exists []; rewrite app_nil_r; auto.
  - eapply wp_call; [eapply (wm_complete_wp c o); [exact Hc|exact Hs|reflexivity]| | |]; auto.
    intros a s' g' (H1 & (t & Ht) & Hl & _). eapply wp_mono; [apply IH; exact H1|].
    intros [u|e|] s2 g2; auto. intros (H2 & t2 & Ht2 & L2). split; auto.
    exists (t ++ t2). rewrite Ht2, Ht, app_assoc. split; auto.
    rewrite Ht, app_length, (coherent_len c s Hs) in Hl. rewrite app_length. lia.
Qed.

Lemma tail_loop_grow c o x : growing c = true -> forall fuel s g, coherent c s ->
  match tail_loop c fuel x o s g with
  | (Ok _, s', g') => exists n, (n <= fuel)%nat /\ grow_n c n o s g = (Ok tt, s', g') /\ x <= qsum (w s')
  | (Diverge, s', g') => grow_n c fuel o s g = (Ok tt, s', g') /\ qsum (w s') < x /\
       forall n, (n <= fuel)%nat -> exists s1 g1, grow_n c n o s g = (Ok tt, s1, g1) /\ qsum (w s1) < x
  | (Err e, s', g') => exists n, (n <= fuel)%nat /\ grow_n c n o s g = (Err e, s', g') /\
       forall m, (m < n)%nat -> exists s1 g1, grow_n c m o s g = (Ok tt, s1, g1) /\ qsum (w s1) < x
  end.
Proof.
  intros Hc; induction fuel as [|f IH]; intros s g Hs; simpl; unfold bind at 1, get at 1.
  - destruct (qltb (qsum (w s)) x) eqn:E.
    + apply qltb_lt in E. repeat split; auto. intros n Hn. replace n with 0%nat by lia. exists s, g; auto.
    + apply qltb_ge in E. exists 0%nat. auto.
  - destruct (qltb (qsum (w s)) x) eqn:E.
    + apply qltb_lt in E. unfold bind, get.
      pose proof (wm_complete_wp c o (SInt (Z.of_nat (length (w s)) + 1)) _ s g Hc Hs eq_refl) as W. unfold wp in W.
      destruct (wm_complete c _ o s g) as [[[a|e|] s1] g1] eqn:Ec; [|exists 1%nat|destruct W].
      * destruct W as [W _]. specialize (IH s1 g1 W). destruct (tail_loop c f x o s1 g1) as [[[u|e|] s2] g2].
        -- destruct IH as (n & Hn & G & M). exists (S n). split; [lia|]. split; [|exact M]. simpl. unfold bind, get. rewrite Ec. exact G.
        -- destruct IH as (n & Hn & G & M). exists (S n). split; [lia|]. split; [simpl; unfold bind, get; rewrite Ec; exact G|].
           intros [|m] Hm; [exists s, g; auto|]. simpl. unfold bind, get. rewrite Ec. apply M; lia.
        -- destruct IH as (G & Q1 & M). split; [exact G|]. split; [exact Q1|].
           intros [|m] Hm; [exists s, g; auto|]. simpl. unfold bind, get. rewrite Ec. apply M; lia.
      * split; [lia|]. split; [simpl; unfold bind, get; rewrite Ec; reflexivity|].
        intros m Hm. replace m with 0%nat by lia. exists s, g; auto.
    + apply qltb_ge in E. exists 0%nat. split; [lia|]. auto.
Qed.

Lemma grow_le c o : forall n s g s' g', grow_n c n o s g = (Ok tt, s', g') ->
  forall m, (m <= n)%nat -> exists s1 g1, grow_n c m o s g = (Ok tt, s1, g1).
Proof.
  induction n as [|n IH]; intros s g s' g' E m Hm.
  - replace m with 0%nat by lia. eauto.
  - destruct m as [|m]; [simpl; unfold ret; eauto|]. simpl in *. unfold bind, get in *.
    destruct (wm_complete c _ o s g) as [[[a|e|] s1] g1]; try discriminate. eapply IH; [exact E|lia].
Qed.

Lemma coherent_mass c s : coherent c s -> qsum (w s) == 1 - remaining (v s).
Proof. intros [-> _]. apply stick_sum. Qed.

Lemma base_tail_nonempty c fuel x o s g : w s <> [] -> 0 <= x -> x < 1 ->
  base_tail c fuel x o s g = match tail_loop c fuel x o s g with
     | (Ok _, s', g') => (Ok (w s'), s', g') | (Err e, s', g') => (Err e, s', g') | (Diverge, s', g') => (Diverge, s', g') end.
Proof.
  intros Hw H0 H1. unfold base_tail.
  assert (E : qleb 1 x || qltb x 0 = false).
  { apply orb_false_iff; split; [|apply qltb_ge; assumption]. destruct (qleb 1 x) eqn:E; auto. apply Qle_bool_iff in E. lra. }
  rewrite E. unfold bind, get. destruct (w s) eqn:Ew; [congruence|]. simpl.
  destruct (tail_loop c fuel x o s g) as [[[u|e|] s2] g2]; reflexivity.
Qed.

Lemma tail_is_base c : (forall pa pb, c <> CGeom pa pb) -> forall fuel x, wm_tail c fuel x = base_tail c fuel x.
Proof. intros H; destruct c; auto. destruct (H a b); reflexivity. Qed.

Lemma c06_returns_proof c o s g x :
  stick_breaking c -> (forall pa pb, c <> CGeom pa pb) -> reached c o s g -> w s <> [] -> 0 <= x -> x < 1 ->
  (exists fuel a s' g', wm_tail c fuel x o s g = (Ok a, s', g')) <->
  (exists n s' g', grow_n c n o s g = (Ok tt, s', g') /\ remaining (v s') <= 1 - x).
Proof.
  intros Hc Hn Hr Hw H0 H1. pose proof (reached_coherent c o s g Hc Hr) as Hs. apply growing_stick in Hc.
  split.
  - intros (fuel & a & s' & g' & E). rewrite tail_is_base, base_tail_nonempty in E by assumption.
    pose proof (tail_loop_grow c o x Hc fuel s g Hs) as T.
    destruct (tail_loop c fuel x o s g) as [[[u|e|] s2] g2]; try discriminate. injection E as _ <- <-.
    destruct T as (n & _ & G & M). exists n, s2, g2. split; [exact G|].
    pose proof (grow_n_appends c o Hc n s g Hs) as A. unfold wp in A. rewrite G in A. destruct A as [A _].
    rewrite (coherent_mass c s2 A) in M. lra.
  - intros (n & s' & g' & G & M). exists n.
    rewrite tail_is_base, base_tail_nonempty by assumption.
    pose proof (tail_loop_grow c o x Hc n s g Hs) as T.
    destruct (tail_loop c n x o s g) as [[[u|e|] s2] g2].
    + eauto.
    + destruct T as (m & Hm & Gm & _). destruct (grow_le _ _ _ _ _ _ _ G m Hm) as (s1 & g1 & E1). congruence.
    + destruct T as (G2 & M2 & _). rewrite G in G2. injection G2 as <- <-.
      pose proof (grow_n_appends c o Hc n s g Hs) as A. unfold wp in A. rewrite G in A. destruct A as [A _].
      rewrite (coherent_mass c s' A) in M2. lra.
Qed.

Lemma c06_loops_proof c o s g x :
  stick_breaking c -> (forall pa pb, c <> CGeom pa pb) -> reached c o s g -> w s <> [] -> 0 <= x -> x < 1 ->
  (forall fuel, fst (fst (wm_tail c fuel x o s g)) = Diverge) <->
  (forall n, exists s' g', grow_n c n o s g = (Ok tt, s', g') /\ 1 - x < remaining (v s')).
Proof.
  intros Hc Hn Hr Hw H0 H1. pose proof (reached_coherent c o s g Hc Hr) as Hs. apply growing_stick in Hc.
  split.
  - intros H n. specialize (H n). rewrite tail_is_base, base_tail_nonempty in H by assumption.
    pose proof (tail_loop_grow c o x Hc n s g Hs) as T.
    destruct (tail_loop c n x o s g) as [[[u|e|] s2] g2]; try discriminate.
    destruct T as (G & M & _). exists s2, g2. split; [exact G|].
    pose proof (grow_n_appends c o Hc n s g Hs) as A. unfold wp in A. rewrite G in A. destruct A as [A _].
    rewrite (coherent_mass c s2 A) in M. lra.
  - intros H fuel. rewrite tail_is_base, base_tail_nonempty by assumption.
    pose proof (tail_loop_grow c o x Hc fuel s g Hs) as T.
    destruct (tail_loop c fuel x o s g) as [[[u|e|] s2] g2]; auto.
    + destruct T as (n & _ & G & M). destruct (H n) as (s' & g' & G' & M'). rewrite G in G'. injection G' as <- <-.
      pose proof (grow_n_appends c o Hc n s g Hs) as A. unfold wp in A. rewrite G in A. destruct A as [A _].
      rewrite (coherent_mass c s2 A) in M. lra.
    + destruct T as (n & _ & G & _). destruct (H n) as (s' & g' & G' & M'). congruence.
Qed.

(* ---------- sufficient conditions ---------- *)
Lemma remaining_ge_eps eps t : 0 <= eps -> Forall in01 t -> Forall (fun x => eps <= x) t -> forall n, (n <= length t)%nat ->
  remaining t <= qpow (1 - eps) n.
Proof.
  intros He. induction t as [|x t IH]; intros H1 H2 n Hn.
  - replace n with 0%nat by (simpl in Hn; lia). unfold remaining, qproduct; simpl; lra.
  - inversion H1; inversion H2; subst. rewrite remaining_cons. destruct H3 as [H3 H3'].
    destruct n as [|n].
    + simpl. pose proof (remaining_in01 t H4). nra.
    + cbn [qpow]. cbn [length] in Hn. specialize (IH H4 H8 n ltac:(lia)).
      pose proof (remaining_in01 t H4). nra.
Qed.

Lemma grow_pv (P : Q -> Prop) c o : (forall g a b, P (o_beta o g a b)) -> drawn_sticks c -> forall n s g, pv P s ->
  wp o (grow_n c n) (fun _ s' _ => pv P s') s g.
Proof.
  intros Ho Hc; induction n; intros s g H; simpl; wstep; auto.
  eapply wp_call; [apply pv_complete; eassumption| | |]; auto.
Qed.
Lemma grow_okw c n : tri okw (grow_n c n) anyR.
Proof.
  induction n; simpl; [apply tri_ret; exact I|]. apply tri_get_bind; intros s _.
  eapply tri_bind; [apply wm_complete_ok|]. auto.
Qed.

Lemma base_tail_first c fuel x o s g : w s = [] -> 0 <= x -> x < 1 ->
  base_tail c fuel x o s g = match wm_random c (SInt 1) o s g with
     | (Ok _, s1, g1) => match tail_loop c fuel x o s1 g1 with
         | (Ok _, s', g') => (Ok (w s'), s', g') | (Err e, s', g') => (Err e, s', g') | (Diverge, s', g') => (Diverge, s', g') end
     | (Err e, s', g') => (Err e, s', g') | (Diverge, s', g') => (Diverge, s', g') end.
Proof.
  intros Hw H0 H1. unfold base_tail.
  assert (E : qleb 1 x || qltb x 0 = false).
  { apply orb_false_iff; split; [|apply qltb_ge; assumption]. destruct (qleb 1 x) eqn:E; auto. apply Qle_bool_iff in E. lra. }
  rewrite E. unfold bind, get. rewrite Hw. cbn [is_nil].
  destruct (wm_random c (SInt 1) o s g) as [[[a|e|] s1] g1]; auto.
Qed.

Lemma c06_eps_proof c o s g x eps N fuel :
  valid_oracle o -> drawn_sticks c -> reached c o s g -> w s <> [] ->
  0 <= eps -> (forall g a b, eps <= o_beta o g a b) ->
  Forall (fun y => eps <= y) (v s) -> Forall (fun y => eps <= y) (vbase s) ->
  qpow (1 - eps) N <= 1 - x -> (N <= fuel)%nat ->
  fst (fst (wm_tail c fuel x o s g)) <> Diverge.
Proof.
  intros Ho Hd Hr Hw He Hb Hv1 Hv2 HN Hf.
  assert (Hc : growing c = true) by (apply drawn_growing; assumption).
  assert (Hsb : stick_breaking c) by (apply growing_stick; assumption).
  assert (Hng : forall pa pb, c <> CGeom pa pb) by (intros pa pb ->; destruct Hd).
  pose proof (reached_coherent c o s g Hsb Hr) as Hs.
  rewrite tail_is_base by assumption.
  destruct (Qlt_le_dec x 0) as [X|X0].
  { rewrite <- tail_is_base, c04_range_proof by (assumption || lra). discriminate. }
  destruct (Qlt_le_dec x 1) as [X1|X].
  2:{ rewrite <- tail_is_base, c04_range_proof by (assumption || lra). discriminate. }
  rewrite base_tail_nonempty by assumption.
  pose proof (tail_loop_grow c o x Hc fuel s g Hs) as T.
  destruct (tail_loop c fuel x o s g) as [[[u|e|] s2] g2]; try discriminate.
  destruct T as (G & M & _). exfalso.
  pose proof (grow_n_appends c o Hc fuel s g Hs) as A. unfold wp in A. rewrite G in A. destruct A as (A & t & Et & Lt).
  pose proof (grow_pv (fun y => eps <= y) c o Hb Hd fuel s g (conj Hv1 Hv2)) as B. unfold wp in B. rewrite G in B. destruct B as [B _].
  pose proof (grow_okw c fuel o Ho s g (reached_okw c o s g Ho Hr)) as K. rewrite G in K. destruct K as [(_ & K & _) _].
  rewrite (coherent_mass c s2 A) in M.
  assert (R : remaining (v s2) <= qpow (1 - eps) N).
  { apply remaining_ge_eps; auto. rewrite Et, app_length; lia. }
  lra.
Qed.

Lemma remaining_zeros t : Forall (fun x => x == 0) t -> remaining t == 1.
Proof. induction 1; [reflexivity|]. rewrite remaining_cons, IHForall, H. ring. Qed.

Lemma c06_zero_proof c o s g x fuel :
  drawn_sticks c -> reached c o s g -> w s <> [] -> 0 < x ->
  (forall g a b, o_beta o g a b == 0) ->
  Forall (fun y => y == 0) (v s) -> Forall (fun y => y == 0) (vbase s) ->
  is_ok (fst (fst (wm_tail c fuel x o s g))) = false.
Proof.
  intros Hd Hr Hw Hx Hb Hv1 Hv2.
  assert (Hc : growing c = true) by (apply drawn_growing; assumption).
  assert (Hsb : stick_breaking c) by (apply growing_stick; assumption).
  assert (Hng : forall pa pb, c <> CGeom pa pb) by (intros pa pb ->; destruct Hd).
  pose proof (reached_coherent c o s g Hsb Hr) as Hs.
  destruct (Qlt_le_dec x 1) as [X1|X].
  2:{ rewrite c04_range_proof by lra. reflexivity. }
  rewrite tail_is_base, base_tail_nonempty by (assumption || lra).
  pose proof (tail_loop_grow c o x Hc fuel s g Hs) as T.
  destruct (tail_loop c fuel x o s g) as [[[u|e|] s2] g2]; auto.
  destruct T as (n & _ & G & M). exfalso.
  pose proof (grow_n_appends c o Hc n s g Hs) as A. unfold wp in A. rewrite G in A. destruct A as (A & _).
  pose proof (grow_pv (fun y => y == 0) c o Hb Hd n s g (conj Hv1 Hv2)) as B. unfold wp in B. rewrite G in B. destruct B as [B _].
  rewrite (coherent_mass c s2 A), (remaining_zeros _ B) in M. lra.
Qed.

(* DirichletProcess with all draws 0, from a fresh object: loops for ever *)
Lemma dp_grow_total al o : 0 < al -> forall n s g, exists s' g', grow_n (CDP al) n o s g = (Ok tt, s', g').
Proof.
  intros Ha. apply qltb_lt in Ha. induction n; intros s g; simpl; [unfold ret; eauto|].
  unfold bind, get. unfold dp_complete, bind; simpl. unfold get, ret.
  destruct (_ <? _)%Z; [|apply IHn].
  unfold beta_rep, allpos; simpl. rewrite Ha. simpl. apply IHn.
Qed.
Lemma c06_dp_zero_proof al o x fuel : 0 < al -> (forall g a b, o_beta o g a b == 0) -> 0 < x -> x < 1 ->
  fst (fst (wm_tail (CDP al) fuel x o (ws_init 0 0) [])) = Diverge.
Proof.
  intros Ha Hb H0 H1. simpl wm_tail. rewrite base_tail_first by (try reflexivity; lra).
  assert (Hr : reached (CDP al) o (ws_init 0 0) []).
  { exists 0, 0%Z, [], (ws_init 0 0), []. repeat split; auto; try discriminate. }
  pose proof (wm_random_wp (CDP al) o (SInt 1) (ws_init 0 0) [] eq_refl ltac:(simpl; lia)) as W. unfold wp in W.
  pose proof (qltb_lt 0 al) as [_ Q1]. specialize (Q1 Ha).
  assert (E : exists a s1 g1, wm_random (CDP al) (SInt 1) o (ws_init 0 0) [] = (Ok a, s1, g1) /\ Forall (fun y => y == 0) (v s1) /\ vbase s1 = []).
  { simpl. unfold dp_random, bind; simpl. unfold dp_complete, bind, need_int, beta_rep, allpos; simpl. rewrite Q1. simpl.
    do 3 eexists; split; [reflexivity|]. simpl. split; [constructor; auto|reflexivity]. }
  destruct E as (a & s1 & g1 & E & Hv & Hvb). rewrite E in *. destruct W as (W1 & W2 & _).
  pose proof (tail_loop_grow (CDP al) o x eq_refl fuel s1 g1 W1) as T.
  destruct (tail_loop (CDP al) fuel x o s1 g1) as [[[u|e|] s2] g2]; auto.
  - destruct T as (n & _ & G & M). exfalso.
    pose proof (grow_n_appends (CDP al) o eq_refl n s1 g1 W1) as A. unfold wp in A. rewrite G in A. destruct A as (A & _).
    pose proof (grow_pv (fun y => y == 0) (CDP al) o Hb I n s1 g1 ltac:(split; [assumption|rewrite Hvb; constructor])) as B. unfold wp in B. rewrite G in B. destruct B as [B _].
    rewrite (coherent_mass _ s2 A), (remaining_zeros _ B) in M. lra.
  - destruct T as (n & _ & G & _). destruct (dp_grow_total al o Ha n s1 g1) as (? & ? & ?). congruence.
Qed.
