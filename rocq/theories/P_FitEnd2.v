(* Fits that finish (C94): the classes, the fuel, and a fit that does not. *)
From Coq Require Import Lqa.
From Verif Require Import Prelude Numpy Rng M_Weights M_Niw M_Utils M_Mix S_Weights S_Hist S_Oracle S_Finish P_Lists P_Hoare P_Wp P_Inv P_Complete P_Random P_Tail P_Sticks P_Geom P_Grow P_Fixed P_Mix P_MixOk P_Finish P_FitEnd.
Open Scope Q_scope.
Open Scope m_scope.

Lemma complete_bad_size c o z s g : growing c = true -> size_val z = None ->
  wp o (wm_complete c z) (fun r _ _ => match r with Err _ => True | _ => False end) s g.
Proof.
  intros G Hz. assert (N : forall (S0 A : Type) (k : Z -> M S0 A) s1 g1, wp o (bind (need_int z) k) (fun r _ _ => match r with Err _ => True | _ => False end) s1 g1).
  { intros S0 A k s1 g1. unfold wp, bind, need_int. rewrite Hz. exact I. }
  assert (L : forall (A B : Type) (m : M ws A) (k : A -> M ws B), (forall s1 g1, wp o m (fun r _ _ => match r with Err _ => True | _ => False end) s1 g1) ->
     forall s1 g1, wp o (bind m k) (fun r _ _ => match r with Err _ => True | _ => False end) s1 g1).
  { intros A B m k H s1 g1. eapply wp_call; [apply H| | |]; simpl; auto; intros; contradiction. }
  destruct c; try discriminate G; simpl wm_complete; apply L; intros s1 g1;
  unfold dp_complete, py_complete, geom_complete, bib_complete, bid_complete, bb_complete, bbin_complete;
  repeat first [apply N | exact I |
    (eapply wp_mono; [apply bib_random_p_wp|]; intros [a0|e|] s2 g2 [D _]; [|exact I|destruct D; reflexivity]) | wstep].
Qed.

Section Drawn.
Variables (c : cls) (fuel : nat) (o : oracle) (delta : Q) (N : nat).
Hypothesis V : valid_oracle o.
Hypothesis Hc : drawn_sticks c.
Hypothesis H0 : 0 <= delta.
Hypothesis Hb : forall g a b, delta <= o_beta o g a b.
Hypothesis HN : qpow (1 - delta) N <= eps.
Hypothesis Hf : (N <= fuel)%nat.
Definition grown (s : ws) : Prop := coherent c s /\ okw s /\ pv (fun y => delta <= y) s.
Notation fn := (fine grown (fun _ => True)).
Lemma drawn_random z s g : pos_size z -> grown s -> wp o (wm_random c z) fn s g.
Proof.
  intros Hz (_ & K & P). pose proof (wm_random_wp c o z s g (drawn_growing c Hc) Hz) as W1.
  pose proof (wm_random_ok c z o V s g K) as W2. pose proof (pv_random _ o Hb c z s g Hc P) as W3. unfold wp in *.
  destruct (wm_random c z o s g) as [[[a|e|] s1] g1]; simpl; auto. split; [apply W1|split; [apply W2|exact W3]].
Qed.
Lemma drawn_complete z s g : grown s -> wp o (wm_complete c z) fn s g.
Proof.
  intros (C & K & P). pose proof (drawn_growing c Hc) as G. destruct (size_val z) as [n|] eqn:Hz.
  - pose proof (wm_complete_wp c o z n s g G C Hz) as W1. pose proof (wm_complete_ok c z o V s g K) as W2. pose proof (pv_complete _ o Hb c z s g Hc P) as W3.
    unfold wp in *. destruct (wm_complete c z o s g) as [[[a|e|] s1] g1]; simpl; auto. split; [apply W1|split; [apply W2|exact W3]].
  - eapply wp_mono; [apply complete_bad_size; eassumption|]. intros [a|e|] s1 g1; simpl; auto; contradiction.
Qed.
Lemma drawn_loop x s g : grown s -> x <= 1 - eps -> match tail_loop c fuel x o s g with (Ok _, s', _) => grown s' | (Err _, _, _) => True | (Diverge, _, _) => False end.
Proof.
  intros (C & K & P) Hx. pose proof (drawn_growing c Hc) as G. pose proof (tail_loop_grow c o x G fuel s g C) as T.
  destruct (tail_loop c fuel x o s g) as [[[u|e|] s2] g2]; auto.
  - destruct T as (n & _ & T & _). pose proof (grow_n_appends c o G n s g C) as A. pose proof (grow_pv _ c o Hb Hc n s g P) as B.
    pose proof (grow_okw c n o V s g K) as D. unfold wp in A, B. rewrite T in A, B, D. split; [apply A|split; [apply D|exact B]].
  - destruct T as (T & M & _). pose proof (grow_n_appends c o G fuel s g C) as A. pose proof (grow_pv _ c o Hb Hc fuel s g P) as B.
    pose proof (grow_okw c fuel o V s g K) as D. unfold wp in A, B. rewrite T in A, B, D. destruct A as (A & t & Et & Lt). destruct B as [B _]. destruct D as [(_ & D & _) _].
    rewrite (coherent_mass c s2 A) in M.
    assert (Rm : remaining (v s2) <= qpow (1 - delta) N). { apply remaining_ge_eps; auto. rewrite Et, app_length. lia. }
    lra.
Qed.
Lemma drawn_tail x s g : grown s -> x <= 1 - eps -> wp o (wm_tail c fuel x) fn s g.
Proof.
  intros H Hx. assert (Hng : forall pa pb, c <> CGeom pa pb) by (intros pa pb ->; destruct Hc).
  rewrite tail_is_base by exact Hng. unfold base_tail. wstep; [wstep; exact I|]. wstep.
  assert (L : forall s1 g1, grown s1 -> wp o (tail_loop c fuel x;; s' <- get;; ret (w s')) fn s1 g1).
  { intros s1 g1 H1. pose proof (drawn_loop x s1 g1 H1 Hx) as T. unfold wp, bind. destruct (tail_loop c fuel x o s1 g1) as [[[u|e|] s2] g2]; simpl; auto. }
  wstep.
  - eapply wp_mono; [apply drawn_random; [simpl; lia|exact H]|]. intros [a|e|] s1 g1 K; simpl in K; auto.
  - wstep. apply L, H.
Qed.
Lemma drawn_ends E op : env_returns E -> ends o grown (fun _ => True) (exec_mop E c fuel op).
Proof.
  intros Ht. apply ends_mop; auto.
  - intros s g H. apply drawn_random; [exact I|exact H].
  - intros s (_ & K & _). apply K.
  - intros z s g H. apply drawn_complete, H.
  - intros x s g H Hx. apply drawn_tail; assumption.
Qed.
Lemma drawn_after E s g : env_returns E -> after_fits E c fuel o s g -> grown (s_wm s).
Proof.
  intros Ht H. induction H as [parg narg mu lam psi nu total burn sub s g Hp Hm|op s g s' g' _ IH X].
  - unfold new_mix in Hm. destruct (new_ws c parg narg o) as [[s1 g1]|e|] eqn:Nw; try discriminate Hm.
    destruct (qltb burn total); [|discriminate Hm]. injection Hm as <- _. simpl. split; [|split].
    + destruct c; try contradiction; simpl in Nw; try (destruct (qltb _ _) in Nw); try discriminate Nw; injection Nw as <- _; split; simpl; auto.
    + eapply new_ws_ok; [exact V| |exact Nw]. intros; exact Hp.
    + destruct c; try contradiction; simpl in Nw; try (destruct (qltb _ _) in Nw); try discriminate Nw; injection Nw as <- _; split; simpl; auto.
  - pose proof (drawn_ends E op Ht s g IH) as K. unfold wp in K. rewrite X in K. exact K.
Qed.
End Drawn.
Lemma c94_sticks_proof : forall E c fuel o delta N, env_returns E -> valid_oracle o -> drawn_sticks c ->
  0 <= delta -> (forall g a b, delta <= o_beta o g a b) -> qpow (1 - delta) N <= eps -> (N <= fuel)%nat ->
  forall s g, after_fits E c fuel o s g -> forall op, ~ diverges (exec_mop E c fuel op o s g).
Proof.
  intros E c fuel o delta N Ht V Hc H0 Hb HN Hf s g H op D.
  pose proof (drawn_ends c fuel o delta N V Hc H0 Hb HN Hf E op Ht s g (drawn_after c fuel o delta N V Hc H0 Hb HN Hf E s g Ht H)) as K.
  unfold wp, diverges in *. destruct (exec_mop E c fuel op o s g) as [[[a|e|] s1] g1]; simpl in *; try discriminate D. exact K.
Qed.

(* ---------- GeometricProcess ---------- *)
Lemma nodiv_okw {A} (m : M ws A) o s g : valid_oracle o -> tri okw m anyR -> fst (fst (m o s g)) <> Diverge -> okw s -> wp o m (fine okw okw) s g.
Proof.
  intros V T D K. specialize (T o V s g K). unfold wp. destruct (m o s g) as [[[a|e|] s1] g1]; simpl in *; try apply T. congruence.
Qed.
Lemma geom_ends E a b fuel o op : env_returns E -> valid_oracle o -> ends o okw okw (exec_mop E (CGeom a b) fuel op).
Proof.
  intros Ht V. apply ends_mop; auto.
  - intros s g K. apply nodiv_okw; auto; [apply wm_random_ok|].
    pose proof (wm_random_wp (CGeom a b) o SNone s g eq_refl I) as W. unfold wp in W. destruct (wm_random _ _ _ _ _) as [[[x|e|] s1] g1]; try discriminate. contradiction.
  - intros s K; apply K.
  - intros z s g K. apply nodiv_okw; auto; [apply wm_complete_ok|].
    enough (W : wp o (wm_complete (CGeom a b) z) (fun r _ _ => r <> Diverge) s g) by (unfold wp in W; destruct (wm_complete _ _ _ _ _) as [[[x|e|] s1] g1]; [discriminate|discriminate|congruence]).
    simpl. unfold geom_complete. wsteps; discriminate.
  - intros x s g K _. apply nodiv_okw; auto; [apply wm_tail_ok|].
    enough (W : wp o (wm_tail (CGeom a b) fuel x) (fun r _ _ => r <> Diverge) s g) by (unfold wp in W; destruct (wm_tail _ _ _ _ _ _) as [[[y|e|] s1] g1]; [discriminate|discriminate|congruence]).
    simpl. unfold geom_tail, geom_complete. wsteps; discriminate.
Qed.
(* ---------- the fixed-size classes ---------- *)
Lemma fix_fine {A} (m : M ws A) o s g : wp o m fpost s g -> wp o m (fun r _ _ => r <> Diverge) s g -> wp o m (fine fixw fixw) s g.
Proof. unfold wp. destruct (m o s g) as [[[a|e|] s1] g1]; simpl; intros [H _] D; auto. Qed.
Lemma fix_nd_random c o z s g : fixed_ok c -> wp o (wm_random c z) (fun r _ _ => r <> Diverge) s g.
Proof. intros Hc. destruct c; try contradiction; simpl; unfold dd_random, eq_random, freq_random, repeat_inv; wsteps; discriminate. Qed.
Lemma fixed_ends E c fuel o op : env_returns E -> valid_oracle o -> fixed_ok c -> ends o fixw fixw (exec_mop E c fuel op).
Proof.
  intros Ht V Hc. apply ends_mop; auto.
  - intros s g K. apply fix_fine; [apply wm_random_fix; assumption|apply fix_nd_random; exact Hc].
  - intros s [->|[K _]]; [constructor|exact K].
  - intros z s g K. apply fix_fine; [apply wm_complete_fix; assumption|].
    destruct c; try contradiction; simpl; unfold dd_complete, dd_random, eq_random, freq_random, repeat_inv; wsteps; discriminate.
  - intros x s g K _. rewrite tail_is_base by (apply fixed_not_geom; exact Hc).
    eapply wp_mono; [apply base_tail_fix; assumption|]. intros [a|e|] s1 g1 (H1 & H2 & _); simpl; auto.
Qed.
Lemma run_inv E c fuel o (IW : ws -> Prop) : (forall op, ends o IW IW (exec_mop E c fuel op)) ->
  forall ops s g s' g', IW (s_wm s) -> run_mops E c fuel ops o s g = (s', g') -> IW (s_wm s').
Proof.
  intros H. induction ops as [|op ops IH]; intros s g s' g' Hs R; simpl in R; [injection R as <- <-; exact Hs|].
  pose proof (H op s g Hs) as K. unfold wp in K. destruct (exec_mop E c fuel op o s g) as [[r s1] g1]. eapply IH; [|exact R].
  destruct r; [exact K|exact K|contradiction].
Qed.
Lemma c94_bounded_proof : forall E c fuel o, env_returns E -> valid_oracle o -> fixed_ok c \/ (exists a b, c = CGeom a b) ->
  forall parg narg mu lam psi nu total burn sub s0 g0 ops s g op,
  new_mix c parg narg mu lam psi nu total burn sub o = Ok (s0, g0) -> run_mops E c fuel ops o s0 g0 = (s, g) ->
  ~ diverges (exec_mop E c fuel op o s g).
Proof.
  intros E c fuel o Ht V Hc parg narg mu lam psi nu total burn sub s0 g0 ops s g op Hm R D.
  assert (Nw : exists p0 n0, s_wm s0 = ws_init p0 n0 /\ (forall a b, c = CGeom a b -> in01 p0)).
  { unfold new_mix in Hm. destruct (new_ws c parg narg o) as [[s1 g1]|e|] eqn:Nw; try discriminate Hm.
    destruct (qltb burn total); [|discriminate Hm]. injection Hm as <- _. simpl.
    destruct c; simpl in Nw; repeat match type of Nw with context [if ?b then _ else _] => destruct b eqn:? end; try discriminate Nw;
      injection Nw as <- _; do 2 eexists; split; try reflexivity; intros; try discriminate.
    change (allpos [(a, b)] = true) in Heqb0. apply allpos_cons in Heqb0 as (Ha & Hb & _). apply (vo_beta o V); rewrite ?Qred_correct; assumption. }
  destruct Nw as (p0 & n0 & E0 & Hp). unfold diverges in D.
  destruct Hc as [Hc|(a & b & ->)].
  - pose proof (fun op => fixed_ends E c fuel o op Ht V Hc) as F.
    pose proof (run_inv _ _ _ _ _ F ops s0 g0 s g ltac:(rewrite E0; left; reflexivity) R) as K. specialize (F op s g K). unfold wp in F.
    destruct (exec_mop E c fuel op o s g) as [[[x|e|] s1] g1]; simpl in *; try discriminate D; exact F.
  - pose proof (fun op => geom_ends E a b fuel o op Ht V) as F.
    pose proof (run_inv _ _ _ _ _ F ops s0 g0 s g ltac:(rewrite E0; apply okw_init, (Hp a b eq_refl)) R) as K. specialize (F op s g K). unfold wp in F.
    destruct (exec_mop E _ fuel op o s g) as [[[x|e|] s1] g1]; simpl in *; try discriminate D; exact F.
Qed.

(* ---------- more fuel changes nothing ---------- *)
Definition fsim {S A} (m m' : M S A) : Prop := forall o s g, fst (fst (m o s g)) <> Diverge -> m' o s g = m o s g.
Lemma fsim_refl {S A} (m : M S A) : fsim m m. Proof. intros o s g _; reflexivity. Qed.
Lemma fsim_bind {S A B} (m m' : M S A) (k k' : A -> M S B) : fsim m m' -> (forall a, fsim (k a) (k' a)) -> fsim (bind m k) (bind m' k').
Proof.
  intros Hm Hk o s g. unfold bind. specialize (Hm o s g). destruct (m o s g) as [[[a|e|] s1] g1]; simpl in *.
  - rewrite Hm by discriminate. intros D. apply Hk, D.
  - rewrite Hm by discriminate. reflexivity.
  - congruence.
Qed.
Lemma fsim_onw {A} (m m' : M ws A) : fsim m m' -> fsim (onw m) (onw m').
Proof.
  intros H o s g. unfold onw. specialize (H o (s_wm s) g). destruct (m o (s_wm s) g) as [[r x] g1]; simpl in *. intros D. rewrite (H D). reflexivity.
Qed.
Ltac fs := repeat first [apply fsim_refl | assumption | (apply fsim_bind; [|intros ?]) | (apply fsim_onw) |
  lazymatch goal with |- fsim (if ?b then _ else _) _ => destruct b | |- fsim (match ?b with _ => _ end) _ => destruct b end].
Section Fuel.
Variables (E : env) (c : cls) (f f' : nat).
Hypothesis L : (f <= f')%nat.
Lemma fsim_loop x : forall k k', (k <= k')%nat -> fsim (tail_loop c k x) (tail_loop c k' x).
Proof.
  induction k as [|k IH]; intros k' Hk.
  - intros o s g. destruct k'; [reflexivity|]. simpl. unfold bind, get. destruct (qltb (qsum (w s)) x); [|reflexivity]. simpl. congruence.
  - destruct k' as [|k']; [lia|]. simpl. apply fsim_bind; [apply fsim_refl|intros s]. destruct (qltb (qsum (w s)) x); [|apply fsim_refl].
    apply fsim_bind; [apply fsim_refl|intros _]. apply IH; lia.
Qed.
Lemma fsim_tail x : fsim (wm_tail c f x) (wm_tail c f' x).
Proof. unfold wm_tail, base_tail. pose proof (fsim_loop x f f' L). destruct c; fs. Qed.
Lemma fsim_slice : fsim (tail_to_slice c f) (tail_to_slice c f').
Proof. unfold tail_to_slice. apply fsim_bind; [apply fsim_refl|intros s]. destruct (is_nil _); [apply fsim_refl|]. apply fsim_bind; [apply fsim_onw, fsim_tail|intros; apply fsim_refl]. Qed.
Lemma fsim_sweep : fsim (sweep E c f) (sweep E c f').
Proof. unfold sweep, gibbs_step, update_weights. pose proof fsim_slice. fs. Qed.
Lemma fsim_burn n : fsim (burn_loop E c f n) (burn_loop E c f' n).
Proof. induction n; simpl; [apply fsim_refl|]. apply fsim_bind; [apply fsim_sweep|intros _; exact IHn]. Qed.
Lemma fsim_train n : forall i, fsim (train_loop E c f n i) (train_loop E c f' n i).
Proof.
  induction n; intros i; simpl; [apply fsim_refl|]. apply fsim_bind; [apply fsim_sweep|intros _]. apply fsim_bind; [apply fsim_refl|intros s].
  apply fsim_bind; [apply fsim_refl|intros _; apply IHn].
Qed.
Lemma fsim_init ig meth : fsim (init_gibbs E c f ig meth) (init_gibbs E c f' ig meth).
Proof.
  unfold init_gibbs. do 4 (apply fsim_bind; [apply fsim_refl|intros ?]). cbv zeta. do 3 (apply fsim_bind; [apply fsim_refl|intros ?]).
  apply fsim_bind; [destruct (is_snone ig); [apply fsim_slice|apply fsim_refl]|intros _; apply fsim_refl].
Qed.
Lemma fsim_mop op : fsim (exec_mop E c f op) (exec_mop E c f' op).
Proof.
  destruct op; simpl; [|apply fsim_refl]. unfold fit_gibbs. apply fsim_bind; [apply fsim_refl|intros _]. apply fsim_bind.
  - destruct warm; [apply fsim_refl|]. apply fsim_bind; [apply fsim_init|intros _; apply fsim_refl].
  - intros _. apply fsim_bind; [apply fsim_refl|intros s]. apply fsim_bind; [apply fsim_burn|intros _]. apply fsim_bind; [apply fsim_train|intros _; apply fsim_refl].
Qed.
End Fuel.
Lemma c94_fuel_proof : forall E c f f' op o s g, (f <= f')%nat -> ~ diverges (exec_mop E c f op o s g) ->
  exec_mop E c f' op o s g = exec_mop E c f op o s g.
Proof. intros E c f f' op o s g L D. apply (fsim_mop E c f f' L op). exact D. Qed.

(* ---------- sticks of length zero ---------- *)
Lemma dp_zero_tail al o x fuel g : 0 < al -> (forall g a b, o_beta o g a b == 0) -> 0 < x -> x < 1 ->
  fst (fst (wm_tail (CDP al) fuel x o (ws_init 0 0) g)) = Diverge.
Proof.
  intros Ha Hb H0 H1. simpl wm_tail. rewrite base_tail_first by (try reflexivity; lra).
  pose proof (wm_random_wp (CDP al) o (SInt 1) (ws_init 0 0) g eq_refl ltac:(simpl; lia)) as W. unfold wp in W.
  pose proof (qltb_lt 0 al) as [_ Q1]. specialize (Q1 Ha).
  assert (E : exists a s1 g1, wm_random (CDP al) (SInt 1) o (ws_init 0 0) g = (Ok a, s1, g1) /\ Forall (fun y => y == 0) (v s1) /\ vbase s1 = []).
  { simpl. unfold dp_random, bind; simpl. unfold dp_complete, bind, need_int, beta_rep, allpos; simpl. rewrite Q1. simpl.
    do 3 eexists; split; [reflexivity|]. simpl. split; [constructor; auto|reflexivity]. }
  destruct E as (a & s1 & g1 & E & Hv & Hvb). rewrite E in *. destruct W as (W1 & W2 & _).
  pose proof (tail_loop_grow (CDP al) o x eq_refl fuel s1 g1 W1) as T.
  destruct (tail_loop (CDP al) fuel x o s1 g1) as [[[u|e|] s2] g2]; auto.
  - destruct T as (n & _ & G & M). exfalso.
    pose proof (grow_n_appends (CDP al) o eq_refl n s1 g1 W1) as A. unfold wp in A. rewrite G in A. destruct A as (A & _).
    pose proof (grow_pv (fun y => y == 0) (CDP al) o Hb I n s1 g1 ltac:(split; [assumption|rewrite Hvb; constructor])) as B. unfold wp in B. rewrite G in B. destruct B as [B _].
    rewrite (coherent_mass _ s2 A), (remaining_zeros _ B) in M. lra.
  - destruct T as (n & _ & G & _). destruct (dp_grow_total al o Ha n s1 g1) as (? & ? & ?). congruence.
Qed.
Lemma qmin_lt e l : l <> [] -> Forall (fun x => x < e) l -> qmin l < e.
Proof.
  intros Hn H. destruct l as [|x t]; [congruence|]. inversion H; subst. simpl. clear Hn H. revert x H2.
  induction H3 as [|y t Hy Ht IH]; intros x Hx; simpl; [exact Hx|]. apply IH. destruct (qltb y x); assumption.
Qed.
Lemma slices_lt1 o n : valid_oracle o -> forall g, Forall (fun x => x < 1) (fst (unif_draws o (repeat (eps, 1) n) g)).
Proof.
  intros V. induction n as [|n IH]; intros g; cbn [repeat unif_draws fst]; [constructor|].
  specialize (IH (g ++ [runif eps 1])). destruct (unif_draws o (repeat (eps, 1) n) (g ++ [runif eps 1])) as [r g1] eqn:U. cbn [fst] in *.
  constructor; [|exact IH]. pose proof (vo_unif o V g (Qred eps) (Qred 1) ltac:(reflexivity)) as [_ K]. exact K.
Qed.
Lemma run_on {S A B} (m : M S A) (k : A -> M S B) o s g a s1 g1 : m o s g = (Ok a, s1, g1) -> bind m k o s g = k a o s1 g1.
Proof. intros H. unfold bind. rewrite H. reflexivity. Qed.
Lemma stuck_bind {S A B} (m : M S A) (k : A -> M S B) o s g : fst (fst (m o s g)) = Diverge -> fst (fst (bind m k o s g)) = Diverge.
Proof. intros H. unfold bind. destruct (m o s g) as [[r s1] g1]; simpl in H. subst r. reflexivity. Qed.
Lemma c94_endless_proof : forall E al parg narg mu lam psi nu total burn sub o s0 g0 row rows k meth fuel,
  valid_oracle o -> 0 < al -> (forall g a b, o_beta o g a b == 0) ->
  new_mix (CDP al) parg narg mu lam psi nu total burn sub o = Ok (s0, g0) ->
  diverges (fit_gibbs E (CDP al) fuel (YArr2 (row :: rows) k) SNone false meth o s0 g0).
Proof.
  intros E al parg narg mu lam psi nu total burn sub o s0 g0 row rows k meth fuel V Ha Hb Hm.
  unfold new_mix in Hm. simpl in Hm. destruct (qltb burn total); [|discriminate Hm]. injection Hm as Hs Hg.
  assert (I0 : exists s1, init_common (YArr2 (row :: rows) k) o s0 g0 = (Ok tt, s1, g0) /\ s_wm s1 = ws_init 0 0 /\ s_y s1 = row :: rows).
  { unfold init_common, set_obs, bind, upd, get, ret. subst s0. simpl. destruct nu; eexists; split; try reflexivity; split; reflexivity. }
  destruct I0 as (s1 & I0 & Hw & Hy). unfold diverges, fit_gibbs.
  rewrite (run_on _ _ _ _ _ _ _ _ I0). cbv beta. apply stuck_bind. apply stuck_bind.
  unfold init_gibbs. unfold bind at 1, upd at 1. unfold bind at 1, upd at 1. unfold bind at 1, upd at 1. unfold bind at 1, get at 1. cbv zeta. unfold bind at 1, upd at 1.
  set (st := upd_gen true _). assert (Y : s_y st = row :: rows) by exact Hy. assert (W : s_wm st = ws_init 0 0) by exact Hw. rewrite Y. clearbody st.
  unfold bind at 1. unfold unif_many. pose proof (slices_lt1 o (length (row :: rows)) V g0) as S1.
  pose proof (draws_ge_eps o (repeat (eps, 1) (length (row :: rows))) V) as S2. specialize (S2 ltac:(apply Forall_forall; intros x Hx; apply repeat_spec in Hx; subst x; split; [discriminate|apply Qle_refl]) g0).
  pose proof (unif_draws_length o (repeat (eps, 1) (length (row :: rows))) g0) as Ln. rewrite repeat_length in Ln.
  destruct (unif_draws o (repeat (eps, 1) (length (row :: rows))) g0) as [u gu]. cbn [fst] in *.
  assert (Un : u <> []) by (intros ->; discriminate Ln).
  unfold bind at 1, upd at 1. unfold bind at 1. cbn [is_snone]. unfold tail_to_slice. unfold bind at 1, get at 1. cbn [s_u upd_u].
  assert (Nu : is_nil u = false) by (destruct u; [congruence|reflexivity]). rewrite Nu. unfold bind at 1. unfold onw. cbn [s_wm upd_u upd_aff]. rewrite W.
  pose proof (dp_zero_tail al o (1 - qmin u) fuel gu Ha Hb) as T.
  pose proof (qmin_lt 1 u Un S1). pose proof (qmin_ge eps u Un S2). assert (0 < eps) by reflexivity.
  specialize (T ltac:(lra) ltac:(lra)). cbn [snd]. destruct (wm_tail (CDP al) fuel (1 - qmin u) o (ws_init 0 0) gu) as [[r sw] gw]. simpl in T. subst r. reflexivity.
Qed.
