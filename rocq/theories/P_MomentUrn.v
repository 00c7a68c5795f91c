(* Means over the sticks of BetaInDirichlet: the urn is a martingale. *)
From Coq Require Import Lqa Field QArith.Qfield.
From Verif Require Import Prelude Numpy Rng M_Weights S_Weights S_Hist S_Draws S_More S_Urn S_Moment P_Lists P_Wp P_Post P_More P_Urn P_UrnEppf P_MomentEx P_Moment P_MomentInd P_MomentDep.
Open Scope Q_scope.

Definition over (seen : list nat) (f : nat -> Q) : Q := qsum (map f seen).
Lemma over_snoc seen p f : over (seen ++ [p]) f == over seen f + f p.
Proof. unfold over. rewrite map_app, qsum_app. cbn. ring. Qed.
Lemma over_ext seen f h : (forall p, In p seen -> f p == h p) -> over seen f == over seen h.
Proof. intros H. unfold over. induction seen; cbn; [reflexivity|]. rewrite H by (left; reflexivity). rewrite IHseen by (intros; apply H; right; assumption). reflexivity. Qed.
Lemma over_add seen f h : over seen (fun p => f p + h p) == over seen f + over seen h.
Proof. unfold over. induction seen; cbn; [reflexivity|]. rewrite IHseen. ring. Qed.
Lemma over_scale seen c f : over seen (fun p => c * f p) == c * over seen f.
Proof. unfold over. induction seen; cbn; [ring|]. rewrite IHseen. ring. Qed.
Lemma over_const seen c : over seen (fun _ => c) == nq (length seen) * c.
Proof. unfold over. induction seen; cbn [map qsum length fold_right]; [unfold nq; cbn; ring|]. change (qsum (map (fun _ => c) seen)) with (qsum (map (fun _ : nat => c) seen)). cbn. rewrite IHseen. rewrite nq_S. ring. Qed.

Lemma counted k f : forall seen, Forall (fun j => (j < k)%nat) seen ->
  qsum (map (fun i => nq (n_eq i seen) * f i) (seq 0 k)) == over seen f.
Proof.
  induction seen as [|p seen IH] using rev_ind; intros H.
  - unfold over. cbn. induction (seq 0 k); cbn; [reflexivity|]. rewrite IHl. unfold nq; cbn. ring.
  - apply Forall_app in H as (H & Hp). inversion Hp; subst. rewrite over_snoc, <- IH by exact H.
    rewrite (qsum_map_eq _ (fun i => nq (n_eq i seen) * f i + nq (if Nat.eqb p i then 1 else 0) * f i)) by (intros; rewrite n_eq_snoc, nq_add; ring).
    rewrite qsum_map_add. apply Qplus_comp; [reflexivity|].
    rewrite (qsum_map_eq _ (fun i => f p * nq (if Nat.eqb p i then 1 else 0))).
    + rewrite qsum_map_scale, qsum_ind. destruct (Nat.ltb_spec p k); [ring|lia].
    + intros i _. destruct (Nat.eqb_spec p i); [subst; ring|unfold nq; cbn; ring].
Qed.

Section Law.
Variables (N : nat) (L : law).
Hypothesis ML : moments N L.
Variables al a : Q.
Hypothesis Hal : 0 < al.
Hypothesis Ha : 0 <= a.
Notation E1 := (one_stick L al).
Notation T := (urnT al a).

Lemma urn_pos (seen : list nat) : seen <> [] -> 0 < nq (length seen) + a.
Proof. intros H. destruct seen; [congruence|]. cbn [length]. rewrite nq_S. pose proof (nq_nonneg (length seen)). lra. Qed.
Lemma urn_choice k seen f h y : seen <> [] -> Forall (fun j => (j < k)%nat) seen ->
  (forall p, (p < k)%nat -> f p == h p) -> f k == y ->
  e_choice L (map Qred (urn_weights a k seen)) f == (over seen h + a * y) / (nq (length seen) + a).
Proof.
  intros Hs Hk Hf Hy. pose proof (urn_pos seen Hs) as P. pose proof (urn_total a k seen Hk) as TT.
  assert (NN : Forall (fun x => 0 <= x) (urn_weights a k seen)).
  { pose proof (urn_weights_nonneg a k seen Ha) as X. rewrite forallb_forall in X. apply Forall_forall. intros x Hx. apply Qle_bool_iff, X, Hx. }
  rewrite (choice_mean N L ML).
  - rewrite qsum_Qred, TT. apply Qmult_comp; [|reflexivity]. rewrite map_length, urn_weights_length, seq_S, map_app, qsum_app. cbn [map qsum]. change (0 + k)%nat with k.
    rewrite nth_Qred, urn_weight_nth, Nat.ltb_irrefl by lia. rewrite Hy.
    rewrite (qsum_map_eq _ (fun i => nq (n_eq i seen) * h i)).
    + rewrite counted by exact Hk. ring.
    + intros i Hi. apply in_seq in Hi. rewrite nth_Qred, urn_weight_nth by lia. rewrite (proj2 (Nat.ltb_lt i k)) by lia. rewrite Hf by lia. reflexivity.
  - apply Forall_forall. intros x Hx. apply in_map_iff in Hx. destruct Hx as (y0 & <- & Hy0). rewrite Qred_correct. rewrite Forall_forall in NN. apply NN. exact Hy0.
  - rewrite qsum_Qred, TT. exact P.
Qed.
Lemma snoc_ne (seen : list nat) p : seen ++ [p] <> []. Proof. destruct seen; discriminate. Qed.
Lemma snoc_lt k (seen : list nat) p : Forall (fun j => (j < k)%nat) seen -> (p < k)%nat -> Forall (fun j => (j < k)%nat) (seen ++ [p]).
Proof. intros H Hp. apply Forall_app. split; [exact H|constructor; [exact Hp|constructor]]. Qed.
Lemma lt_S k (seen : list nat) : Forall (fun j => (j < k)%nat) seen -> Forall (fun j => (j < S k)%nat) seen.
Proof. intros H. eapply Forall_impl; [|exact H]. cbn. lia. Qed.

(* a quantity that the steps taken so far have fixed *)
Lemma fixed F y : forall n k seen base labs, seen <> [] -> Forall (fun j => (j < k)%nat) seen ->
  (forall b l, F (base ++ b) (labs ++ l) == y) -> tmean L (T F n k seen base labs) == y.
Proof.
  induction n; intros k seen base labs Hs Hk HF; cbn [urnT tmean].
  - specialize (HF [] []). rewrite !app_nil_r in HF. exact HF.
  - pose proof (urn_pos seen Hs).
    rewrite (urn_choice k seen _ (fun _ => y) y Hs Hk).
    + rewrite over_const. field. lra.
    + intros p Hp. rewrite (proj2 (Nat.ltb_lt p k)) by lia. apply IHn; [apply snoc_ne|apply snoc_lt; auto|]. intros b l. rewrite <- app_assoc. apply HF.
    + rewrite Nat.ltb_irrefl. cbn [tmean]. transitivity (E1 (fun _ => y)); [|apply (one_const N L ML al Hal)]. apply (one_ext N L ML al Hal). intros x _.
      apply IHn; [apply snoc_ne|apply snoc_lt; [apply lt_S; exact Hk|lia]|]. intros b l. rewrite <- !app_assoc. apply HF.
Qed.

Definition val (phi : Q -> Q) (base : list Q) (p : nat) : Q := phi (nth p base 0).
Lemma val_app phi base b p : (p < length base)%nat -> val phi (base ++ b) p = val phi base p.
Proof. intros H. unfold val. rewrite app_nth1 by exact H. reflexivity. Qed.
Lemma val_new phi base x : val phi (base ++ [x]) (length base) = phi x.
Proof. unfold val. rewrite app_nth2, Nat.sub_diag by lia. reflexivity. Qed.
Lemma over_val phi base b seen : Forall (fun j => (j < length base)%nat) seen -> over seen (val phi (base ++ b)) == over seen (val phi base).
Proof. intros H. apply over_ext. intros p Hp. rewrite Forall_forall in H. rewrite val_app by (apply H; exact Hp). reflexivity. Qed.
Lemma at_new base b labs l p : (p < length base)%nat -> at_pos (base ++ b) ((labs ++ [p]) ++ l) (length labs) = nth p base 0.
Proof. intros H. unfold at_pos. rewrite <- app_assoc. rewrite (app_nth2 labs), Nat.sub_diag by lia. cbn. apply app_nth1. exact H. Qed.
Lemma at_old base b (labs l : list nat) i : (i < length labs)%nat -> Forall (fun j => (j < length base)%nat) labs -> at_pos (base ++ b) (labs ++ l) i = at_pos base labs i.
Proof. intros H HF. unfold at_pos. rewrite (app_nth1 labs) by exact H. apply app_nth1. rewrite Forall_forall in HF. apply HF, nth_In, H. Qed.

(* the mean of one further stick *)
Definition pred1 (phi : Q -> Q) (seen : list nat) (base : list Q) : Q := (over seen (val phi base) + a * E1 phi) / (nq (length seen) + a).
Lemma step1 phi seen base k : seen <> [] -> Forall (fun j => (j < length base)%nat) seen -> k = length base ->
  forall f, (forall p, (p < k)%nat -> f p == pred1 phi (seen ++ [p]) base) -> (f k == E1 (fun x => pred1 phi (seen ++ [k]) (base ++ [x]))) ->
  e_choice L (map Qred (urn_weights a k seen)) f == pred1 phi seen base.
Proof.
  intros Hs Hk -> f Hf Hn. pose proof (urn_pos seen Hs) as P.
  set (A := over seen (val phi base)). set (t := nq (length seen)) in *. set (m := E1 phi).
  rewrite (urn_choice (length base) seen f (fun p => (1 / (t + 1 + a)) * (val phi base p + (A + a * m))) ((1 / (t + 1 + a)) * m + (1 / (t + 1 + a)) * (A + a * m)) Hs Hk).
  - rewrite over_scale, (over_add seen (val phi base) (fun _ => A + a * m)), over_const. fold A t. unfold pred1. fold A t m. field; try split; lra.
  - intros p Hp. rewrite Hf by exact Hp. unfold pred1. rewrite over_snoc, app_length. cbn [length]. rewrite Nat.add_1_r, nq_S. fold A t m. field; try split; lra.
  - rewrite Hn. unfold m. rewrite <- (one_lin N L ML al Hal). apply (one_ext N L ML al Hal). intros x _. unfold pred1. rewrite over_snoc, app_length. cbn [length]. rewrite Nat.add_1_r, nq_S.
    rewrite val_new, over_val by exact Hk. fold A t m. field; try split; lra.
Qed.
Lemma urn_one phi : forall n seen base labs j, seen <> [] -> Forall (fun i => (i < length base)%nat) seen -> (length labs <= j < length labs + n)%nat ->
  tmean L (T (fun b l => phi (at_pos b l j)) n (length base) seen base labs) == pred1 phi seen base.
Proof.
  induction n; intros seen base labs j Hs Hk Hj; [lia|]. cbn [urnT tmean]. destruct (Nat.eq_dec j (length labs)) as [->|Ne].
  - unfold pred1. apply urn_choice; auto.
    + intros p Hp. rewrite (proj2 (Nat.ltb_lt _ _)) by exact Hp. apply fixed; [apply snoc_ne|apply snoc_lt; auto|]. intros b l. rewrite at_new by exact Hp. reflexivity.
    + rewrite Nat.ltb_irrefl. cbn [tmean]. apply (one_ext N L ML al Hal). intros x _. apply fixed; [apply snoc_ne|apply snoc_lt; [apply lt_S; exact Hk|lia]|].
      intros b l. rewrite at_new by (rewrite app_length; cbn; lia). rewrite app_nth2, Nat.sub_diag by lia. reflexivity.
  - apply (step1 phi seen base (length base) Hs Hk eq_refl).
    + intros p Hp. rewrite (proj2 (Nat.ltb_lt _ _)) by exact Hp. apply IHn; [apply snoc_ne|apply snoc_lt; auto|rewrite app_length; cbn; lia].
    + rewrite Nat.ltb_irrefl. cbn [tmean]. apply (one_ext N L ML al Hal). intros x _.
      replace (S (length base)) with (length (base ++ [x])) by (rewrite app_length; cbn; lia).
      apply IHn; [apply snoc_ne|apply snoc_lt; rewrite app_length; cbn; [eapply Forall_impl; [|exact Hk]; cbn; lia|lia]|rewrite app_length; cbn; lia].
Qed.

(* two further sticks *)
Lemma urn_ext F F' : forall n seen base labs, seen <> [] -> Forall (fun i => (i < length base)%nat) seen ->
  (forall b l, F (base ++ b) (labs ++ l) == F' (base ++ b) (labs ++ l)) ->
  tmean L (T F n (length base) seen base labs) == tmean L (T F' n (length base) seen base labs).
Proof.
  induction n; intros seen base labs Hs Hk HF; cbn [urnT tmean].
  - specialize (HF [] []). rewrite !app_nil_r in HF. exact HF.
  - set (f := fun p => tmean L (if (p <? length base)%nat then T F n (length base) (seen ++ [p]) base (labs ++ [p]) else _)).
    set (f' := fun p => tmean L (if (p <? length base)%nat then T F' n (length base) (seen ++ [p]) base (labs ++ [p]) else _)).
    rewrite (urn_choice (length base) seen f f' (f' (length base)) Hs Hk).
    + symmetry. apply urn_choice; auto; intros; reflexivity.
    + intros p Hp. unfold f, f'. rewrite (proj2 (Nat.ltb_lt _ _)) by exact Hp. apply IHn; [apply snoc_ne|apply snoc_lt; auto|]. intros b l. rewrite <- app_assoc. apply HF.
    + unfold f, f'. rewrite Nat.ltb_irrefl. cbn [tmean]. apply (one_ext N L ML al Hal). intros x _.
      replace (S (length base)) with (length (base ++ [x])) by (rewrite app_length; cbn; lia).
      apply IHn; [apply snoc_ne|apply snoc_lt; rewrite app_length; cbn; [eapply Forall_impl; [|exact Hk]; cbn; lia|lia]|]. intros b l. rewrite <- !app_assoc. apply HF.
Qed.
Lemma pred1_scale c phi seen base : seen <> [] -> pred1 (fun x => c * phi x) seen base == c * pred1 phi seen base.
Proof.
  intros Hs. unfold pred1. pose proof (urn_pos seen Hs). rewrite (one_scale N L ML al Hal). change (val (fun x => c * phi x) base) with (fun p => c * val phi base p). rewrite over_scale. field. lra.
Qed.
Section Pair.
Variables g h : Q -> Q.
Definition gh (x : Q) : Q := g x * h x.
Definition pred2 (seen : list nat) (base : list Q) : Q :=
  ((over seen (val g base) + a * E1 g) * (over seen (val h base) + a * E1 h) + over seen (val gh base) + a * E1 gh) /
  ((nq (length seen) + a) * (nq (length seen) + a + 1)).
Lemma one_lin3 c K A B C : E1 (fun x => c * (K + A * h x + B * g x + C * gh x)) == c * (K + A * E1 h + B * E1 g + C * E1 gh).
Proof.
  rewrite (one_scale N L ML al Hal). apply Qmult_comp; [reflexivity|].
  rewrite (one_add N L ML al Hal (fun x => K + A * h x + B * g x) (fun x => C * gh x)), (one_add N L ML al Hal (fun x => K + A * h x) (fun x => B * g x)), (one_add N L ML al Hal (fun x => K) (fun x => A * h x)).
  rewrite !(one_scale N L ML al Hal), (one_const N L ML al Hal). reflexivity.
Qed.
Lemma over_lin3 seen base c K A B C : over seen (fun p => c * (K + A * val h base p + B * val g base p + C * val gh base p)) ==
  c * (nq (length seen) * K + A * over seen (val h base) + B * over seen (val g base) + C * over seen (val gh base)).
Proof.
  rewrite over_scale. apply Qmult_comp; [reflexivity|].
  rewrite (over_add seen (fun p => K + A * val h base p + B * val g base p) (fun p => C * val gh base p)), (over_add seen (fun p => K + A * val h base p) (fun p => B * val g base p)), (over_add seen (fun p => K) (fun p => A * val h base p)).
  rewrite !over_scale, over_const. reflexivity.
Qed.
Lemma lin_choice seen base c K A B C f : seen <> [] -> Forall (fun j => (j < length base)%nat) seen ->
  (forall p, (p < length base)%nat -> f p == c * (K + A * val h base p + B * val g base p + C * val gh base p)) ->
  f (length base) == E1 (fun x => c * (K + A * h x + B * g x + C * gh x)) ->
  e_choice L (map Qred (urn_weights a (length base) seen)) f ==
  c * (K + (A * (over seen (val h base) + a * E1 h) + B * (over seen (val g base) + a * E1 g) + C * (over seen (val gh base) + a * E1 gh)) / (nq (length seen) + a)).
Proof.
  intros Hs Hk Hf Hn. pose proof (urn_pos seen Hs) as P. rewrite one_lin3 in Hn.
  rewrite (urn_choice (length base) seen f _ _ Hs Hk Hf Hn). rewrite over_lin3. field. lra.
Qed.
Lemma urn_two : forall n seen base labs i j, seen <> [] -> Forall (fun i => (i < length base)%nat) seen -> (length labs <= i < j)%nat -> (j < length labs + n)%nat ->
  tmean L (T (fun b l => g (at_pos b l i) * h (at_pos b l j)) n (length base) seen base labs) == pred2 seen base.
Proof.
  induction n; intros seen base labs i j Hs Hk Hi Hj; [lia|]. pose proof (urn_pos seen Hs) as P. cbn [urnT tmean].
  assert (PP : 0 < (nq (length seen) + a) * (nq (length seen) + a + 1)) by (apply Qmult_lt_0_compat; lra).
  destruct (Nat.eq_dec i (length labs)) as [->|Ne].
  - assert (X : forall base' seen' p x, seen' <> [] -> Forall (fun i => (i < length base')%nat) seen' -> (p < length base')%nat -> nth p base' 0 = x ->
        tmean L (T (fun b l => g (at_pos b l (length labs)) * h (at_pos b l j)) n (length base') seen' base' (labs ++ [p])) == g x * pred1 h seen' base').
    { intros base' seen' p x Hs' Hk' Hp Hx. rewrite <- pred1_scale by exact Hs'.
      rewrite (urn_ext _ (fun b l => g x * h (at_pos b l j)) n seen' base' (labs ++ [p]) Hs' Hk').
      - apply (urn_one (fun y => g x * h y)); auto. rewrite app_length. cbn. lia.
      - intros b l. rewrite at_new by exact Hp. rewrite Hx. reflexivity. }
    rewrite (lin_choice seen base (1 / (nq (length seen) + 1 + a)) 0 0 (over seen (val h base) + a * E1 h) 1 _ Hs Hk).
    + unfold pred2. field. split; lra.
    + intros p Hp. rewrite (proj2 (Nat.ltb_lt _ _)) by exact Hp. rewrite (X base (seen ++ [p]) p (nth p base 0)); auto; [|apply snoc_ne|apply snoc_lt; auto].
      unfold pred1. rewrite over_snoc, app_length. cbn [length]. rewrite Nat.add_1_r, nq_S. unfold val at 2 3 5 6, gh. field. lra.
    + rewrite Nat.ltb_irrefl. cbn [tmean]. apply (one_ext N L ML al Hal). intros x _.
      replace (S (length base)) with (length (base ++ [x])) by (rewrite app_length; cbn; lia).
      rewrite (X (base ++ [x]) (seen ++ [length base]) (length base) x).
      * unfold pred1. rewrite over_snoc, app_length. cbn [length]. rewrite Nat.add_1_r, nq_S, val_new, over_val by exact Hk. unfold gh. field. lra.
      * apply snoc_ne.
      * apply snoc_lt; rewrite app_length; cbn; [eapply Forall_impl; [|exact Hk]; cbn; lia|lia].
      * rewrite app_length; cbn; lia.
      * rewrite app_nth2, Nat.sub_diag by lia. reflexivity.
  - set (A := over seen (val g base) + a * E1 g). set (B := over seen (val h base) + a * E1 h). set (t := nq (length seen) + a).
    assert (Pt : 0 < t) by exact P.
    rewrite (lin_choice seen base (1 / ((t + 1) * (t + 2))) (A * B + over seen (val gh base) + a * E1 gh) A B 2 _ Hs Hk).
    + unfold pred2. fold A B t. field. repeat split; lra.
    + intros p Hp. rewrite (proj2 (Nat.ltb_lt _ _)) by exact Hp.
      rewrite IHn; [|apply snoc_ne|apply snoc_lt; auto|rewrite app_length; cbn; lia|rewrite app_length; cbn; lia].
      unfold pred2. rewrite !over_snoc, app_length. cbn [length]. rewrite Nat.add_1_r, nq_S. unfold A, B, t in *. change (val gh base p) with (val g base p * val h base p).
      field. repeat split; lra.
    + rewrite Nat.ltb_irrefl. cbn [tmean]. apply (one_ext N L ML al Hal). intros x _.
      replace (S (length base)) with (length (base ++ [x])) by (rewrite app_length; cbn; lia).
      rewrite IHn; [|apply snoc_ne|apply snoc_lt; rewrite app_length; cbn; [eapply Forall_impl; [|exact Hk]; cbn; lia|lia]|rewrite app_length; cbn; lia|rewrite app_length; cbn; lia].
      unfold pred2. rewrite !over_snoc, app_length. cbn [length]. rewrite Nat.add_1_r, nq_S, !val_new, !over_val by exact Hk. unfold A, B, t in *. change (gh x) with (g x * h x).
      field. repeat split; lra.
Qed.
End Pair.

Lemma map_at base labs j : (j < length labs)%nat -> nth j (map (fun p => nth p base 0) labs) 0 = at_pos base labs j.
Proof. intros H. unfold at_pos. rewrite (nth_indep _ 0 (nth 0%nat base 0)) by (rewrite map_length; exact H). apply (map_nth (fun p => nth p base 0)). Qed.

Lemma bid_stick n s phi j : d s = [] -> (j < n)%nat ->
  mean_of L (wm_random (CBID al a) (SInt (Z.of_nat n))) s (stick_fun phi j) (E1 phi).
Proof.
  intros Hd Hj. eexists. split; [apply (bid_follow al Hal a Ha n s _ (fun base labs => phi (at_pos base labs j)) Hd)|].
  - intros s' base ps Hl Hv _. unfold stick_fun. rewrite Hv, map_at by lia. reflexivity.
  - cbn [tmean]. transitivity (E1 (fun x => (1 / (1 + a)) * phi x + (1 / (1 + a)) * (a * E1 phi))).
    + apply (one_ext N L ML al Hal). intros x _. change 1%nat with (length [x]).
      rewrite (urn_one phi n [0%nat] [x] [] j); [|discriminate|constructor; [cbn; lia|constructor]|cbn; lia].
      unfold pred1, over, val. cbn. change (nq 1) with 1. field. lra.
    + rewrite (one_lin N L ML al Hal). field. lra.
Qed.
Lemma bid_two n s g h i j : d s = [] -> (i < j < n)%nat ->
  mean_of L (wm_random (CBID al a) (SInt (Z.of_nat n))) s (stick_pair g h i j) (two_sticks L al (1 / (1 + a)) g h).
Proof.
  intros Hd Hj. eexists. split; [apply (bid_follow al Hal a Ha n s _ (fun base labs => g (at_pos base labs i) * h (at_pos base labs j)) Hd)|].
  - intros s' base ps Hl Hv _. unfold stick_pair. rewrite Hv, !map_at by lia. reflexivity.
  - cbn [tmean]. transitivity (E1 (fun x => (1 / ((1 + a) * (2 + a))) * ((a * E1 g * (a * E1 h) + a * E1 (gh g h)) + (a * E1 g) * h x + (a * E1 h) * g x + 2 * gh g h x))).
    + apply (one_ext N L ML al Hal). intros x _. change 1%nat with (length [x]).
      rewrite (urn_two g h n [0%nat] [x] [] i j); [|discriminate|constructor; [cbn; lia|constructor]|cbn; lia|cbn; lia].
      unfold pred2, over, val. cbn. change (nq 1) with 1. unfold gh. field. split; lra.
    + rewrite one_lin3. unfold two_sticks. fold (gh g h). change (one_stick L al (fun x => g x * h x)) with (E1 (gh g h)). field. split; lra.
Qed.
End Law.
