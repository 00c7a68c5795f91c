(* Means over the sticks of BetaBinomial, and the first two weights of the
   dependent-stick classes. *)
From Coq Require Import Lqa Field QArith.Qfield.
From Verif Require Import Prelude Numpy Rng M_Weights S_Weights S_Hist S_Draws S_More S_Urn S_Moment P_Lists P_Wp P_Post P_More P_Urn P_UrnEppf P_MomentLaw P_Moment P_MomentInd P_MomentDep P_MomentUrn.
Open Scope Q_scope.

Definition quad (c : Q * Q * Q) (x : Q) : Q := let '(c0, c1, c2) := c in c0 + c1 * x + c2 * (x * x).
Section Law.
Variables (N : nat) (L : law).
Hypothesis ML : moments N L.
Hypothesis HN : (2 <= N)%nat.

Lemma beta_quad a b c : 0 < a -> 0 < b -> e_beta L a b (quad c) == quad c 0 + (let '(_, c1, c2) := c in c1 * (a / (a + b)) + c2 * (a * (a + 1) / ((a + b) * (a + b + 1)))).
Proof.
  intros Ha Hb. destruct c as [[c0 c1] c2]. unfold quad.
  rewrite (beta_ext N L ML a b _ (fun x => (c0 * (qpow x 0 * qpow (1 - x) 0) + c1 * (qpow x 1 * qpow (1 - x) 0)) + c2 * (qpow x 2 * qpow (1 - x) 0))) by (intros; cbn; ring).
  rewrite (beta_add N L ML a b (fun x => c0 * (qpow x 0 * qpow (1 - x) 0) + c1 * (qpow x 1 * qpow (1 - x) 0)) (fun x => c2 * (qpow x 2 * qpow (1 - x) 0))) by assumption.
  rewrite (beta_add N L ML a b (fun x => c0 * (qpow x 0 * qpow (1 - x) 0)) (fun x => c1 * (qpow x 1 * qpow (1 - x) 0))) by assumption.
  rewrite !(beta_scale N L ML) by assumption. rewrite !(beta_mom N L ML) by (auto; lia). rewrite bm10, bm20 by assumption. unfold beta_moment. cbn. field.
  repeat split; lra.
Qed.

Variables (n : Z) (al : Q).
Hypothesis Hn : (0 <= n)%Z.
Hypothesis Hal : 0 < al.
Lemma zq_n : 0 <= zq n. Proof. unfold zq. change 0 with (inject_Z 0). rewrite <- Zle_Qle. exact Hn. Qed.
Lemma zq_b b : (0 <= b <= n)%Z -> 0 <= zq b <= zq n.
Proof. intros H. unfold zq. change 0 with (inject_Z 0). rewrite <- !Zle_Qle. exact H. Qed.
Definition D1 : Q := 1 + al + zq n.
Definition D2 : Q := 2 + al + zq n.
Definition step (c : Q * Q * Q) : Q * Q * Q :=
  let '(c0, c1, c2) := c in
  (c0 + c1 / D1 + 2 * c2 / (D1 * D2), zq n * c1 / D1 + 4 * zq n * c2 / (D1 * D2), zq n * (zq n - 1) * c2 / (D1 * D2)).
Lemma bin_step x f c : 0 <= x <= 1 ->
  (forall b y, (0 <= b <= n)%Z -> 0 <= y <= 1 -> f b y == quad c y) ->
  e_binom L n (Qred x) (fun b => e_beta L (Qred (1 + zq b)) (Qred (al + zq n - zq b)) (f b)) == quad (step c) x.
Proof.
  intros Hx Hf. assert (Hr : 0 <= Qred x <= 1) by (rewrite Qred_correct; exact Hx). pose proof zq_n as Zn.
  destruct c as [[c0 c1] c2].
  rewrite (binom_ext N L ML n (Qred x) _ (fun b => (c0 + c1 / D1 + 2 * c2 / (D1 * D2)) * 1 + ((c1 / D1 + 3 * c2 / (D1 * D2)) * zq b + (c2 / (D1 * D2)) * (zq b * zq b)))).
  - rewrite (binom_add N L ML n (Qred x) (fun b => (c0 + c1 / D1 + 2 * c2 / (D1 * D2)) * 1) (fun b => (c1 / D1 + 3 * c2 / (D1 * D2)) * zq b + (c2 / (D1 * D2)) * (zq b * zq b))) by assumption.
    rewrite (binom_add N L ML n (Qred x) (fun b => (c1 / D1 + 3 * c2 / (D1 * D2)) * zq b) (fun b => (c2 / (D1 * D2)) * (zq b * zq b))) by assumption.
    rewrite !(binom_scale N L ML) by assumption. rewrite (binom_one N L ML), (binom_mean N L ML), (binom_square N L ML) by assumption. rewrite Qred_correct. unfold quad, step, D1, D2. field. split; lra.
  - intros b C. destruct (C Hn) as (R & _). specialize (R Hr). pose proof (zq_b b R) as B.
    rewrite (beta_ext N L ML _ _ (f b) (quad (c0, c1, c2))).
    + rewrite beta_quad by (rewrite Qred_correct; lra). rewrite !Qred_correct. unfold quad, D1, D2. field. repeat split; lra.
    + intros y Cy. apply Hf; [exact R|]. apply Cy; rewrite Qred_correct; lra.
Qed.

Fixpoint chainT (F : list Q -> Q) (k : nat) (x : Q) (acc : list Q) : tree :=
  match k with
  | O => Leaf (F acc)
  | S k => ABinom n (Qred x) (fun b => ABeta (Qred (1 + zq b)) (Qred (al + zq n - zq b)) (fun y => chainT F k y (acc ++ [y])))
  end.
Lemma follow_chain F o : forall k x acc g, follow (chainT F k x acc) o g = (F (acc ++ snd (bbin_chain o n al k g x)), g ++ fst (bbin_chain o n al k g x)).
Proof.
  induction k; intros x acc g; cbn [chainT follow bbin_chain fst snd]; [rewrite !app_nil_r; reflexivity|].
  rewrite IHk. unfold rbinom, rbeta. rewrite <- !app_assoc. reflexivity.
Qed.
Lemma chain_fixed F y : forall k x acc, 0 <= x <= 1 -> (forall l, F (acc ++ l) == y) -> tmean L (chainT F k x acc) == y.
Proof.
  induction k; intros x acc Hx HF; cbn [chainT tmean].
  - specialize (HF []). rewrite app_nil_r in HF. exact HF.
  - rewrite (bin_step x (fun b y0 => tmean L (chainT F k y0 (acc ++ [y0]))) (y, 0, 0) Hx).
    + unfold quad, step. pose proof zq_n. unfold D1, D2. field. split; lra.
    + intros b z _ Hz. unfold quad. rewrite IHk; [ring|exact Hz|]. intros l. rewrite <- app_assoc. apply HF.
Qed.
Fixpoint steps (i : nat) (c : Q * Q * Q) : Q * Q * Q := match i with O => c | S i => step (steps i c) end.
Lemma chain_quad c : forall k x acc j, 0 <= x <= 1 -> (length acc <= j < length acc + k)%nat ->
  tmean L (chainT (fun l => quad c (nth j l 0)) k x acc) == quad (steps (S (j - length acc)) c) x.
Proof.
  induction k; intros x acc j Hx Hj; [lia|]. cbn [chainT tmean]. change (steps (S (j - length acc)) c) with (step (steps (j - length acc) c)). apply bin_step; [exact Hx|].
  intros b y _ Hy. destruct (Nat.eq_dec j (length acc)) as [->|Ne].
  - rewrite Nat.sub_diag. cbn [steps]. apply chain_fixed; [exact Hy|]. intros l. rewrite <- app_assoc. rewrite app_nth2, Nat.sub_diag by lia. reflexivity.
  - rewrite IHk; [|exact Hy|rewrite app_length; cbn; lia]. rewrite app_length. cbn [length]. replace (S (j - (length acc + 1)))%nat with (j - length acc)%nat by lia. reflexivity.
Qed.
(* the prior of the sticks is stationary *)
Definition start (c : Q * Q * Q) : Q := let '(c0, c1, c2) := c in c0 + c1 / (1 + al) + c2 * (2 / ((1 + al) * (2 + al))).
Lemma start_step c : start (step c) == start c.
Proof. destruct c as [[c0 c1] c2]. unfold start, step, D1, D2. pose proof zq_n. field. repeat split; lra. Qed.
Lemma start_steps c i : start (steps i c) == start c.
Proof. induction i; [reflexivity|]. cbn [steps]. rewrite start_step. exact IHi. Qed.
Lemma one_quad c : one_stick L al (quad c) == start c.
Proof.
  unfold one_stick. assert (0 < Qred al) by (rewrite Qred_correct; exact Hal). destruct c as [[c0 c1] c2]. rewrite beta_quad by lra. rewrite !Qred_correct. unfold quad, start. field. repeat split; lra.
Qed.

Lemma bbin_follow k s f F : d s = [] -> (0 < k)%nat ->
  (forall s', length (v s') = k -> stick_image (v s') (w s') -> f (Ok (w s')) s' == F (v s')) ->
  forall o g, valid_oracle o ->
  let '(r, s', g') := wm_random (CBBin n al) (SInt (Z.of_nat k)) o s g in
  let '(z, g'') := follow (ABeta 1 (Qred al) (fun x => chainT F k x [])) o g in g' = g'' /\ f r s' == z.
Proof.
  intros Hd Hk HF o g V. pose proof (c12_prior_gen n al k o s g V Hn Hal Hd Hk) as X. unfold wp in X. cbv zeta in X.
  destruct (wm_random _ _ o s g) as [[r s'] g']. destruct X as (-> & Hg & Hv & Hw & _). cbn [follow]. rewrite follow_chain. cbn [app]. change (Qred 1) with 1 in *.
  split; [rewrite Hg; unfold rbeta; rewrite <- app_assoc; reflexivity|]. rewrite <- app_assoc || idtac.
  rewrite HF; [unfold rbeta in Hv; change (Qred 1) with 1 in Hv; rewrite Hv; reflexivity| |exact Hw].
  rewrite Hv. clear. generalize (o_beta o g 1 (Qred al)), (g ++ [rbeta 1 al]). induction k; intros; cbn; [reflexivity|]. rewrite IHk. reflexivity.
Qed.
Lemma bbin_stick k s c j : d s = [] -> (j < k)%nat ->
  mean_of L (wm_random (CBBin n al) (SInt (Z.of_nat k))) s (stick_fun (quad c) j) (start c).
Proof.
  intros Hd Hj. eexists. split; [apply (bbin_follow k s _ (fun l => quad c (nth j l 0)) Hd); [lia|intros; reflexivity]|].
  cbn [tmean]. rewrite <- (start_steps c (S j)), <- one_quad. apply (one_ext N L ML al Hal). intros x Hx.
  rewrite chain_quad by (auto; cbn; lia). cbn [length]. rewrite Nat.sub_0_r. reflexivity.
Qed.
Lemma bbin_w1 k s : d s = [] -> (2 <= k)%nat ->
  mean_of L (wm_random (CBBin n al) (SInt (Z.of_nat k))) s (weight 1) (al * (2 + al + zq n) / ((1 + al) * (2 + al) * (1 + al + zq n))).
Proof.
  intros Hd Hj. pose proof zq_n as Zn. eexists. split; [apply (bbin_follow k s _ (fun l => nth 1 l 0 * (1 - nth 0 l 0)) Hd); [lia|]|].
  - intros s' Hl (Hw & H). unfold weight. rewrite H by lia. destruct (v s') as [|v0 t]; [cbn in Hl; lia|]. cbn. ring.
  - cbn [tmean]. destruct k as [|[|k]]; try lia.
    transitivity (one_stick L al (quad (step (1 / D1, (zq n - 1) / D1, - zq n / D1)))).
    + apply (one_ext N L ML al Hal). intros x Hx. cbn [chainT tmean]. apply bin_step; [exact Hx|]. intros b y _ Hy.
      rewrite (bin_step y (fun _ z => tmean L (chainT (fun l => nth 1 l 0 * (1 - nth 0 l 0)) k z (([] ++ [y]) ++ [z]))) (0, 1 - y, 0) Hy).
      * unfold quad, step, D1, D2. field. split; lra.
      * intros b' z _ Hz. apply chain_fixed; [exact Hz|]. intros l. cbn. ring.
    + rewrite one_quad, start_step. unfold start, D1. field. repeat split; lra.
Qed.
End Law.

(* ---- weights from sticks ---- *)
Lemma mean_same L {S A} (m : M S A) s f h y : (forall o g, valid_oracle o -> let '(r, s', g') := m o s g in h r s' == f r s') -> mean_of L m s f y -> mean_of L m s h y.
Proof.
  intros H (t & Ht & E). exists t. split; [|exact E]. intros o g V. specialize (H o g V). specialize (Ht o g V).
  destruct (m o s g) as [[r s'] g']. destruct (follow t o g) as [z g'']. destruct Ht as (A1 & A2). split; [exact A1|]. rewrite H. exact A2.
Qed.

Definition sticks_of (k : nat) (r : res (list Q)) (s : ws) : Prop := r = Ok (w s) /\ length (v s) = k /\ stick_image (v s) (w s).
Lemma w_0 k r s : (1 <= k)%nat -> sticks_of k r s -> weight 0 r s == stick_fun (fun x => x) 0 r s.
Proof. intros Hk (-> & Hl & _ & H). unfold weight, stick_fun. rewrite H by lia. cbn. ring. Qed.
Lemma w_1 k r s : (2 <= k)%nat -> sticks_of k r s -> weight 1 r s == stick_pair (fun x => 1 - x) (fun x => x) 0 1 r s.
Proof. intros Hk (-> & Hl & _ & H). unfold weight, stick_pair. rewrite H by lia. destruct (v s) as [|v0 t]; [cbn in Hl; lia|]. cbn. ring. Qed.
Lemma w_01 k r s : (2 <= k)%nat -> sticks_of k r s -> weights2 0 1 r s == stick_pair (fun x => x * (1 - x)) (fun x => x) 0 1 r s.
Proof. intros Hk H. unfold weights2. rewrite (w_0 k), (w_1 k) by (auto; lia). unfold stick_pair, stick_fun. ring. Qed.

Section Two.
Variables (N : nat) (L : law).
Hypothesis ML : moments N L.
Hypothesis HN : (3 <= N)%nat.
Variable al : Q.
Hypothesis Hal : 0 < al.
Lemma one_mom i j : (i + j <= N)%nat -> one_stick L al (fun x => qpow x i * qpow (1 - x) j) == beta_moment 1 al i j.
Proof. intros H. unfold one_stick. assert (0 < Qred al) by (rewrite Qred_correct; exact Hal). rewrite (beta_mom N L ML) by (auto; lra). rewrite Qred_correct. reflexivity. Qed.
Lemma one_x : one_stick L al (fun x => x) == 1 / (1 + al).
Proof. rewrite (one_ext N L ML al Hal _ (fun x => qpow x 1 * qpow (1 - x) 0)) by (intros; cbn; ring). rewrite one_mom by lia. unfold beta_moment. cbn. field. lra. Qed.
Lemma one_1x : one_stick L al (fun x => 1 - x) == al / (1 + al).
Proof. rewrite (one_ext N L ML al Hal _ (fun x => qpow x 0 * qpow (1 - x) 1)) by (intros; cbn; ring). rewrite one_mom by lia. unfold beta_moment. cbn. field. lra. Qed.
Lemma one_x1x : one_stick L al (fun x => x * (1 - x)) == al / ((1 + al) * (2 + al)).
Proof. rewrite (one_ext N L ML al Hal _ (fun x => qpow x 1 * qpow (1 - x) 1)) by (intros; cbn; ring). rewrite one_mom by lia. unfold beta_moment. cbn. field. lra. Qed.
Lemma one_xx1x : one_stick L al (fun x => x * (1 - x) * x) == 2 * al / ((1 + al) * (2 + al) * (3 + al)).
Proof. rewrite (one_ext N L ML al Hal _ (fun x => qpow x 2 * qpow (1 - x) 1)) by (intros; cbn; ring). rewrite one_mom by lia. unfold beta_moment. cbn. field. lra. Qed.

Lemma two_w1 t : two_sticks L al t (fun x => 1 - x) (fun x => x) == t * (al / ((1 + al) * (2 + al))) + (1 - t) * (al / ((1 + al) * (1 + al))).
Proof.
  unfold two_sticks. rewrite (one_ext N L ML al Hal (fun x => (1 - x) * x) (fun x => x * (1 - x))) by (intros; ring). rewrite one_x, one_1x, one_x1x. field. lra.
Qed.
Lemma two_w01 t : two_sticks L al t (fun x => x * (1 - x)) (fun x => x) ==
  t * (2 * al / ((1 + al) * (2 + al) * (3 + al))) + (1 - t) * (al / ((1 + al) * (1 + al) * (2 + al))).
Proof. unfold two_sticks. rewrite one_x, one_x1x, one_xx1x. field. lra. Qed.

Lemma bb_sticks q k o s g : valid_oracle o -> 0 <= q <= 1 -> d s = [] -> bern s <> [] -> (0 < k)%nat ->
  let '(r, s', g') := wm_random (CBB q al) (SInt (Z.of_nat k)) o s g in sticks_of k r s'.
Proof.
  intros V Hq Hd Hb Hk. pose proof (c63_prior_proof q al k o s g V Hq Hal Hd Hb Hk) as X. unfold ends_with in X. cbv zeta in X.
  destruct (wm_random _ _ o s g) as [[r s'] g']. destruct X as (Hr & _ & (x & fr & _ & Hv) & X). split; [exact Hr|]. split; [|apply X].
  rewrite Hv. clear. rewrite <- (binom_answers_len o q k g) at 2.
  generalize (binom_answers o g (repeat (rbinom 1 q) k)). intros ms. revert x fr. induction ms as [|m ms IH]; intros; cbn; [reflexivity|]. destruct (m =? 0)%Z; cbn; rewrite IH; reflexivity.
Qed.
Lemma bid_sticks a k o s g : valid_oracle o -> 0 <= a -> d s = [] ->
  let '(r, s', g') := wm_random (CBID al a) (SInt (Z.of_nat k)) o s g in sticks_of k r s'.
Proof.
  intros V Ha Hd. destruct (c100_prior_proof al a k o s g V Hal Ha Hd) as (ps & s' & g' & E & _ & U). rewrite E. destruct U as (Hl & _ & _ & _ & _ & Hv & _ & Hw & _).
  split; [reflexivity|]. split; [|exact Hw]. rewrite Hv. cbn. rewrite map_length. exact Hl.
Qed.

Lemma bb_w q k s : 0 <= q <= 1 -> d s = [] -> bern s <> [] -> (2 <= k)%nat ->
  mean_of L (wm_random (CBB q al) (SInt (Z.of_nat k))) s (weight 0) (1 / (1 + al)) /\
  mean_of L (wm_random (CBB q al) (SInt (Z.of_nat k))) s (weight 1) ((1 - q) * (al / ((1 + al) * (2 + al))) + q * (al / ((1 + al) * (1 + al)))) /\
  mean_of L (wm_random (CBB q al) (SInt (Z.of_nat k))) s (weights2 0 1)
    ((1 - q) * (2 * al / ((1 + al) * (2 + al) * (3 + al))) + q * (al / ((1 + al) * (1 + al) * (2 + al)))).
Proof.
  intros Hq Hd Hb Hk.
  assert (O : forall f h, (forall r s', sticks_of k r s' -> h r s' == f r s') -> forall o g, valid_oracle o -> let '(r, s', g') := wm_random (CBB q al) (SInt (Z.of_nat k)) o s g in h r s' == f r s').
  { intros f h H o g V. pose proof (bb_sticks q k o s g V Hq Hd Hb ltac:(lia)) as X. destruct (wm_random _ _ o s g) as [[r s'] g']. apply H, X. }
  split; [|split].
  - eapply mean_eq; [eapply mean_same; [apply (O (stick_fun (fun x => x) 0)); intros; apply (w_0 k); auto; lia|apply (bb_stick N L ML al Hal); auto; lia]|apply one_x].
  - eapply mean_eq; [eapply mean_same; [apply (O (stick_pair (fun x => 1 - x) (fun x => x) 0 1)); intros; apply (w_1 k); auto|apply (bb_two N L ML al Hal); auto; lia]|].
    rewrite two_w1. cbn. field. lra.
  - eapply mean_eq; [eapply mean_same; [apply (O (stick_pair (fun x => x * (1 - x)) (fun x => x) 0 1)); intros; apply (w_01 k); auto|apply (bb_two N L ML al Hal); auto; lia]|].
    rewrite two_w01. cbn. field. lra.
Qed.
Lemma bid_w a k s : 0 <= a -> d s = [] -> (2 <= k)%nat ->
  mean_of L (wm_random (CBID al a) (SInt (Z.of_nat k))) s (weight 0) (1 / (1 + al)) /\
  mean_of L (wm_random (CBID al a) (SInt (Z.of_nat k))) s (weight 1) ((1 / (1 + a)) * (al / ((1 + al) * (2 + al))) + (a / (1 + a)) * (al / ((1 + al) * (1 + al)))) /\
  mean_of L (wm_random (CBID al a) (SInt (Z.of_nat k))) s (weights2 0 1)
    ((1 / (1 + a)) * (2 * al / ((1 + al) * (2 + al) * (3 + al))) + (a / (1 + a)) * (al / ((1 + al) * (1 + al) * (2 + al)))).
Proof.
  intros Ha Hd Hk.
  assert (O : forall f h, (forall r s', sticks_of k r s' -> h r s' == f r s') -> forall o g, valid_oracle o -> let '(r, s', g') := wm_random (CBID al a) (SInt (Z.of_nat k)) o s g in h r s' == f r s').
  { intros f h H o g V. pose proof (bid_sticks a k o s g V Ha Hd) as X. destruct (wm_random _ _ o s g) as [[r s'] g']. apply H, X. }
  split; [|split].
  - eapply mean_eq; [eapply mean_same; [apply (O (stick_fun (fun x => x) 0)); intros; apply (w_0 k); auto; lia|apply (bid_stick N L ML al a Hal Ha); auto; lia]|apply one_x].
  - eapply mean_eq; [eapply mean_same; [apply (O (stick_pair (fun x => 1 - x) (fun x => x) 0 1)); intros; apply (w_1 k); auto|apply (bid_two N L ML al a Hal Ha); auto; lia]|].
    rewrite two_w1. field. lra.
  - eapply mean_eq; [eapply mean_same; [apply (O (stick_pair (fun x => x * (1 - x)) (fun x => x) 0 1)); intros; apply (w_01 k); auto|apply (bid_two N L ML al a Hal Ha); auto; lia]|].
    rewrite two_w01. field. lra.
Qed.
End Two.

(* ---- the property lemmas ---- *)
Lemma any_same L {S A} (m : M S A) s f h y : (forall r s', h r s' == f r s') -> mean_of L m s f y -> mean_of L m s h y.
Proof. intros H. apply mean_same. intros o g _. destruct (m o s g) as [[r s'] g']. apply H. Qed.
Lemma bbin_stick_moments N L n al k s j : moments N L -> (2 <= N)%nat -> (0 <= n)%Z -> 0 < al -> d s = [] -> (j < k)%nat ->
  mean_of L (wm_random (CBBin n al) (SInt (Z.of_nat k))) s (stick_at j) (1 / (1 + al)) /\
  mean_of L (wm_random (CBBin n al) (SInt (Z.of_nat k))) s (stick2 j) (2 / ((1 + al) * (2 + al))).
Proof.
  intros ML HN Hn Hal Hd Hj. split.
  - eapply mean_eq; [eapply any_same; [|apply (bbin_stick N L ML HN n al Hn Hal k s (0, 1, 0) j Hd Hj)]|].
    + intros. unfold stick_at, stick_fun, quad. ring.
    + unfold start. field. lra.
  - eapply mean_eq; [eapply any_same; [|apply (bbin_stick N L ML HN n al Hn Hal k s (0, 0, 1) j Hd Hj)]|].
    + intros. unfold stick2, stick_fun, quad. ring.
    + unfold start. field. lra.
Qed.
Lemma py_not_the_process N L pd al n s : moments N L -> (1 <= N)%nat -> 0 < pd -> pd < 1 -> 0 < al -> d s = [] -> (0 < n)%nat ->
  ~ mean_of L (wm_random (CPY pd al) (SInt (Z.of_nat n))) s (weight 0) ((1 - pd) / (1 + al)).
Proof.
  intros ML HN H0 H1 Hal Hd Hn H.
  assert (X := py_mean N L pd al n s 0 ML HN ltac:(unfold py_ok; repeat split; lra) Hd Hn).
  pose proof (mean_unique N L _ s _ _ _ ML H X) as E. cbn in E. change (nq 0) with 0 in E.
  assert (A : (1 - pd) / (1 - pd + (al + 0 * pd)) * 1 == (1 - pd) / (1 + al - pd)) by (field; lra). rewrite A in E.
  assert (B : (1 - pd) * (1 + al - pd) == (1 - pd) * (1 + al)).
  { assert (C : (1 - pd) / (1 + al) * ((1 + al) * (1 + al - pd)) == (1 - pd) / (1 + al - pd) * ((1 + al) * (1 + al - pd))) by (rewrite E; reflexivity).
    assert (C1 : (1 - pd) / (1 + al) * ((1 + al) * (1 + al - pd)) == (1 - pd) * (1 + al - pd)) by (field; lra).
    assert (C2 : (1 - pd) / (1 + al - pd) * ((1 + al) * (1 + al - pd)) == (1 - pd) * (1 + al)) by (field; lra). rewrite <- C1, <- C2. exact C. }
  assert (D : 0 < (1 - pd) * pd) by (apply Qmult_lt_0_compat; lra).
  assert (F : (1 - pd) * (1 + al - pd) == (1 - pd) * (1 + al) - (1 - pd) * pd) by ring. rewrite F in B. lra.
Qed.
