(* Means over independent sticks, and the single stick of GeometricProcess. *)
From Coq Require Import Lqa Field QArith.Qfield.
From Verif Require Import Prelude Numpy Rng M_Weights S_Weights S_Hist S_Draws S_Moment P_Post P_More P_Bib.
Open Scope Q_scope.

Definition is_beta (r : req) : Prop := exists a b, r = rbeta a b.
Definition beta_pos (r : req) : Prop := exists a b, r = RBeta a b /\ 0 < a /\ 0 < b.

(* ask all of rs, then go on with the list of answers *)
Fixpoint asks (rs : list req) (k : list Q -> tree) : tree :=
  match rs with
  | RBeta a b :: t => ABeta a b (fun x => asks t (fun xs => k (x :: xs)))
  | _ => k []
  end.
Lemma follow_asks rs : Forall beta_pos rs -> forall k o g, follow (asks rs k) o g = follow (k (beta_answers o g rs)) o (g ++ rs).
Proof.
  induction 1 as [|r rs (a & b & -> & _ & _) H IH]; intros k o g; cbn [asks follow beta_answers]; [rewrite app_nil_r; reflexivity|].
  rewrite IH, <- app_assoc. reflexivity.
Qed.

(* products of powers of the answers *)
Definition mono (e : nat * nat) (x : Q) : Q := qpow x (fst e) * qpow (1 - x) (snd e).
Fixpoint monos (es : list (nat * nat)) (xs : list Q) : Q :=
  match es, xs with e :: es', x :: xs' => mono e x * monos es' xs' | _, _ => 1 end.
Definition req_moment (r : req) (e : nat * nat) : Q := match r with RBeta a b => beta_moment a b (fst e) (snd e) | _ => 1 end.
Fixpoint moments_prod (rs : list req) (es : list (nat * nat)) : Q :=
  match rs, es with r :: rs', e :: es' => req_moment r e * moments_prod rs' es' | _, _ => 1 end.

Section Law.
Variables (N : nat) (L : law).
Hypothesis ML : moments N L.

Lemma beta_all a b f h : (forall x, f x == h x) -> e_beta L a b f == e_beta L a b h.
Proof. intros H. apply (beta_ext N L ML). intros; apply H. Qed.
Lemma beta_one a b : 0 < a -> 0 < b -> e_beta L a b (fun _ => 1) == 1.
Proof.
  intros Ha Hb. rewrite (beta_all a b (fun _ => 1) (fun x => qpow x 0 * qpow (1 - x) 0)) by (intros; cbn; ring).
  rewrite (beta_mom N L ML a b 0 0) by (auto; lia). unfold beta_moment. cbn. reflexivity.
Qed.
Lemma beta_const a b c : 0 < a -> 0 < b -> e_beta L a b (fun _ => c) == c.
Proof.
  intros Ha Hb. rewrite (beta_all a b (fun _ => c) (fun x => c * 1)) by (intros; ring).
  rewrite (beta_scale N L ML) by auto. rewrite beta_one by auto. ring.
Qed.

Lemma tmean_asks rs : Forall beta_pos rs -> forall es c k, Forall (fun e => (fst e + snd e <= N)%nat) es ->
  (forall xs, length xs = length rs -> exists y, k xs = Leaf y /\ y == c * monos es xs) ->
  tmean L (asks rs k) == c * moments_prod rs es.
Proof.
  induction 1 as [|r rs (a & b & -> & Ha & Hb) H IH]; intros es c k HN HK; cbn [asks].
  - destruct (HK [] eq_refl) as (y & -> & E). cbn [tmean]. rewrite E. destruct es; cbn; ring.
  - cbn [tmean]. destruct es as [|e es].
    + rewrite (beta_all a b _ (fun _ => c)).
      * rewrite beta_const by auto. cbn. ring.
      * intros x. rewrite (IH [] c); [destruct rs; cbn; ring|constructor|].
        intros xs Hl. destruct (HK (x :: xs)) as (y & E1 & E2); [cbn; lia|]. exists y. split; [exact E1|]. rewrite E2. cbn. ring.
    + inversion HN as [|? ? HN1 HN2]; subst. rewrite (beta_all a b _ (fun x => (c * moments_prod rs es) * mono e x)).
      * rewrite (beta_scale N L ML) by auto. unfold mono. rewrite (beta_mom N L ML) by auto. cbn [moments_prod req_moment]. ring.
      * intros x. rewrite (IH es (c * mono e x)); [ring|exact HN2|].
        intros xs Hl. destruct (HK (x :: xs)) as (y & E1 & E2); [cbn; lia|]. exists y. split; [exact E1|]. rewrite E2. cbn [monos]. ring.
Qed.

Lemma beta_answers_length rs : Forall beta_pos rs -> forall o g, length (beta_answers o g rs) = length rs.
Proof. induction 1 as [|r rs (a & b & -> & _ & _) H IH]; intros o g; cbn; [reflexivity|]. rewrite IH. reflexivity. Qed.

(* a call that makes the requests rs and whose observable is a product of
   powers of the answers *)
Lemma mean_independent {S A} (m : M S A) (s : S) (f : res A -> S -> Q) rs es :
  Forall beta_pos rs -> Forall (fun e => (fst e + snd e <= N)%nat) es ->
  (forall o g, valid_oracle o -> ends_with (m o s g) (fun r s' g' => g' = g ++ rs /\ f r s' == monos es (beta_answers o g rs))) ->
  mean_of L m s f (moments_prod rs es).
Proof.
  intros HR HE H. exists (asks rs (fun xs => Leaf (monos es xs))). split.
  - intros o g V. specialize (H o g V). rewrite (follow_asks rs HR). cbn [follow]. unfold ends_with in H. destruct (m o s g) as [[r s'] g']. exact H.
  - rewrite (tmean_asks rs HR es 1); [ring|exact HE|]. intros xs _. eexists. split; [reflexivity|]. ring.
Qed.
End Law.

(* exponents of a weight and of a product of two weights *)
Definition w1_exps (j : nat) : list (nat * nat) := repeat (0, 1)%nat j ++ [(1, 0)]%nat.
Definition w2_exps (i j : nat) : list (nat * nat) :=
  if Nat.eqb i j then repeat (0, 2)%nat i ++ [(2, 0)]%nat
  else repeat (0, 2)%nat i ++ [(1, 1)]%nat ++ repeat (0, 1)%nat (j - i - 1) ++ [(1, 0)]%nat.

Lemma monos_w1 j : forall xs, (j < length xs)%nat ->
  monos (w1_exps j) xs == nth j xs 0 * qproduct (map (fun x => 1 - x) (firstn j xs)).
Proof.
  unfold w1_exps. induction j; intros [|x xs] H; cbn in H; try lia.
  - cbn. unfold mono. cbn. ring.
  - cbn [repeat app monos nth firstn map qproduct fold_right]. rewrite IHj by lia. unfold qproduct, mono. cbn. ring.
Qed.
Lemma monos_w2_eq j : forall xs, (j < length xs)%nat ->
  monos (repeat (0, 2)%nat j ++ [(2, 0)]%nat) xs == nth j xs 0 * qproduct (map (fun x => 1 - x) (firstn j xs)) * (nth j xs 0 * qproduct (map (fun x => 1 - x) (firstn j xs))).
Proof.
  induction j; intros [|x xs] H; cbn in H; try lia.
  - cbn. unfold mono. cbn. ring.
  - cbn [repeat app monos nth firstn map qproduct fold_right]. rewrite IHj by lia. unfold qproduct, mono. cbn. ring.
Qed.
Lemma monos_w2_lt i : forall j xs, (i < j)%nat -> (j < length xs)%nat ->
  monos (repeat (0, 2)%nat i ++ (1, 1)%nat :: w1_exps (j - i - 1)) xs ==
  nth i xs 0 * qproduct (map (fun x => 1 - x) (firstn i xs)) * (nth j xs 0 * qproduct (map (fun x => 1 - x) (firstn j xs))).
Proof.
  induction i; intros [|j] [|x xs] Hj H; cbn in H; try lia.
  - replace (S j - 0 - 1)%nat with j by lia. cbn [repeat app monos nth firstn map qproduct fold_right]. rewrite monos_w1 by lia. unfold qproduct, mono. cbn. ring.
  - replace (S j - S i - 1)%nat with (j - i - 1)%nat by lia. cbn [repeat app monos nth firstn map qproduct fold_right].
    rewrite IHi by lia. unfold qproduct, mono. cbn. ring.
Qed.
Lemma monos_w2 i j xs : (i <= j)%nat -> (j < length xs)%nat ->
  monos (w2_exps i j) xs == nth i xs 0 * qproduct (map (fun x => 1 - x) (firstn i xs)) * (nth j xs 0 * qproduct (map (fun x => 1 - x) (firstn j xs))).
Proof.
  intros H Hj. unfold w2_exps. destruct (Nat.eqb_spec i j) as [->|]; [apply monos_w2_eq; exact Hj|]. apply monos_w2_lt; lia.
Qed.
Lemma w1_le N j : (1 <= N)%nat -> Forall (fun e => (fst e + snd e <= N)%nat) (w1_exps j).
Proof. intros H. unfold w1_exps. apply Forall_app. split; [|repeat constructor; exact H]. apply Forall_forall. intros e He. apply repeat_spec in He. subst. exact H. Qed.
Lemma w2_le N i j : (2 <= N)%nat -> Forall (fun e => (fst e + snd e <= N)%nat) (w2_exps i j).
Proof.
  intros H. assert (R : forall e k, (fst e + snd e <= 2)%nat -> Forall (fun e => (fst e + snd e <= N)%nat) (repeat e k)).
  { intros e k He. apply Forall_forall. intros x Hx. apply repeat_spec in Hx. subst. lia. }
  unfold w2_exps. destruct (Nat.eqb i j).
  - apply Forall_app. split; [apply R; cbn; lia|]. constructor; [cbn; lia|constructor].
  - apply Forall_app. split; [apply R; cbn; lia|]. constructor; [cbn; lia|]. apply Forall_app. split; [apply R; cbn; lia|]. constructor; [cbn; lia|constructor].
Qed.

(* the first two moments of the weights of a call that draws independent sticks *)
Lemma drawn_mean N L (m : M ws (list Q)) s rs j : moments N L -> (1 <= N)%nat -> Forall beta_pos rs -> (j < length rs)%nat ->
  (forall o g, valid_oracle o -> ends_with (m o s g) (drawn s rs o g)) ->
  mean_of L m s (weight j) (moments_prod rs (w1_exps j)).
Proof.
  intros ML HN HR Hj H. apply (mean_independent N L ML); [exact HR|apply w1_le; exact HN|].
  intros o g V. specialize (H o g V). unfold ends_with in *. destruct (m o s g) as [[r s'] g']. destruct H as (-> & Hg & Hv & (Hl & Hw) & _).
  split; [exact Hg|]. cbn [weight]. rewrite <- Hv. pose proof (beta_answers_length rs HR o g) as Hlen. rewrite <- Hv in Hlen.
  rewrite monos_w1 by lia. apply Hw. lia.
Qed.
Lemma drawn_mean2 N L (m : M ws (list Q)) s rs i j : moments N L -> (2 <= N)%nat -> Forall beta_pos rs -> (i <= j)%nat -> (j < length rs)%nat ->
  (forall o g, valid_oracle o -> ends_with (m o s g) (drawn s rs o g)) ->
  mean_of L m s (weights2 i j) (moments_prod rs (w2_exps i j)).
Proof.
  intros ML HN HR Hi Hj H. apply (mean_independent N L ML); [exact HR|apply w2_le; exact HN|].
  intros o g V. specialize (H o g V). unfold ends_with in *. destruct (m o s g) as [[r s'] g']. destruct H as (-> & Hg & Hv & (Hl & Hw) & _).
  split; [exact Hg|]. unfold weights2. cbn [weight]. pose proof (beta_answers_length rs HR o g) as Hlen. rewrite <- Hv in Hlen. rewrite <- Hv.
  rewrite monos_w2 by lia. rewrite (Hw i), (Hw j) by lia. reflexivity.
Qed.
Lemma mean_eq {S A} L (m : M S A) s f x y : mean_of L m s f x -> x == y -> mean_of L m s f y.
Proof. intros (t & H & E) Exy. exists t. split; [exact H|]. rewrite E. exact Exy. Qed.

Lemma rbeta_pos a b : 0 < a -> 0 < b -> beta_pos (rbeta a b).
Proof. intros Ha Hb. exists (Qred a), (Qred b). split; [reflexivity|]. rewrite !Qred_correct. auto. Qed.
#[global] Instance rising_comp : Proper (Qeq ==> eq ==> Qeq) rising.
Proof. intros a a' E n n' <-. revert a a' E. induction n; intros a a' E; cbn; [reflexivity|]. rewrite (IHn (a + 1) (a' + 1)) by (rewrite E; reflexivity). rewrite E. reflexivity. Qed.
#[global] Instance beta_moment_comp : Proper (Qeq ==> Qeq ==> eq ==> eq ==> Qeq) beta_moment.
Proof. intros a a' E b b' F i i' <- j j' <-. unfold beta_moment. rewrite E, F. reflexivity. Qed.
Lemma req_moment_rbeta a b e : req_moment (rbeta a b) e == beta_moment a b (fst e) (snd e).
Proof. unfold rbeta, req_moment. rewrite !Qred_correct. reflexivity. Qed.
