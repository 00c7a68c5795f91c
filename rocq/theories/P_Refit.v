(* C20: random after fit depends on the fitted labels only. *)
From Coq Require Import Lqa.
From Verif Require Import Prelude Numpy Rng M_Weights S_Weights S_Hist S_Oracle P_Lists P_Hoare P_Wp P_Random P_Rel P_Sticks.
Open Scope Q_scope.
Open Scope m_scope.

Definition wp2 {A} (o : oracle) (m1 m2 : M ws A) (P : srel) (s1 s2 : ws) (g : rng) : Prop :=
  match m1 o s1 g, m2 o s2 g with
  | (r1, t1, g1), (r2, t2, g2) => r1 = r2 /\ g1 = g2 /\ (is_ok r1 = true -> P t1 t2)
  end.
Lemma wp2_assoc {A B C} o (m1 m2 : M ws A) (k1 k2 : A -> M ws B) (h1 h2 : B -> M ws C) P s1 s2 g :
  wp2 o (bind m1 (fun a => bind (k1 a) h1)) (bind m2 (fun a => bind (k2 a) h2)) P s1 s2 g ->
  wp2 o (bind (bind m1 k1) h1) (bind (bind m2 k2) h2) P s1 s2 g.
Proof. unfold wp2, bind. destruct (m1 o s1 g) as [[[?|?|] ?] ?], (m2 o s2 g) as [[[?|?|] ?] ?]; auto. Qed.
Lemma wp2_get {A} o (k1 k2 : ws -> M ws A) P s1 s2 g : wp2 o (k1 s1) (k2 s2) P s1 s2 g -> wp2 o (bind get k1) (bind get k2) P s1 s2 g.
Proof. auto. Qed.
Lemma wp2_upd {A} o f1 f2 (k1 k2 : unit -> M ws A) P s1 s2 g : wp2 o (k1 tt) (k2 tt) P (f1 s1) (f2 s2) g -> wp2 o (bind (upd f1) k1) (bind (upd f2) k2) P s1 s2 g.
Proof. auto. Qed.
Lemma wp2_retb {A B} o (a b : B) (k1 k2 : B -> M ws A) P s1 s2 g : wp2 o (k1 a) (k2 b) P s1 s2 g -> wp2 o (bind (ret a) k1) (bind (ret b) k2) P s1 s2 g.
Proof. auto. Qed.
Lemma wp2_ret {A} o (a b : A) (P : srel) s1 s2 g : a = b -> P s1 s2 -> wp2 o (ret a) (ret b) P s1 s2 g.
Proof. intros <- H. unfold wp2; simpl; auto. Qed.
Lemma wp2_raise {A} o e (P : srel) s1 s2 g : wp2 o (@raise ws A e) (raise e) P s1 s2 g.
Proof. unfold wp2; simpl. repeat split. discriminate. Qed.
Lemma wp2_raiseb {A B} o e (k1 k2 : B -> M ws A) (P : srel) s1 s2 g : wp2 o (bind (raise e) k1) (bind (raise e) k2) P s1 s2 g.
Proof. unfold wp2; simpl. repeat split. discriminate. Qed.
Lemma wp2_blind {A B} o (m : M ws B) (k1 k2 : B -> M ws A) P s1 s2 g : blind m ->
  (forall a g', wp2 o (k1 a) (k2 a) P s1 s2 g') -> wp2 o (bind m k1) (bind m k2) P s1 s2 g.
Proof.
  intros H Hk. unfold wp2, bind. specialize (H o s1 s2 g).
  destruct (m o s1 g) as [[r1 t1] g1], (m o s2 g) as [[r2 t2] g2]. destruct H as (<- & <- & -> & ->).
  destruct r1; [apply Hk|repeat split; discriminate..].
Qed.
Lemma wp2_call {A B} o (m1 m2 : M ws B) (k1 k2 : B -> M ws A) P Q s1 s2 g : wp2 o m1 m2 Q s1 s2 g ->
  (forall a t1 t2 g', Q t1 t2 -> wp2 o (k1 a) (k2 a) P t1 t2 g') -> wp2 o (bind m1 k1) (bind m2 k2) P s1 s2 g.
Proof.
  intros H Hk. unfold wp2, bind in *.
  destruct (m1 o s1 g) as [[r1 t1] g1], (m2 o s2 g) as [[r2 t2] g2]. destruct H as (<- & <- & H).
  destruct r1; [apply Hk; auto|repeat split; discriminate..].
Qed.
Lemma wp2_mono {A} o (m1 m2 : M ws A) (P Q : srel) s1 s2 g : wp2 o m1 m2 Q s1 s2 g -> (forall s t, Q s t -> P s t) -> wp2 o m1 m2 P s1 s2 g.
Proof.
  unfold wp2. destruct (m1 o s1 g) as [[r1 t1] g1], (m2 o s2 g) as [[r2 t2] g2]. intros (A1 & A2 & A3) H. auto.
Qed.

Ltac blindt := first [apply blind_beta_many | apply blind_beta_rep | apply blind_beta1 | apply blind_binom_many | apply blind_binom_rep
  | apply blind_binom1 | apply blind_dirichlet1 | apply blind_need_int | apply blind_check].
Ltac w2 :=
  cbv zeta; cbn [is_snone v w d p bern wn set_v set_w set_d set_p set_bern set_binoms refresh_w];
  lazymatch goal with
  | |- wp2 _ (bind (bind _ _) _) _ _ _ _ _ => apply wp2_assoc
  | |- wp2 _ (bind get _) _ _ _ _ _ => apply wp2_get
  | |- wp2 _ (bind (upd _) _) _ _ _ _ _ => apply wp2_upd
  | |- wp2 _ (bind (ret _) _) _ _ _ _ _ => apply wp2_retb
  | |- wp2 _ (bind (raise _) _) _ _ _ _ _ => apply wp2_raiseb
  | |- wp2 _ (ret _) _ _ _ _ _ => apply wp2_ret
  | |- wp2 _ (raise _) _ _ _ _ _ => apply wp2_raise
  | |- wp2 _ (bind (if ?b then _ else _) _) _ _ _ _ _ => destruct b eqn:?
  | |- wp2 _ (bind (match ?b with _ => _ end) _) _ _ _ _ _ => destruct b eqn:?
  | |- wp2 _ (if ?b then _ else _) _ _ _ _ _ => destruct b eqn:?
  | |- wp2 _ (match ?b with _ => _ end) _ _ _ _ _ => destruct b eqn:?
  | |- wp2 _ (bind _ _) (bind _ _) _ _ _ _ => apply wp2_blind; [blindt|intros ? ?]
  end; cbv beta iota.

Definition same_obs : srel := fun s t => w s = w t /\ d s = d t /\ v s = v t.

Lemma dp_complete_2 o al z s1 s2 g : d s1 = d s2 -> v s1 = v s2 -> (w s1 = w s2 \/ exists k, size_val z = Some k /\ (Z.of_nat (length (v s1)) < k)%Z) ->
  wp2 o (dp_complete al z) (dp_complete al z) same_obs s1 s2 g.
Proof.
  intros Hd Hv Hw. unfold dp_complete. w2. destruct (size_val z) as [k|] eqn:Ek; unfold need_int; rewrite ?Ek; [|w2].
  w2. w2. rewrite Hv. w2.
  - w2. w2. w2. w2. w2; [|split; [|split]]; simpl; congruence.
  - destruct Hw as [Hw|(k' & E & Hw)].
    + w2; [assumption|split; [|split]; assumption].
    + injection E as <-. rewrite Hv in Hw. apply Z.ltb_lt in Hw. congruence.
Qed.
Lemma py_complete_2 o pd al z s1 s2 g : d s1 = d s2 -> v s1 = v s2 -> w s1 = w s2 ->
  wp2 o (py_complete pd al z) (py_complete pd al z) same_obs s1 s2 g.
Proof.
  intros Hd Hv Hw. unfold py_complete. w2. w2. w2. rewrite Hw. w2.
  - w2. w2. w2. w2. w2; [|split; [|split]]; simpl; congruence.
  - w2; [reflexivity|split; [|split]; assumption].
Qed.
Lemma geom_complete_2 o z s1 s2 g k : d s1 = d s2 -> v s1 = v s2 -> p s1 = p s2 -> size_val z = Some k -> (Z.of_nat (length (v s1)) < k)%Z ->
  wp2 o (geom_complete z) (geom_complete z) same_obs s1 s2 g.
Proof.
  intros Hd Hv Hp Hk Hz. unfold geom_complete. w2. unfold need_int; rewrite Hk. w2. w2. rewrite <- Hv. apply Z.ltb_lt in Hz. rewrite Hz.
  w2. w2. w2. w2; [|split; [|split]]; simpl; congruence.
Qed.
Definition same_bin : srel := fun s t => d s = d t /\ v s = v t.
Lemma bbin_step_2 o n al s1 s2 g : same_bin s1 s2 -> wp2 o (bbin_step n al) (bbin_step n al) same_bin s1 s2 g.
Proof.
  intros [Hd Hv]. unfold bbin_step. w2. rewrite Hv. w2. w2. w2.
  unfold wp2; simpl. repeat split; simpl; auto. 
Qed.
Lemma bbin_repeat_2 o n al k : forall s1 s2 g, same_bin s1 s2 -> wp2 o (repeatM k (bbin_step n al)) (repeatM k (bbin_step n al)) same_bin s1 s2 g.
Proof.
  induction k; intros s1 s2 g H; simpl repeatM; [w2; auto|].
  eapply wp2_call; [apply bbin_step_2, H|]. intros; apply IHk; assumption.
Qed.
Lemma bbin_complete_2 o n al z s1 s2 g : same_bin s1 s2 -> wp2 o (bbin_complete n al z) (bbin_complete n al z) same_obs s1 s2 g.
Proof.
  intros [Hd Hv]. unfold bbin_complete. w2. w2. rewrite Hv.
  eapply (wp2_call _ _ _ _ _ _ same_bin).
  { destruct (is_nil (v s2)); [|w2; [reflexivity|split; assumption]].
    w2. w2. w2. w2. unfold wp2; simpl. repeat split; auto. }
  intros _ t1 t2 h' [Hd' Hv']. w2. w2. rewrite Hv'. 
  eapply wp2_call; [apply bbin_repeat_2; split; assumption|]. intros _ u1 u2 g2 [Hd2 Hv2].
  w2. w2. w2; [|split; [|split]]; simpl; congruence.
Qed.

Lemma c20_proof c z o s1 s2 g : memoryless c -> positive_size z -> d s1 = d s2 -> wn s1 = wn s2 ->
  wp2 o (wm_random c z) (wm_random c z) (fun t1 t2 => w t1 = w t2 /\ d t1 = d t2 /\ (stick_breaking c -> v t1 = v t2)) s1 s2 g.
Proof.
  intros Hc Hz Hd Hn.
  assert (F : forall s t, same_obs s t -> w s = w t /\ d s = d t /\ (stick_breaking c -> v s = v t)) by (intros s t (A & B & C); auto).
  assert (G : forall s t, same_obs s t -> forall g', wp2 o (s <- get;; ret (w s)) (s <- get ;; ret (w s)) (fun t1 t2 => w t1 = w t2 /\ d t1 = d t2 /\ (stick_breaking c -> v t1 = v t2)) s t g').
  { intros s t H g'. w2. w2; [apply H|auto]. }
  destruct c; try contradiction; simpl wm_random.
  - (* DirDist *) unfold dd_random. w2. rewrite Hd. w2.
    + w2. w2. w2; [reflexivity|]. simpl. repeat split; auto; intros [].
    + w2; [w2|]. w2. w2. w2; [reflexivity|]. simpl. repeat split; auto; intros [].
  - (* DP *) unfold dp_random. w2. rewrite Hd. w2; [w2|]. destruct z as [|k|k|]; try w2; try contradiction.
    + simpl in Heqb. rewrite Heqb. w2. w2. w2. w2. w2. w2; simpl; auto.
    + destruct (is_nil (d s2)) eqn:En.
      * eapply wp2_call; [apply dp_complete_2; simpl; auto; right; exists k; split; [reflexivity|exact Hz]|]. intros; apply G; assumption.
      * w2. w2. w2. eapply wp2_call; [apply dp_complete_2; simpl; auto|]. intros; apply G; assumption.
  - (* PY *) unfold py_random. w2. rewrite Hd. w2; [w2|]. w2.
    + w2. w2; [w2|]. w2. w2. w2. apply G. split; [|split]; simpl; auto.
    + w2.
      * w2. w2. w2. w2. w2. apply G. split; [|split]; simpl; auto.
      * w2. w2. w2. w2. w2. w2. eapply wp2_call; [apply py_complete_2; simpl; auto|]. intros; apply G; assumption.
  - (* Geom *) unfold geom_random. w2. rewrite Hd. w2; [w2|]. w2. w2. w2. 
    eapply wp2_call; [|intros; apply G; eassumption].
    eapply (geom_complete_2 _ _ _ _ _ (match z with SInt k | SNp64 k => k | _ => Z.of_nat (nmax (d s2)) + 1 end)%Z); simpl; auto.
    + destruct z; try contradiction; reflexivity.
    + destruct z; simpl in Hz; try contradiction; lia.
  - (* BBin *) unfold bbin_random. w2. rewrite Hd. w2; [w2|]. w2. destruct (is_nil (d s2)) eqn:En.
    + eapply wp2_call; [apply bbin_complete_2; split; simpl; auto|]. intros; apply G; assumption.
    + unfold bbin_random_binomials. w2. w2. cbn [d set_v]. rewrite Hd. w2. w2. w2. w2. w2. w2. w2. w2. w2. w2.
      eapply wp2_call; [apply bbin_complete_2; split; simpl; auto|]. intros; apply G; assumption.
  - (* Equal *) unfold eq_random, repeat_inv. w2. rewrite Hn. w2; [w2|]. w2; [w2|]. w2. w2. w2; [reflexivity|]. simpl. repeat split; auto; intros [].
  - unfold freq_random, repeat_inv. w2. rewrite Hd. w2.
    + w2; [w2|]. w2; [w2|]. w2. w2. w2; [reflexivity|]. simpl. repeat split; auto; intros [].
    + w2. w2; [reflexivity|]. simpl. repeat split; auto; intros [].
Qed.
