(* Relational reasoning: two runs from related states. *)
From Coq Require Import Lqa.
From Verif Require Import Prelude Numpy Rng M_Weights S_Weights S_Hist P_Lists P_Hoare P_Wp P_Random.
Open Scope Q_scope.
Open Scope m_scope.

Definition srel := ws -> ws -> Prop.
(* same result and log; states related by J on success and K on failure *)
Definition rel {A} (I J K : srel) (m1 m2 : M ws A) : Prop :=
  forall o s1 s2 g, I s1 s2 ->
    match m1 o s1 g, m2 o s2 g with
    | (r1, t1, g1), (r2, t2, g2) =>
        r1 = r2 /\ g1 = g2 /\ match r1 with Ok _ => J t1 t2 | _ => K t1 t2 end
    end.

Lemma rel_bind {A B} (I J J' K : srel) (m1 m2 : M ws A) (k1 k2 : A -> M ws B) :
  rel I J K m1 m2 -> (forall a, rel J J' K (k1 a) (k2 a)) -> rel I J' K (bind m1 k1) (bind m2 k2).
Proof.
  intros H1 H2 o s1 s2 g Hi. specialize (H1 o s1 s2 g Hi). unfold bind.
  destruct (m1 o s1 g) as [[r1 t1] g1], (m2 o s2 g) as [[r2 t2] g2]. destruct H1 as (<- & <- & H).
  destruct r1; [apply (H2 a); exact H|repeat split; exact H|repeat split; exact H].
Qed.
Lemma rel_get {B} (I J K : srel) (k1 k2 : ws -> M ws B) :
  (forall s1 s2, I s1 s2 -> rel (fun t1 t2 => t1 = s1 /\ t2 = s2) J K (k1 s1) (k2 s2)) -> rel I J K (bind get k1) (bind get k2).
Proof. intros H o s1 s2 g Hi. unfold bind, get. apply H; auto. Qed.
Lemma rel_ret {A} (I K : srel) (a b : A) : a = b -> rel I I K (ret a) (ret b).
Proof. intros <- o s1 s2 g Hi. simpl. auto. Qed.
Lemma rel_raise {A} (I J K : srel) e : (forall s t, I s t -> K s t) -> rel I J K (@raise ws A e) (raise e).
Proof. intros H o s1 s2 g Hi. simpl. auto. Qed.
Lemma rel_upd (I K : srel) f1 f2 : rel I (fun t1 t2 => exists s1 s2, I s1 s2 /\ t1 = f1 s1 /\ t2 = f2 s2) K (upd f1) (upd f2).
Proof. intros o s1 s2 g Hi. simpl. repeat split. eauto. Qed.
Lemma rel_conseq {A} (I J K I' J' : srel) (m1 m2 : M ws A) :
  rel I' J' K m1 m2 -> (forall s t, I s t -> I' s t) -> (forall s t, J' s t -> J s t) -> rel I J K m1 m2.
Proof.
  intros H H1 H2 o s1 s2 g Hi. specialize (H o s1 s2 g (H1 _ _ Hi)).
  destruct (m1 o s1 g) as [[r1 t1] g1], (m2 o s2 g) as [[r2 t2] g2]. destruct H as (<- & <- & H).
  destruct r1; auto.
Qed.
Lemma rel_pre {A} (I J K I' : srel) (m1 m2 : M ws A) : rel I' J K m1 m2 -> (forall s t, I s t -> I' s t) -> rel I J K m1 m2.
Proof. intros; eapply rel_conseq; eauto. Qed.

(* primitives that do not look at the object *)
Definition blind {A} (m : M ws A) : Prop :=
  forall o s1 s2 g, match m o s1 g, m o s2 g with (r1, t1, g1), (r2, t2, g2) => r1 = r2 /\ g1 = g2 /\ t1 = s1 /\ t2 = s2 end.
Lemma rel_blind {A} (I K : srel) (m1 m2 : M ws A) : blind m1 -> (forall o s g, m1 o s g = m2 o s g) -> (forall s t, I s t -> K s t) -> rel I I K m1 m2.
Proof.
  intros H E Hk o s1 s2 g Hi. rewrite <- E. specialize (H o s1 s2 g).
  destruct (m1 o s1 g) as [[r1 t1] g1], (m1 o s2 g) as [[r2 t2] g2]. destruct H as (<- & <- & -> & ->).
  repeat split. destruct r1; auto.
Qed.
Ltac bl := intros o s1 s2 g; unfold beta_many, beta_rep, beta1, binom_many, binom_rep, binom1, choice1, gumbel1, unif1, unif_many, dirichlet1, need_int, base_complete_check, ret, raise;
  repeat match goal with |- context [if ?b then _ else _] => destruct b | |- context [match ?b with _ => _ end] => destruct b end; simpl; auto.
Lemma blind_beta_many ab : blind (beta_many ab). Proof. bl. Qed.
Lemma blind_beta_rep a b n : blind (beta_rep a b n). Proof. bl. Qed.
Lemma blind_beta1 a b : blind (beta1 a b). Proof. bl. Qed.
Lemma blind_binom_many n ps : blind (binom_many n ps). Proof. bl. Qed.
Lemma blind_binom_rep n q k : blind (binom_rep n q k). Proof. bl. Qed.
Lemma blind_binom1 n q : blind (binom1 n q). Proof. bl. Qed.
Lemma blind_dirichlet1 q : blind (dirichlet1 q). Proof. bl. Qed.
Lemma blind_unif1 a b : blind (unif1 a b). Proof. bl. Qed.
Lemma blind_unif_many ab : blind (unif_many ab). Proof. bl. Qed.
Lemma blind_need_int z : blind (need_int z). Proof. intros o s1 s2 g; destruct z; simpl; auto. Qed.
Lemma blind_check z : blind (base_complete_check z). Proof. intros o s1 s2 g; destruct z; simpl; auto. Qed.

(* equal parameters give the same request *)
Definition peq (x y : Q * Q) : Prop := fst x == fst y /\ snd x == snd y.
Lemma beta_many_peq {S} ab1 ab2 o (s : S) g : Forall2 peq ab1 ab2 -> beta_many ab1 o s g = beta_many ab2 o s g.
Proof.
  intros H. unfold beta_many.
  assert (E : allpos ab1 = allpos ab2 /\ forall g, beta_draws o ab1 g = beta_draws o ab2 g).
  { induction H as [|[a b] [a' b'] t t' [H1 H2] H IH]; [auto|]. simpl in H1, H2. destruct IH as [IH1 IH2]. split.
    - simpl. rewrite IH1. f_equal. f_equal; [destruct (qltb 0 a') eqn:E|destruct (qltb 0 b') eqn:E];
      [apply qltb_lt in E; apply qltb_lt; lra|apply qltb_ge in E; apply qltb_ge; lra
      |apply qltb_lt in E; apply qltb_lt; lra|apply qltb_ge in E; apply qltb_ge; lra].
    - intros g'. simpl. unfold rbeta. rewrite (Qred_complete _ _ H1), (Qred_complete _ _ H2), IH2. reflexivity. }
  destruct E as [-> E]. rewrite E. reflexivity.
Qed.
Lemma Forall2_repeat {A B} (R : A -> B -> Prop) x y n : R x y -> Forall2 R (repeat x n) (repeat y n).
Proof. intros H; induction n; simpl; constructor; auto. Qed.
Lemma beta_rep_peq {S} a b a' b' n o (s : S) g : a == a' -> b == b' -> beta_rep a b n o s g = beta_rep a' b' n o s g.
Proof.
  intros H1 H2. unfold beta_rep.
  pose proof (beta_many_peq (S := S) [(a, b)] [(a', b')] o s g ltac:(constructor; [split; assumption|constructor])) as E1.
  pose proof (beta_many_peq (S := S) (repeat (a, b) n) (repeat (a', b') n) o s g (Forall2_repeat peq (a, b) (a', b') n (conj H1 H2))) as E2.
  unfold beta_many in E1, E2.
  destruct (allpos [(a, b)]) eqn:A1, (allpos [(a', b')]) eqn:A2; try discriminate; [|reflexivity].
  rewrite (allpos_repeat _ _ _ A1), (allpos_repeat _ _ _ A2) in E2. exact E2.
Qed.

(* ------------------------------------------------------------------ *)
(* C13: x = 0 *)
Notation sim := same_view.

Lemma bib_random_p_zero x a b pm o s g : x == 0 -> bib_random_p x a b pm o s g = (Ok (p s), s, g).
Proof.
  intros H. unfold bib_random_p, bind, get.
  assert (E1 : Qeq_bool x 1 = false).
  { destruct (Qeq_bool x 1) eqn:E; auto. apply Qeq_bool_iff in E. rewrite H in E. discriminate. }
  apply Qeq_bool_iff in H. rewrite E1, H. reflexivity.
Qed.

Lemma c13_complete x al a b pm z : x == 0 -> rel sim sim sim (bib_complete x al a b pm z) (dp_complete al z).
Proof.
  intros Hx o s1 s2 g (Hw & Hd & Hv). unfold bib_complete, dp_complete.
  assert (X1 : qltb x 1 = true) by (apply qltb_lt; lra).
  destruct z as [|k|k|]; unfold bind, base_complete_check, need_int, size_val, get, ret, raise, upd;
  rewrite ?X1;
  try (repeat split; assumption).
  - (* SNone *) destruct (negb _); rewrite ?bib_random_p_zero by assumption; repeat split; assumption.
  - rewrite <- Hv, <- Hw.
    destruct (negb _); rewrite ?bib_random_p_zero by assumption;
    (destruct (_ <? k)%Z; [|repeat split; assumption]);
    rewrite (beta_rep_peq _ _ 1 al) by (rewrite Hx; field);
    pose proof (blind_beta_rep 1 al (Z.to_nat (k - Z.of_nat (length (v s1)))) o s1 s2 g) as B;
    destruct (beta_rep 1 al _ o s1 g) as [[r1 t1] g1], (beta_rep 1 al _ o s2 g) as [[r2 t2] g2];
    destruct B as (<- & <- & -> & ->); destruct r1; (repeat split; simpl; congruence || assumption).
  - rewrite <- Hv, <- Hw.
    destruct (negb _); rewrite ?bib_random_p_zero by assumption;
    (destruct (_ <? k)%Z; [|repeat split; assumption]);
    rewrite (beta_rep_peq _ _ 1 al) by (rewrite Hx; field);
    pose proof (blind_beta_rep 1 al (Z.to_nat (k - Z.of_nat (length (v s1)))) o s1 s2 g) as B;
    destruct (beta_rep 1 al _ o s1 g) as [[r1 t1] g1], (beta_rep 1 al _ o s2 g) as [[r2 t2] g2];
    destruct B as (<- & <- & -> & ->); destruct r1; (repeat split; simpl; congruence || assumption).
Qed.

Lemma rel_upd' (I J K : srel) f1 f2 : (forall s t, I s t -> J (f1 s) (f2 t)) -> rel I J K (upd f1) (upd f2).
Proof. intros H o s1 s2 g Hi. simpl. auto. Qed.
Lemma rel_skip_l {A B} (I J K : srel) (a : A) (k : A -> M ws B) m2 : rel I J K (k a) m2 -> rel I J K (bind (ret a) k) m2.
Proof. intros H; exact H. Qed.
Lemma rel_skip_r {A B} (I J K : srel) (a : A) (k : A -> M ws B) m1 : rel I J K m1 (k a) -> rel I J K m1 (bind (ret a) k).
Proof. intros H; exact H. Qed.
Lemma rel_get_l {B} (I J K : srel) (k : ws -> M ws B) m2 :
  (forall s1 s2, I s1 s2 -> rel (fun t1 t2 => t1 = s1 /\ t2 = s2) J K (k s1) m2) -> rel I J K (bind get k) m2.
Proof. intros H o s1 s2 g Hi. unfold bind, get. exact (H s1 s2 Hi o s1 s2 g (conj eq_refl eq_refl)). Qed.
Lemma rel_at {A} (I J K : srel) (m1 m2 : M ws A) s1 s2 : I s1 s2 -> rel I J K m1 m2 -> rel (fun t1 t2 => t1 = s1 /\ t2 = s2) J K m1 m2.
Proof. intros Hi H o t1 t2 g [-> ->]. apply H; assumption. Qed.

Lemma bib_complete_noop x al a b pm z o s g : x == 0 -> (z <= Z.of_nat (length (v s)))%Z ->
  bib_complete x al a b pm (SInt z) o s g = (Ok (w s), s, g).
Proof.
  intros Hx Hz. unfold bib_complete, bind, base_complete_check, need_int, size_val, get, ret.
  apply Z.ltb_ge in Hz. destruct (negb _); rewrite ?bib_random_p_zero by assumption; rewrite Hz; reflexivity.
Qed.

Notation c13_size := int_or_none.
Lemma c13_random x al a b pm z : x == 0 -> c13_size z -> rel sim sim sim (bib_random x al a b pm z) (dp_random al z).
Proof.
  intros Hx Hz. unfold bib_random, dp_random. apply rel_get. intros s1 s2 Hs. destruct Hs as (Hw & Hd & Hv). rewrite Hd.
  apply (rel_at sim). { repeat split; assumption. }
  destruct (is_snone z && is_nil (d s2)) eqn:En; [apply rel_raise; auto|].
  assert (X1 : qltb x 1 = true) by (apply qltb_lt; lra). assert (X0 : qltb 0 x = false) by (apply qltb_ge; lra).
  rewrite X0, X1.
  assert (G : forall m1 m2 : M ws (list Q), rel sim sim sim m1 m2 ->
     rel sim sim sim (bind m1 (fun _ => bind get (fun s => ret (w s)))) (bind m2 (fun _ => bind get (fun s => ret (w s))))).
  { intros m1 m2 H. eapply rel_bind; [exact H|]. intros _. apply rel_get. intros t1 t2 Ht.
    apply (rel_at sim _ _ _ _ _ _ Ht). apply rel_ret. apply Ht. }
  destruct z as [|z|z|]; try contradiction.
  - (* None *)
    eapply (rel_bind sim sim); [apply rel_upd'; intros s t (A & B & C); repeat split; assumption|]. intros _.
    simpl in En. rewrite En. apply rel_skip_l. cbv zeta. cbn [is_snone].
    apply rel_skip_l. cbv beta. rewrite Z.ltb_irrefl.
    apply rel_get_l. intros t1 t2 Ht. apply (rel_at sim _ _ _ _ _ _ Ht).
    set (A1 := pairs (map (fun n => 1 + x / (1 - x) * p t1 + nq n) _) _).
    set (A2 := pairs (map (fun n => 1 + nq n) _) _).
    assert (P : Forall2 peq A1 A2).
    { unfold A1, A2, pairs. clear - Hx. generalize (tail_counts (bincount (d s2))). induction (bincount (d s2)); intros [|y l0]; simpl; constructor; auto.
      split; simpl; rewrite Hx; field. }
    assert (L : length A1 = length (bincount (d s2))).
    { unfold A1. apply pairs_len. symmetry. apply tail_counts_length, bincount_nonnil. apply nonnil; assumption. }
    intros o u1 u2 g Hu. unfold bind. rewrite (beta_many_peq A1 A2) by assumption.
    pose proof (blind_beta_many A2 o u1 u2 g) as Bl. pose proof (beta_many_peq A1 A2 o u1 g P) as E. unfold beta_many at 1 in E.
    destruct (beta_many A2 o u1 g) as [[r1 q1] g1], (beta_many A2 o u2 g) as [[r2 q2] g2]. destruct Bl as (<- & <- & -> & ->).
    destruct r1 as [nv|e|]; [|repeat split; apply Hu..].
    assert (Ln : length nv = length (bincount (d s2))).
    { destruct (allpos A1); [|discriminate]. injection E as <- _. rewrite beta_draws_length. exact L. }
    unfold upd, get, ret. rewrite bib_complete_noop by (cbn; rewrite ?Ln; auto; lia).
    destruct Hu as (A & B & C). repeat split; assumption.
  - (* int *)
    cbn [is_snone]. 
    eapply (rel_bind sim sim); [apply rel_upd'; intros s t (A & B & C); repeat split; assumption|]. intros _.
    destruct (is_nil (d s2)) eqn:En2.
    + apply G. apply c13_complete; assumption.
    + apply rel_skip_l. cbv zeta. apply rel_skip_l. cbv beta.
      apply rel_get_l. intros t1 t2 Ht. apply (rel_at sim _ _ _ _ _ _ Ht).
      set (A1 := pairs (map (fun n => 1 + x / (1 - x) * p t1 + nq n) _) _).
      set (A2 := pairs (map (fun n => 1 + nq n) _) _).
      assert (P : Forall2 peq A1 A2).
      { unfold A1, A2, pairs. clear - Hx. 
        generalize (if (z <? Z.of_nat (length (bincount (d s2))))%Z then py_take z (tail_counts (bincount (d s2))) else tail_counts (bincount (d s2))).
        generalize (if (z <? Z.of_nat (length (bincount (d s2))))%Z then py_take z (bincount (d s2)) else bincount (d s2)).
        intros l. induction l; intros [|y l']; simpl; constructor; auto.
        split; simpl; rewrite Hx; field. }
      eapply (rel_bind sim sim); [apply rel_blind; [apply blind_beta_many|intros; apply beta_many_peq; exact P|auto]|].
      intros nv. eapply (rel_bind sim sim); [apply rel_upd'; intros s t (A & B & C); repeat split; assumption|]. intros _.
      eapply (rel_bind sim sim); [apply rel_upd'; intros s t (A & B & C); repeat split; try assumption|]. { unfold refresh_w; simpl. rewrite C; reflexivity. }
      intros _. apply G. apply c13_complete; assumption.
Qed.

Lemma rel_map {A B} (I J K : srel) (m1 m2 : M ws A) (f : A -> B) : rel I J K m1 m2 ->
  rel I J K (bind m1 (fun x => ret (f x))) (bind m2 (fun x => ret (f x))).
Proof. intros H. eapply rel_bind; [exact H|]. intros a. apply rel_ret. reflexivity. Qed.

Lemma c13_wm_complete x al a b pm z : x == 0 -> rel sim sim sim (wm_complete (CBIB x al a b pm) z) (wm_complete (CDP al) z).
Proof. intros Hx. simpl. apply rel_map, c13_complete, Hx. Qed.

Lemma c13_tail_loop x al a b pm y : x == 0 -> forall fuel, rel sim sim sim (tail_loop (CBIB x al a b pm) fuel y) (tail_loop (CDP al) fuel y).
Proof.
  intros Hx. induction fuel; cbn [tail_loop]; (apply rel_get; intros s1 s2 Hs; apply (rel_at sim _ _ _ _ _ _ Hs);
  destruct Hs as (Hw & Hd & Hv); rewrite Hw; destruct (qltb _ y); [|apply rel_ret; reflexivity]).
  - intros o t1 t2 g Ht. simpl. auto.
  - eapply rel_bind; [apply c13_wm_complete, Hx|]. intros _. apply IHfuel.
Qed.

Notation c13_op := int_sized.
Lemma c13_exec x al a b pm op : x == 0 -> c13_op op -> rel sim sim sim (exec_op (CBIB x al a b pm) op) (exec_op (CDP al) op).
Proof.
  intros Hx Hop. destruct op as [z|z|f y|dd| |dd|z]; cbn [exec_op].
  - apply (rel_map _ _ _ _ _ (fun _ => tt)). apply c13_random; assumption.
  - apply (rel_map _ _ _ _ _ (fun _ => tt)). apply c13_wm_complete; assumption.
  - apply (rel_map _ _ _ _ _ (fun _ => tt)). simpl wm_tail. unfold base_tail. destruct (qleb 1 y || qltb y 0); [apply rel_raise; auto|].
    apply rel_get. intros s1 s2 Hs. apply (rel_at sim _ _ _ _ _ _ Hs). destruct Hs as (Hw & Hd & Hv). rewrite Hw.
    eapply (rel_bind sim sim).
    { destruct (is_nil (w s2)); [apply c13_random; simpl; auto|apply rel_ret; reflexivity]. }
    intros _. eapply rel_bind; [apply c13_tail_loop, Hx|]. intros _.
    apply rel_get. intros t1 t2 Ht. apply (rel_at sim _ _ _ _ _ _ Ht). apply rel_ret, Ht.
  - apply rel_upd'. intros s t (A & B & C). repeat split; assumption.
  - apply rel_upd'. intros s t (A & B & C). repeat split; assumption.
  - apply (rel_map _ _ _ _ _ (fun _ => tt)). unfold wm_assign_weights.
    apply rel_get. intros s1 s2 Hs. apply (rel_at sim _ _ _ _ _ _ Hs). destruct Hs as (Hw & Hd & Hv). rewrite Hd. cbv zeta.
    destruct (is_nil _); [apply rel_raise; auto|].
    eapply rel_bind; [apply c13_wm_complete, Hx|]. intros _.
    apply rel_get. intros t1 t2 Ht. apply (rel_at sim _ _ _ _ _ _ Ht). destruct Ht as (A & B & C). rewrite A.
    destruct (gather (w t2) _); [apply rel_ret; reflexivity|apply rel_raise; auto].
  - apply (rel_map _ _ _ _ _ (fun _ => tt)). unfold wm_random_assignment. destruct z as [|z|z|].
    + eapply (rel_bind sim sim); [apply rel_blind; [apply blind_unif1|auto|auto]|]. intros _. apply rel_raise; auto.
    + destruct (z <? 0)%Z; [apply rel_raise; auto|].
      eapply (rel_bind sim sim); [apply rel_blind; [apply blind_unif_many|auto|auto]|]. intros us.
      apply rel_get. intros t1 t2 Ht. apply (rel_at sim _ _ _ _ _ _ Ht). destruct Ht as (A & B & C). apply rel_ret. rewrite A; reflexivity.
    + destruct (z <? 0)%Z; [apply rel_raise; auto|].
      eapply (rel_bind sim sim); [apply rel_blind; [apply blind_unif_many|auto|auto]|]. intros us.
      apply rel_get. intros t1 t2 Ht. apply (rel_at sim _ _ _ _ _ _ Ht). destruct Ht as (A & B & C). apply rel_ret. rewrite A; reflexivity.
    + apply rel_raise; auto.
Qed.

Lemma c13_run x al a b pm o : x == 0 -> forall ops s1 s2 g, Forall c13_op ops -> sim s1 s2 ->
  sim (fst (run_ops (CBIB x al a b pm) ops o s1 g)) (fst (run_ops (CDP al) ops o s2 g)) /\
  snd (run_ops (CBIB x al a b pm) ops o s1 g) = snd (run_ops (CDP al) ops o s2 g).
Proof.
  intros Hx. induction ops as [|op t IH]; intros s1 s2 g Hf Hs; simpl; [auto|]. inversion Hf; subst.
  pose proof (c13_exec x al a b pm op Hx H1 o s1 s2 g Hs) as E. unfold run_op.
  destruct (exec_op (CBIB x al a b pm) op o s1 g) as [[r1 t1] g1], (exec_op (CDP al) op o s2 g) as [[r2 t2] g2].
  destruct E as (<- & <- & E). apply IH; auto. destruct r1; exact E.
Qed.
