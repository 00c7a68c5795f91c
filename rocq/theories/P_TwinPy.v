(* PitmanYorProcess with discount 0 and DirichletProcess. *)
From Coq Require Import Lqa.
From Verif Require Import Prelude Numpy Rng M_Weights S_Weights S_Hist S_Twin P_Lists P_Hoare P_Wp P_Random P_Rel.
Open Scope Q_scope.
Open Scope m_scope.

Definition psim (s1 s2 : ws) : Prop := same_view s1 s2 /\ length (v s2) = length (w s2).
Lemma psim_d x y dd : psim x y -> psim (set_d dd x) (set_d dd y).
Proof. intros ((A & B & C) & L). split; [repeat split; assumption|exact L]. Qed.
Lemma psim_w x y : psim x y -> w x = w y. Proof. intros ((A & _) & _). exact A. Qed.
Lemma psim_fresh nv s1 s2 : d s1 = d s2 -> psim (refresh_w (set_v nv s1)) (refresh_w (set_v nv s2)).
Proof. intros H. split; [repeat split; simpl; auto|]. unfold refresh_w. simpl. rewrite stick_length. reflexivity. Qed.

Section P.
Variables (pd al : Q).
Hypothesis Hp : pd == 0.
Hypothesis Ha : 0 < al.

Lemma many_ok ab o (s : ws) g : allpos ab = true -> exists l g', beta_many ab o s g = (Ok l, s, g').
Proof. intros H. unfold beta_many. rewrite H. eauto. Qed.
Lemma py_pairs_peq js n : length js = n -> Forall2 peq (map (fun j => (1 - pd, al + nq j * pd)) js) (repeat (1, al) n).
Proof. intros <-. induction js; simpl; constructor; auto. split; simpl; rewrite Hp; ring. Qed.
Lemma one_al : allpos [(1, al)] = true.
Proof. simpl. rewrite (proj2 (qltb_lt 0 al) Ha). reflexivity. Qed.
Lemma rep_is_many n o (s : ws) g : beta_rep 1 al n o s g = beta_many (repeat (1, al) n) o s g.
Proof. unfold beta_rep, beta_many. rewrite one_al, (allpos_repeat _ _ _ one_al). reflexivity. Qed.

Lemma py_complete_twin z : rel psim psim psim (py_complete pd al z) (dp_complete al z).
Proof.
  unfold py_complete, dp_complete. eapply (rel_bind psim psim); [apply rel_blind; [apply blind_check|auto|auto]|]. intros _.
  eapply (rel_bind psim psim); [apply rel_blind; [apply blind_need_int|auto|auto]|]. intros k.
  apply rel_get. intros s1 s2 Hs. apply (rel_at psim _ _ _ _ _ _ Hs). destruct Hs as ((A & B & C) & L).
  rewrite A, C, <- L. destruct (_ <? k)%Z eqn:K; [|apply rel_ret; reflexivity]. apply Z.ltb_lt in K. cbv zeta.
  intros o t1 t2 g Ht. unfold bind, upd, get, ret. rewrite rep_is_many.
  rewrite (beta_many_peq _ _ o t1 g (py_pairs_peq (seq (length (v s2)) (Z.to_nat k - length (v s2))) (Z.to_nat (k - Z.of_nat (length (v s2)))) ltac:(rewrite seq_length; lia))).
  set (n := Z.to_nat (k - Z.of_nat (length (v s2)))).
  pose proof (blind_beta_many (repeat (1, al) n) o t1 t2 g) as Bl.
  destruct (beta_many (repeat (1, al) n) o t1 g) as [[r1 q1] g1], (beta_many (repeat (1, al) n) o t2 g) as [[r2 q2] g2].
  destruct Bl as (<- & <- & -> & ->). destruct r1 as [nv|e|]; [|repeat split; apply Ht..].
  repeat split; try (simpl; apply Ht). simpl. rewrite stick_length. reflexivity.
Qed.
Lemma zlt_one_nil l : is_nil l = false -> bincount l <> [].
Proof. intros H. apply bincount_nonnil. apply nonnil; assumption. Qed.

Definition nn_size (z : pysize) : Prop := match z with SNone => True | SInt k => (0 < k)%Z | _ => False end.
Lemma py_random_twin z : nn_size z -> rel psim psim psim (py_random pd al z) (dp_random al z).
Proof.
  intros Hz. unfold py_random, dp_random. apply rel_get. intros s1 s2 Hs. apply (rel_at psim _ _ _ _ _ _ Hs). destruct Hs as ((A & B & C) & L). rewrite B.
  destruct (is_snone z && is_nil (d s2)) eqn:En; [apply rel_raise; auto|].
  assert (P1 : qltb 0 (1 - pd) = true) by (apply qltb_lt; rewrite Hp; reflexivity).
  assert (Fit : forall (a_c b_c : list nat) (z : pysize),
     rel psim psim psim
      (nv <- beta_many (pairs (map (fun n => 1 - pd + nq n) a_c) (map (fun jn : nat * nat => al + nq (fst jn) * pd + nq (snd jn)) (combine (seq 0 (length a_c)) b_c))) ;;
       upd (set_v nv) ;; upd refresh_w ;; (if is_snone z then ret [] else py_complete pd al z) ;; s <- get ;; ret (w s))
      (upd (set_v []) ;; nv <- beta_many (pairs (map (fun n => 1 + nq n) a_c) (map (fun n => al + nq n) b_c)) ;;
       upd (set_v nv) ;; upd refresh_w ;; (if is_snone z then ret [] else dp_complete al z) ;; s <- get ;; ret (w s))).
  { intros a_c b_c z'.
    set (A1 := pairs (map (fun n => 1 - pd + nq n) a_c) _). set (A2 := pairs (map (fun n => 1 + nq n) a_c) _).
    assert (P : Forall2 peq A1 A2).
    { unfold A1, A2, pairs. clear A1 A2. generalize 0%nat. revert b_c. induction a_c; intros [|y l] k; simpl; constructor; auto.
      split; simpl; rewrite Hp; ring. }
    assert (Pos : allpos A2 = true).
    { clear P. unfold A2, pairs. clear A1 A2. revert b_c. induction a_c as [|n t IH]; intros [|m l]; simpl; auto. rewrite IH, andb_true_r.
      pose proof (nq_nonneg n). pose proof (nq_nonneg m). apply andb_true_intro. split; apply qltb_lt; lra. }
    intros o t1 t2 g Ht. unfold bind at 1. rewrite (beta_many_peq _ _ o t1 g P).
    unfold beta_many. rewrite Pos.
    revert Ht. intros ((Q1 & Q2 & Q3) & Q4).
    assert (G : rel psim psim psim ((if is_snone z' then ret [] else py_complete pd al z') ;; s <- get ;; ret (w s)) ((if is_snone z' then ret [] else dp_complete al z') ;; s <- get ;; ret (w s))).
    { eapply rel_bind; [destruct (is_snone z'); [apply rel_ret; reflexivity|apply py_complete_twin]|]. intros _. apply rel_get. intros u1 u2 Hu.
      apply (rel_at psim _ _ _ _ _ _ Hu). apply rel_ret. apply psim_w, Hu. }
    exact (G o _ _ (snd (beta_draws o A2 g)) (psim_fresh (fst (beta_draws o A2 g)) t1 (set_v [] t2) Q2)). }
  destruct z as [|k|k|]; try contradiction; cbn [is_snone] in *.
  - simpl in En. rewrite En. intros o t1 t2 g Ht. unfold bind at 1. unfold ret at 1. cbv zeta beta.
    exact (Fit (bincount (d s2)) (tail_counts (bincount (d s2))) SNone o t1 t2 g Ht).
  - simpl in Hz. destruct (is_nil (d s2)) eqn:En2.
    + intros o t1 t2 g Ht. unfold need_int. cbn [size_val]. unfold bind at 1. unfold ret at 1.
      rewrite P1. replace (k <? 0)%Z with false by (symmetry; apply Z.ltb_ge; lia). cbn [orb negb].
      unfold dp_complete. unfold bind, base_complete_check, need_int, upd, get, ret. cbn [size_val]. change (v (set_v [] t2)) with (@nil Q). cbn [length Z.of_nat].
      replace (0 <? k)%Z with true by (symmetry; apply Z.ltb_lt; lia).
      rewrite rep_is_many, (beta_many_peq _ _ o t1 g (py_pairs_peq (seq 0 (Z.to_nat k)) (Z.to_nat (k - 0)) ltac:(rewrite seq_length; lia))).
      set (n := Z.to_nat (k - 0)). unfold beta_many. rewrite (allpos_repeat _ _ _ one_al).
      destruct (beta_draws o (repeat (1, al) n) g) as [nv g']. repeat split; simpl; try apply Ht. rewrite stick_length. reflexivity.
    + intros o t1 t2 g Ht. unfold bind at 1. unfold need_int. cbn [size_val]. unfold bind at 1. unfold ret at 1 2. cbv zeta beta.
      apply (Fit (if (k <? Z.of_nat (length (bincount (d s2))))%Z then py_take k (bincount (d s2)) else bincount (d s2))
                   (if (k <? Z.of_nat (length (bincount (d s2))))%Z then py_take k (tail_counts (bincount (d s2))) else tail_counts (bincount (d s2))) (SInt k) o t1 t2 g Ht).
Qed.
Lemma py_wm_complete z : rel psim psim psim (wm_complete (CPY pd al) z) (wm_complete (CDP al) z).
Proof. simpl. apply rel_map, py_complete_twin. Qed.
Lemma py_tail_loop y fuel : rel psim psim psim (tail_loop (CPY pd al) fuel y) (tail_loop (CDP al) fuel y).
Proof.
  induction fuel; cbn [tail_loop]; (apply rel_get; intros s1 s2 Hs; apply (rel_at psim _ _ _ _ _ _ Hs); rewrite (psim_w _ _ Hs);
  destruct (qltb _ y); [|apply rel_ret; reflexivity]).
  - intros o t1 t2 g Ht. simpl. auto.
  - eapply rel_bind; [apply py_wm_complete|]. intros _. apply IHfuel.
Qed.
Lemma py_tail f y : rel psim psim psim (wm_tail (CPY pd al) f y) (wm_tail (CDP al) f y).
Proof.
  simpl wm_tail. unfold base_tail. destruct (qleb 1 y || qltb y 0); [apply rel_raise; auto|].
  apply rel_get. intros s1 s2 Hs. apply (rel_at psim _ _ _ _ _ _ Hs). rewrite (psim_w _ _ Hs).
  eapply (rel_bind psim psim).
  { destruct (is_nil (w s2)); [apply py_random_twin; simpl; auto; lia|apply rel_ret; reflexivity]. }
  intros _. eapply rel_bind; [apply py_tail_loop|]. intros _.
  apply rel_get. intros t1 t2 Ht. apply (rel_at psim _ _ _ _ _ _ Ht). apply rel_ret, psim_w, Ht.
Qed.
End P.
