(* C18, C19, C20: lengths, unfitted calls, refitting. *)
From Coq Require Import Lqa.
From Verif Require Import Prelude Numpy Rng M_Weights S_Weights S_Hist S_Oracle P_Lists P_Hoare P_Wp P_Complete P_Random P_Post P_Rel P_Refit P_Sticks.
Open Scope Q_scope.
Open Scope m_scope.

Lemma random_length_eq c nn dd z : stick_cls c = true -> pos_size z -> (z = SNone -> dd <> []) ->
  random_len c nn dd z = random_length c nn dd z.
Proof.
  intros Hc Hz Hn. unfold random_len, random_length. change (nmax dd) with (list_max dd).
  destruct c, z; try discriminate Hc; simpl; destruct dd; try reflexivity; try contradiction;
  try (exfalso; apply Hn; reflexivity); try lia.
Qed.

Lemma c18_proof c o z s g : valid_oracle o -> positive_size z ->
  match wm_random c z o s g with
  | (Ok a, s', _) => a = w s' /\ length (w s') = random_length c (wn s) (d s) z
  | _ => True
  end.
Proof.
  intros V Hz.
  destruct (stick_cls c) eqn:Hc.
  - assert (Hp : pos_size z) by (destruct z; simpl in *; auto).
    pose proof (wm_random_wp c o z s g Hc Hp) as H. unfold wp in H.
    assert (N : z = SNone -> d s = [] -> exists e, wm_random c z o s g = (Err e, s, g)).
    { intros -> Hd. destruct c; try discriminate Hc; simpl wm_random;
      unfold dp_random, py_random, geom_random, bib_random, bid_random, bb_random, bbin_random, bind, get, raise;
      rewrite Hd; eexists; reflexivity. }
    destruct (wm_random c z o s g) as [[[a|e|] s'] g'] eqn:E; [|exact I..].
    destruct H as ((Hw & _) & Hl & Hd & ->). split; [reflexivity|].
    rewrite Hw, stick_length, Hl. apply random_length_eq; auto.
    intros -> Hn. destruct (N eq_refl Hn) as [e He]; congruence.
  - destruct c; try discriminate Hc; simpl wm_random.
    + unfold dd_random, bind, get, upd, ret, dirichlet1.
      destruct (is_nil (d s)).
      * destruct (forallb _ _); simpl; auto. rewrite (vo_dir_len o V), map_length. auto.
      * destruct (length alpha <=? _)%nat eqn:E; simpl; auto. destruct (forallb _ _); simpl; auto.
        rewrite (vo_dir_len o V), !map_length, combine_length, firstn_length, app_length, repeat_length. split; auto. lia.
    + unfold eq_random, repeat_inv, bind, get, upd, ret, raise.
      destruct (wn s =? 0)%Z; auto. destruct (wn s <? 0)%Z; auto. simpl. rewrite repeat_length; auto.
    + unfold freq_random, repeat_inv, bind, get, upd, ret, raise.
      destruct (is_nil (d s)) eqn:En.
      * apply isnil in En. rewrite En. destruct (n =? 0)%Z; auto. destruct (n <? 0)%Z; auto. simpl. rewrite repeat_length; auto.
      * simpl. rewrite !map_length. apply nonnil in En. rewrite bincount_length by auto. destruct (d s); [congruence|]. auto.
Qed.

Lemma c19_proof c o s g : stick_breaking c -> d s = [] -> wm_random c SNone o s g = (Err ValueError, s, g).
Proof.
  intros Hc Hd. destruct c; try contradiction; simpl wm_random;
  unfold dp_random, py_random, geom_random, bib_random, bid_random, bb_random, bbin_random, bind, get, raise;
  rewrite Hd; reflexivity.
Qed.

Lemma c20_refit c z o s1 s2 dd g : memoryless c -> positive_size z -> wn s1 = wn s2 ->
  match wm_random c z o (set_d dd s1) g, wm_random c z o (set_d dd s2) g with
  | (r1, t1, g1), (r2, t2, g2) =>
      r1 = r2 /\ g1 = g2 /\ (is_ok r1 = true -> w t1 = w t2 /\ d t1 = dd /\ d t2 = dd)
  end.
Proof.
  intros Hc Hz Hn. pose proof (c20_proof c z o (set_d dd s1) (set_d dd s2) g Hc Hz eq_refl Hn) as H.
  unfold wp2 in H.
  assert (D : forall s, match wm_random c z o (set_d dd s) g with (Ok _, t, _) => d t = dd | _ => True end).
  { intros s. destruct (stick_cls c) eqn:E.
    - assert (Hp : pos_size z) by (destruct z; simpl in *; auto).
      pose proof (wm_random_wp c o z (set_d dd s) g E Hp) as H0. unfold wp in H0.
      destruct (wm_random c z o (set_d dd s) g) as [[[a|e|] s'] g']; auto. apply H0.
    - destruct c; try discriminate E; simpl wm_random;
      unfold dd_random, eq_random, freq_random, repeat_inv, bind, get, upd, ret, raise, dirichlet1;
      repeat match goal with |- context [if ?b then _ else _] => destruct b end; simpl; auto. }
  pose proof (D s1) as D1. pose proof (D s2) as D2.
  destruct (wm_random c z o (set_d dd s1) g) as [[r1 t1] g1], (wm_random c z o (set_d dd s2) g) as [[r2 t2] g2].
  destruct H as (<- & <- & H). repeat split; auto.
  - apply H; assumption.
  - destruct r1; [exact D1|discriminate..].
  - destruct r1; [exact D2|discriminate..].
Qed.

Lemma set_d_wn dd s : wn (set_d dd s) = wn s. Proof. reflexivity. Qed.
Lemma c20_reset c z o s g parg narg s0 g0 : memoryless c -> positive_size z -> new_ws c parg narg o = Ok (s0, g0) -> wn s = wn s0 ->
  match bind wm_reset (fun _ => wm_random c z) o s g, wm_random c z o s0 g with
  | (r1, t1, g1), (r2, t2, g2) =>
      r1 = r2 /\ g1 = g2 /\ (is_ok r1 = true -> w t1 = w t2 /\ d t1 = [] /\ d t2 = [])
  end.
Proof.
  intros Hc Hz Hn Hw.
  assert (E : s0 = set_d [] s0).
  { destruct c; simpl in Hn; try (injection Hn as <- _; reflexivity).
    - destruct (qltb (- pyd) alpha); [injection Hn as <- _; reflexivity|discriminate].
    - destruct (_ && true); [injection Hn as <- _; reflexivity|discriminate]. }
  pose proof (c20_refit c z o s s0 [] g Hc Hz Hw) as H. rewrite <- E in H. exact H.
Qed.
