(* The urn behind BetaInDirichlet. *)
From Coq Require Import Lqa.
From Verif Require Import Prelude Numpy Rng M_Weights S_Weights S_Hist S_Draws S_Oracle S_Urn P_Lists P_Hoare P_Wp P_Complete P_Random P_Post P_BB P_BB16 P_Bid.
Open Scope Q_scope.
Open Scope m_scope.

(* ---- counts ---- *)
Lemma n_eq_snoc j l x : n_eq j (l ++ [x]) = (n_eq j l + if Nat.eqb x j then 1 else 0)%nat.
Proof.
  unfold n_eq. rewrite count_occ_app. simpl. destruct (Nat.eq_dec x j) as [->|H]; [rewrite Nat.eqb_refl; reflexivity|].
  rewrite (proj2 (Nat.eqb_neq _ _)) by exact H. reflexivity.
Qed.
Lemma counts_length l k : length (counts_of l k) = k.
Proof. unfold counts_of. rewrite map_length, seq_length. reflexivity. Qed.
Lemma counts_nth l k j : (j < k)%nat -> nth j (counts_of l k) 0%nat = n_eq j l.
Proof.
  intros H. unfold counts_of. rewrite (nth_indep _ 0%nat (n_eq 0 l)) by (rewrite map_length, seq_length; exact H).
  rewrite (map_nth (fun j => n_eq j l)), seq_nth by exact H. reflexivity.
Qed.
Lemma n_eq_fresh k l : Forall (fun j => (j < k)%nat) l -> n_eq k l = 0%nat.
Proof. intros H. apply count_occ_not_In. intros Hin. rewrite Forall_forall in H. specialize (H _ Hin). lia. Qed.

Lemma counts_old l k p : (p < k)%nat ->
  firstn p (counts_of l k) ++ [S (nth p (counts_of l k) O)] ++ skipn (S p) (counts_of l k) = counts_of (l ++ [p]) k.
Proof.
  intros Hp. change (nset p (S (nth p (counts_of l k) O)) (counts_of l k) = counts_of (l ++ [p]) k).
  assert (L : (p < length (counts_of l k))%nat) by (rewrite counts_length; exact Hp).
  apply nth_ext with (d := 0%nat) (d' := 0%nat); [rewrite nset_length, !counts_length by exact L; reflexivity|].
  intros i Hi. rewrite nset_length, counts_length in Hi by exact L.
  rewrite (counts_nth (l ++ [p]) k i), n_eq_snoc by exact Hi. destruct (Nat.eq_dec i p) as [->|N].
  - rewrite nth_nset_same, counts_nth, Nat.eqb_refl by assumption. lia.
  - rewrite nth_nset_other, counts_nth by assumption. rewrite (proj2 (Nat.eqb_neq _ _)) by congruence. lia.
Qed.
Lemma counts_new l k : Forall (fun j => (j < k)%nat) l -> counts_of l k ++ [1%nat] = counts_of (l ++ [k]) (S k).
Proof.
  intros H. unfold counts_of. rewrite seq_S, map_app. simpl. f_equal.
  - apply map_ext_in. intros j Hj. apply in_seq in Hj. rewrite n_eq_snoc. rewrite (proj2 (Nat.eqb_neq _ _)) by lia. lia.
  - rewrite n_eq_snoc, (n_eq_fresh _ _ H), Nat.eqb_refl. reflexivity.
Qed.

(* ---- the total weight ---- *)
Lemma qsum_ind k p : qsum (map (fun j => nq (if Nat.eqb p j then 1 else 0)) (seq 0 k)) == if (p <? k)%nat then 1 else 0.
Proof.
  induction k as [|k IH]; [reflexivity|]. rewrite seq_S, map_app. simpl (0 + k)%nat. rewrite qsum_app. rewrite IH. cbn [map qsum].
  destruct (Nat.eqb_spec p k) as [->|N].
  - rewrite (proj2 (Nat.ltb_ge k k)), (proj2 (Nat.ltb_lt k (S k))) by lia. reflexivity.
  - destruct (Nat.ltb_spec p k); destruct (Nat.ltb_spec p (S k)); try lia; reflexivity.
Qed.
Lemma qsum_counts k l : Forall (fun j => (j < k)%nat) l -> qsum (map (fun j => nq (n_eq j l)) (seq 0 k)) == nq (length l).
Proof.
  induction l as [|p l IH]; intros H.
  - clear. generalize 0%nat at 1. induction k as [|k IH]; intros b; [reflexivity|]. cbn [seq map qsum]. rewrite IH. reflexivity.
  - inversion H; subst. specialize (IH H3).
    assert (E : qsum (map (fun j => nq (n_eq j (p :: l))) (seq 0 k)) ==
                qsum (map (fun j => nq (n_eq j l)) (seq 0 k)) + qsum (map (fun j => nq (if Nat.eqb p j then 1 else 0)) (seq 0 k))).
    { clear. generalize (seq 0 k). induction l0 as [|j t IH]; [reflexivity|]. cbn [map qsum] in *.
      rewrite IH. assert (X : nq (n_eq j (p :: l)) == nq (n_eq j l) + nq (if Nat.eqb p j then 1 else 0)).
      { rewrite <- nq_add. unfold n_eq. simpl. destruct (Nat.eq_dec p j) as [->|N]; [rewrite Nat.eqb_refl|rewrite (proj2 (Nat.eqb_neq _ _)) by exact N].
        - replace (S (count_occ Nat.eq_dec l j)) with (count_occ Nat.eq_dec l j + 1)%nat by lia. reflexivity.
        - replace (count_occ Nat.eq_dec l j + 0)%nat with (count_occ Nat.eq_dec l j) by lia. reflexivity. }
      rewrite X. ring. }
    rewrite E, IH, qsum_ind, (proj2 (Nat.ltb_lt p k)) by exact H2. cbn [length]. replace (S (length l)) with (length l + 1)%nat by lia.
    rewrite nq_add. reflexivity.
Qed.
Lemma urn_total a k l : Forall (fun j => (j < k)%nat) l -> qsum (urn_weights a k l) == nq (length l) + a.
Proof. intros H. unfold urn_weights. rewrite qsum_app, qsum_counts by exact H. cbn [qsum]. ring. Qed.

(* ---- logs ---- *)
Lemma choices_app o a : forall g b, choices o g (a ++ b) = choices o g a ++ choices o (g ++ a) b.
Proof. induction a as [|r t IH]; intros g b; [rewrite app_nil_r; reflexivity|]. destruct r; simpl; rewrite IH, <- app_assoc; reflexivity. Qed.
Lemma betas_app o a : forall g b, betas o g (a ++ b) = betas o g a ++ betas o (g ++ a) b.
Proof. induction a as [|r t IH]; intros g b; [rewrite app_nil_r; reflexivity|]. destruct r; simpl; rewrite IH, <- app_assoc; reflexivity. Qed.
Lemma chance_app o a : forall g b, chance o g (a ++ b) == chance o g a * chance o (g ++ a) b.
Proof. induction a as [|r t IH]; intros g b; [rewrite app_nil_r; simpl; ring|]. destruct r; simpl; rewrite IH, <- app_assoc; simpl; ring. Qed.
Lemma urn_requests_snoc al a ps : forall k seen p,
  urn_requests al a k seen (ps ++ [p]) = urn_requests al a k seen ps ++ urn_requests al a (labels_after k ps) (seen ++ ps) [p].
Proof.
  induction ps as [|q t IH]; intros k seen p; [simpl; rewrite !app_nil_r; reflexivity|].
  cbn [app urn_requests]. rewrite IH, <- app_assoc. cbn [app]. rewrite <- app_assoc. cbn [labels_after fold_left app]. reflexivity.
Qed.
Lemma picks_snoc ps : forall k p, picks k (ps ++ [p]) <-> picks k ps /\ (p <= labels_after k ps)%nat.
Proof.
  induction ps as [|q t IH]; intros k p; simpl; [tauto|]. rewrite IH. unfold labels_after. simpl. tauto.
Qed.

(* ---- one pick ---- *)
Lemma map_nq_counts seen k : map nq (counts_of seen k) = map (fun j => nq (n_eq j seen)) (seq 0 k).
Proof. unfold counts_of. rewrite map_map. reflexivity. Qed.
Lemma urn_weights_nonneg a k seen : 0 <= a -> forallb (qleb 0) (urn_weights a k seen) = true.
Proof.
  intros Ha. unfold urn_weights. rewrite forallb_app. simpl. rewrite andb_true_r. apply andb_true_intro. split.
  - apply forallb_forall. intros x Hx. apply in_map_iff in Hx. destruct Hx as (j & <- & _). apply Qle_bool_iff. apply nq_nonneg.
  - apply Qle_bool_iff. exact Ha.
Qed.
Lemma map_Qred_length l : length (map Qred l) = length l. Proof. apply map_length. Qed.
Lemma urn_weights_length a k seen : length (urn_weights a k seen) = S k.
Proof. unfold urn_weights. rewrite app_length, map_length, seq_length. simpl. lia. Qed.
Lemma exists_pos l : Forall (fun x => 0 <= x) l -> 0 < qsum l -> Exists (fun x => 0 < x) (map Qred l).
Proof.
  intros H S. destruct (Exists_dec (fun x => 0 < x) (map Qred l)) as [E|E]; [intros x; destruct (Qlt_le_dec 0 x); [left; assumption|right; lra]| exact E|].
  exfalso. assert (Z : qsum l == 0); [|lra]. induction l as [|x t IH]; [reflexivity|]. simpl in *. inversion H; subst.
  assert (x == 0). { destruct (Qlt_le_dec 0 x) as [L|L]; [|lra]. exfalso. apply E. apply Exists_cons_hd. rewrite Qred_correct. exact L. }
  rewrite H0. rewrite IH; [lra|assumption|lra|]. intros X. apply E. apply Exists_cons_tl. exact X.
Qed.

Lemma urn_step o al a s g seen : valid_oracle o -> 0 < al -> 0 <= a -> seen <> [] -> urn_state seen s ->
  let k := length (vbase s) in
  let p := o_choice o g (map Qred (urn_weights a k seen)) in
  let rs := urn_requests al a k seen [p] in
  exists s', bid_complete_step al a o s g = (Ok tt, s', g ++ rs) /\ (p <= k)%nat /\
    vbase s' = vbase s ++ betas o g rs /\ v s' = v s ++ [nth p (vbase s') 0] /\ dbase s' = dbase s ++ [p] /\ d s' = d s /\
    urn_state (seen ++ [p]) s' /\ length (vbase s') = next k p.
Proof.
  intros Vo Hal Ha Hs (Hc & Hf) k p rs.
  assert (HS : 0 < qsum (urn_weights a k seen)).
  { rewrite (urn_total a k seen Hf). destruct seen as [|x t]; [congruence|]. pose proof (nq_pos (length (x :: t)) ltac:(simpl; lia)). lra. }
  assert (HP : (p < S k)%nat).
  { destruct (vo_choice o Vo g (map Qred (urn_weights a k seen))) as [H _].
    - apply exists_pos; [|exact HS]. apply Forall_forall. intros x Hx. pose proof (urn_weights_nonneg a k seen Ha) as F. rewrite forallb_forall in F. apply Qle_bool_iff. apply (F x Hx).
    - rewrite map_length, urn_weights_length in H. exact H. }
  unfold bid_complete_step. cbv beta delta [bind get ret upd raise]. cbv beta iota. rewrite Hc, counts_length, Nat.eqb_refl.
  rewrite map_nq_counts. fold k. change (map (fun j => nq (n_eq j seen)) (seq 0 k) ++ [a]) with (urn_weights a k seen).
  unfold choice1. rewrite (urn_weights_nonneg a k seen Ha), (proj2 (qltb_lt _ _) HS). cbn [andb]. fold p.
  unfold rs. cbn [urn_requests]. rewrite app_nil_r.
  destruct (p <? k)%nat eqn:E.
  - apply Nat.ltb_lt in E. eexists. split; [reflexivity|]. simpl. rewrite app_nil_r. split; [lia|].
    split; [reflexivity|]. split; [reflexivity|]. split; [reflexivity|]. split; [reflexivity|]. split.
    + unfold urn_state. simpl. fold k. split; [apply (counts_old seen k p E)|]. apply Forall_app. split; [exact Hf|]. constructor; [exact E|constructor].
    + unfold next. rewrite (proj2 (Nat.ltb_lt p k) E). reflexivity.
  - apply Nat.ltb_ge in E. assert (p = k) by lia.
    unfold beta1. cbn [allpos forallb fst snd]. rewrite (proj2 (qltb_lt 0 1) ltac:(lra)), (proj2 (qltb_lt 0 al) Hal). cbn [andb].
    eexists. split; [rewrite <- app_assoc; reflexivity|]. simpl. split; [lia|]. split; [reflexivity|]. split; [|split; [reflexivity|split; [reflexivity|split]]].
    + rewrite H. unfold k. rewrite app_nth2, Nat.sub_diag by lia. reflexivity.
    + unfold urn_state. simpl. rewrite app_length. simpl. fold k. replace (k + 1)%nat with (S k) by lia. rewrite H. split; [apply (counts_new seen k Hf)|].
      apply Forall_app. split; [|constructor; [lia|constructor]]. eapply Forall_impl; [|exact Hf]. simpl. intros; fold k in H0; lia.
    + rewrite app_length. simpl. fold k. unfold next. rewrite (proj2 (Nat.ltb_ge p k) E). lia.
Qed.

Lemma urn_requests_cons al a k seen p t :
  urn_requests al a k seen (p :: t) = urn_requests al a k seen [p] ++ urn_requests al a (next k p) (seen ++ [p]) t.
Proof. cbn [urn_requests]. rewrite app_nil_r. rewrite <- app_comm_cons. reflexivity. Qed.
Lemma choices_one o al a k seen g p : choices o g (urn_requests al a k seen [p]) = [o_choice o g (map Qred (urn_weights a k seen))].
Proof. cbn [urn_requests choices]. destruct (p <? k)%nat; reflexivity. Qed.

(* the first labels_after k ps sticks exist after the picks *)
Lemma next_ge k p : (k <= next k p)%nat. Proof. unfold next. destruct (p <? k)%nat; lia. Qed.
Lemma pick_lt_next k p : (p <= k)%nat -> (p < next k p)%nat.
Proof. unfold next. destruct (Nat.ltb_spec p k); lia. Qed.

Lemma urn_run o al a : valid_oracle o -> 0 < al -> 0 <= a ->
  forall n seen s g, seen <> [] -> urn_state seen s ->
  exists ps s', let rs := urn_requests al a (length (vbase s)) seen ps in
    repeatM n (bid_complete_step al a) o s g = (Ok tt, s', g ++ rs) /\ length ps = n /\ picks (length (vbase s)) ps /\
    choices o g rs = ps /\ vbase s' = vbase s ++ betas o g rs /\ v s' = v s ++ map (fun p => nth p (vbase s') 0) ps /\
    dbase s' = dbase s ++ ps /\ d s' = d s /\ urn_state (seen ++ ps) s'.
Proof.
  intros Vo Hal Ha. induction n as [|n IH]; intros seen s g Hs Hu.
  - exists [], s. cbn [repeatM urn_requests picks choices betas map length ret]. unfold ret. rewrite !app_nil_r. repeat (split; [reflexivity||exact I|]). exact Hu.
  - destruct (urn_step o al a s g seen Vo Hal Ha Hs Hu) as (s1 & E & Hp & Hvb & Hv & Hdb & Hd & Hu1 & Hl).
    set (k := length (vbase s)) in *. set (p := o_choice o g (map Qred (urn_weights a k seen))) in *.
    set (r1 := urn_requests al a k seen [p]) in *.
    destruct (IH (seen ++ [p]) s1 (g ++ r1)) as (ps & s' & E' & L & Pk & Ch & Vb & Vv & Db & Dd & U); [destruct seen; discriminate|exact Hu1|].
    rewrite Hl in *. exists (p :: ps), s'. cbv zeta. rewrite (urn_requests_cons al a k seen p ps). fold r1.
    cbn [repeatM]. unfold bind at 1. rewrite E, E', <- app_assoc. split; [reflexivity|].
    split; [simpl; lia|]. split; [split; assumption|]. split; [|split; [|split; [|split; [|split]]]].
    + rewrite choices_app, Ch. unfold r1. rewrite choices_one. reflexivity.
    + rewrite Vb, Hvb, betas_app, app_assoc. reflexivity.
    + rewrite Vv, Hv, <- app_assoc. f_equal. cbn [map app]. f_equal. rewrite Vb, app_nth1; [reflexivity|]. rewrite Hl. apply pick_lt_next. exact Hp.
    + rewrite Db, Hdb, <- app_assoc. reflexivity.
    + congruence.
    + rewrite <- app_assoc in U. exact U.
Qed.

Lemma urn_complete o al a s g seen size z : valid_oracle o -> 0 < al -> 0 <= a -> seen <> [] -> urn_state seen s -> size_val size = Some z ->
  exists ps s' g', wm_complete (CBID al a) size o s g = (Ok None, s', g') /\ d s' = d s /\
    urn_extends al a (vbase s) (v s) (dbase s) seen (Z.to_nat (z - Z.of_nat (length (v s)))) o g s' g' ps.
Proof.
  intros Vo Hal Ha Hs Hu Hz.
  destruct (urn_run o al a Vo Hal Ha (Z.to_nat (z - Z.of_nat (length (v s)))) seen s g Hs Hu) as (ps & s1 & E & L & Pk & Ch & Vb & Vv & Db & Dd & U).
  exists ps, (refresh_w s1), (g ++ urn_requests al a (length (vbase s)) seen ps). split; [|split; [exact Dd|]].
  - assert (Hn : is_nil (vbase s) = false).
    { destruct Hu as [_ F]. destruct seen as [|x t]; [congruence|]. inversion F; subst. destruct (vbase s); [simpl in *; lia|reflexivity]. }
    unfold wm_complete, bid_complete. cbv beta delta [bind get ret upd raise need_int]. cbv beta iota. rewrite Hn, Hz. rewrite E. reflexivity.
  - split; [exact L|]. split; [exact Pk|]. split; [reflexivity|]. split; [exact Ch|]. split; [exact Vb|]. split; [exact Vv|]. split; [exact Db|].
    split; [apply stick_image_stick|]. exact U.
Qed.

Lemma urn_prior o al a s g n : valid_oracle o -> 0 < al -> 0 <= a -> d s = [] ->
  exists ps s' g', wm_random (CBID al a) (SInt (Z.of_nat n)) o s g = (Ok (w s'), s', g') /\ d s' = [] /\
    urn_extends al a (beta_answers o g [rbeta 1 al]) [] (dbase s) [0%nat] n o (g ++ [rbeta 1 al]) s' g' ps.
Proof.
  intros Vo Hal Ha Hd.
  set (s0 := set_cbase [1%nat] (set_vbase [o_beta o g (Qred 1) (Qred al)] (set_vbase [] (set_v [] s)))).
  assert (U0 : urn_state [0%nat] s0) by (split; [reflexivity|constructor; [simpl; lia|constructor]]).
  destruct (urn_run o al a Vo Hal Ha n [0%nat] s0 (g ++ [rbeta 1 al]) ltac:(discriminate) U0) as (ps & s1 & E & L & Pk & Ch & Vb & Vv & Db & Dd & U).
  exists ps, (refresh_w s1), ((g ++ [rbeta 1 al]) ++ urn_requests al a 1 [0%nat] ps). split; [|split; [simpl; rewrite Dd; exact Hd|]].
  - unfold wm_random, bid_random. cbv beta delta [bind get ret upd raise]. cbv beta iota. rewrite Hd. cbn [is_snone andb].
    unfold bid_complete. cbv beta delta [bind get ret upd raise need_int]. cbv beta iota. cbn [size_val vbase v set_vbase set_v is_nil].
    unfold beta_rep. cbn [allpos forallb fst snd]. rewrite (proj2 (qltb_lt 0 1) ltac:(lra)), (proj2 (qltb_lt 0 al) Hal). cbn [andb repeat beta_draws fst snd].
    fold s0. cbn [v set_cbase set_vbase set_v length]. rewrite Z.sub_0_r, Nat2Z.id. rewrite E. reflexivity.
  - split; [exact L|]. split; [exact Pk|]. split; [reflexivity|]. split; [exact Ch|]. split; [exact Vb|]. split; [exact Vv|]. split; [exact Db|].
    split; [apply stick_image_stick|]. exact U.
Qed.

Lemma fitted_urn o al a s g size r s' g' : valid_oracle o -> d s <> [] -> wm_random (CBID al a) size o s g = (Ok r, s', g') ->
  urn_state (dbase s') s' /\ length (dbase s') = S (list_max (d s)).
Proof.
  intros Vo Hd E. pose proof (c17_fit_proof al a size o s g Vo Hd) as F. unfold ends_with, wp in F. rewrite E in F. cbn [is_ok] in F.
  destruct (F eq_refl) as (L & Fl & C & _). split; [split; assumption|exact L].
Qed.

(* ---- probabilities ---- *)
Lemma urn_weight_nth a k seen p : (p <= k)%nat -> nth p (urn_weights a k seen) 0 = if (p <? k)%nat then nq (n_eq p seen) else a.
Proof.
  intros H. unfold urn_weights. destruct (Nat.ltb_spec p k).
  - rewrite app_nth1 by (rewrite map_length, seq_length; assumption).
    rewrite (nth_indep _ 0 (nq (n_eq 0 seen))) by (rewrite map_length, seq_length; assumption).
    rewrite (map_nth (fun j => nq (n_eq j seen))), seq_nth by assumption. reflexivity.
  - rewrite app_nth2 by (rewrite map_length, seq_length; assumption). rewrite map_length, seq_length. replace (p - k)%nat with 0%nat by lia. reflexivity.
Qed.
Lemma qsum_Qred l : qsum (map Qred l) == qsum l.
Proof. induction l as [|x t IH]; [reflexivity|]. simpl. rewrite IH, Qred_correct. reflexivity. Qed.
Lemma nth_Qred l i : nth i (map Qred l) 0 == nth i l 0.
Proof. change 0 with (Qred 0) at 1. rewrite map_nth. apply Qred_correct. Qed.
Lemma urn_chance_log o al a : forall ps k seen g, Forall (fun j => (j < k)%nat) seen -> picks k ps ->
  choices o g (urn_requests al a k seen ps) = ps -> chance o g (urn_requests al a k seen ps) == urn_chance a k seen ps.
Proof.
  induction ps as [|p t IH]; intros k seen g Hf Hp Hc; [reflexivity|]. destruct Hp as [Hp Ht].
  rewrite urn_requests_cons in *. rewrite choices_app, choices_one in Hc. cbn [app] in Hc. injection Hc as Hc1 Hc2.
  rewrite chance_app. cbn [urn_chance]. rewrite IH.
  - assert (E : chance o g (urn_requests al a k seen [p]) == (if (p <? k)%nat then nq (n_eq p seen) else a) / (nq (length seen) + a)).
    { cbn [urn_requests chance]. rewrite Hc1, nth_Qred, urn_weight_nth, qsum_Qred, urn_total by assumption.
      destruct (p <? k)%nat; simpl; ring. }
    rewrite E. reflexivity.
  - apply Forall_app. split; [|constructor; [apply pick_lt_next; exact Hp|constructor]].
    eapply Forall_impl; [|exact Hf]. simpl. intros x Hx. pose proof (next_ge k p). lia.
  - exact Ht.
  - exact Hc2.
Qed.
