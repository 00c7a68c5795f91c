(* The start of a Gibbs fit and its slices (C89). *)
From Coq Require Import Lqa.
From Verif Require Import Prelude Numpy Rng M_Weights M_Niw M_Utils M_Mix M_Query S_Oracle S_Weights S_Niw S_Mix S_Fresh S_Flags S_Query S_Sort S_Assign S_Map S_SliceStep S_GibbsStart P_Lists P_Wp P_Hoare P_Assign P_Mix P_MixW P_Mix37 P_Mix33 P_Map P_Fresh P_Flags P_Sort P_Clu P_Fail P_Shape P_SliceStep P_Random P_Log.
Open Scope Q_scope.
Open Scope m_scope.

Lemma eps_red : Qred eps = eps52. Proof. reflexivity. Qed.
Lemma grows {S A} (m : M S A) o s g r s' g' : logs (fun _ => True) m -> m o s g = (r, s', g') -> exists t, g' = g ++ t.
Proof. intros L E. destruct (L o s g) as (t & H & _). rewrite E in H. exists t. exact H. Qed.
Lemma first_log o n : forall g, unif_draws o (repeat (eps, 1) n) g = (answers o g (first_slices n), g ++ first_slices n).
Proof.
  induction n as [|n IH]; intros g; simpl; [rewrite app_nil_r; reflexivity|]. cbv zeta. rewrite IH. unfold runif. rewrite eps_red. cbn [fst snd]. change (Qred 1) with 1.
  rewrite <- app_assoc. reflexivity.
Qed.
Lemma sweep_log o x l : forall g, unif_draws o (map (fun j => (eps, nth j x 0 + eps)) l) g = (answers o g (sweep_slices x l), g ++ sweep_slices x l).
Proof.
  induction l as [|j l IH]; intros g; simpl; [rewrite app_nil_r; reflexivity|]. cbv zeta. rewrite IH. unfold runif. rewrite eps_red. cbn [fst snd].
  change (Qred (nth j x 0 + eps)) with (Qred (nth j x 0 + eps52)). rewrite <- app_assoc. reflexivity.
Qed.
Lemma qmin_from l : forall a, let m := fold_left (fun a b => if qltb b a then b else a) l a in (m = a \/ In m l) /\ m <= a /\ Forall (fun x => m <= x) l.
Proof.
  induction l as [|b l IH]; intros a; cbn [fold_left].
  - split; [left; reflexivity|]. split; [apply Qle_refl|constructor].
  - specialize (IH (if qltb b a then b else a)). cbv zeta in *. destruct IH as (I1 & I2 & I3). set (m := fold_left _ l _) in *.
    destruct (qltb b a) eqn:Q.
    + apply qltb_lt in Q. split; [right; destruct I1 as [->|I1]; simpl; auto|]. split; [lra|]. constructor; [lra|exact I3].
    + assert (a <= b) by (apply Qnot_lt_le; intros X; apply qltb_lt in X; congruence). split; [destruct I1 as [->|I1]; simpl; auto|]. split; [exact I2|]. constructor; [lra|exact I3].
Qed.
Lemma qmin_least l : l <> [] -> least (qmin l) l.
Proof.
  destruct l as [|a l]; [congruence|]. intros _. unfold qmin. destruct (qmin_from l a) as (I1 & I2 & I3). split; [simpl; destruct I1 as [I1|I1]; [left; symmetry; exact I1|right; exact I1]|].
  constructor; assumption.
Qed.

Lemma init_common_log y o s g s' g' : init_common y o s g = (Ok tt, s', g') -> g' = g /\ s_wm s' = s_wm s /\ s_n s' = s_n s.
Proof.
  intros H1. assert (K : (s_wm s', s_n s') = (s_wm s, s_n s)) by (eapply (keeps_ok (fun s => (s_wm s, s_n s))); [apply (keeps_init_common (fun s => (s_wm s, s_n s))); reflexivity|exact H1]).
  injection K as K1 K2. split; [|auto].
  assert (D := init_common_shape _ _ _ _ _ _ H1). destruct D as (D & _).
  unfold init_common in H1. apply bind_ok in H1 as (? & ? & ? & A1 & H1). destruct y; try discriminate A1; unfold set_obs, upd in A1; injection A1 as <- <- <-;
    unfold bind, get, upd, raise, ret in H1; repeat match type of H1 with context [match ?x with _ => _ end] => destruct x end; try discriminate H1; injection H1 as _ <-; reflexivity.
Qed.

Definition start_rest E c fuel (ig : pysize) (meth : vmethod) (sn : option Z) (one : bool) (n : nat) : M ms unit :=
  (if is_snone ig then tail_to_slice c fuel else onw (wm_complete c ig) ;; ret tt) ;;
  match meth with
  | IKmeans =>
      let k := match sn with
               | Some k => k
               | None => match size_val ig with Some k => k | None => 2%Z end
               end in
      (if one then raise ValueError else ret tt) ;;
      s <- get ;;
      l <- kmeans_cluster_size_biased (e_argsort E) (s_y s) k ;;
      upd (upd_d (Some l))
  | IRandom =>
      l <- onw (wm_random_assignment (SInt (Z.of_nat n))) ;;
      upd (upd_d (Some l))
  | IVariational =>
      s <- get ;;
      fit_variational E c (if s_1d s then YArr1 (map (fun r => vat r 0) (s_y s)) else YArr2 (s_y s) (s_dim s))
                      (SInt (Z.of_nat (length (w (s_wm s))))) false (1 # 10 ^ 8) IKmeans ;;
      s <- get ;;
      upd (upd_d (Some (argmax0 (vresp (s_var s)) (length (s_y s)))))
  | IOther => raise AttributeError
  end.
Lemma bind_ext {S A B} (m : M S A) (k k' : A -> M S B) o s g : (forall a s1 g1, m o s g = (Ok a, s1, g1) -> k a o s1 g1 = k' a o s1 g1) -> bind m k o s g = bind m k' o s g.
Proof. intros H. unfold bind. destruct (m o s g) as [[[a|e|] s1] g1]; auto. Qed.
Lemma init_split E c fuel ig meth o s g : exists s1, s_y s1 = s_y s /\ s_dim s1 = s_dim s /\ s_1d s1 = s_1d s /\ s_wm s1 = s_wm s /\ s_n s1 = s_n s /\
  s_u s1 = answers o g (first_slices (length (s_y s))) /\
  init_gibbs E c fuel ig meth o s g = start_rest E c fuel ig meth (s_n s) (s_1d s) (length (s_y s)) o s1 (g ++ first_slices (length (s_y s))).
Proof.
  unfold init_gibbs. eexists. refine (conj _ (conj _ (conj _ (conj _ (conj _ (conj _ _)))))). 7:{ unfold bind at 1, upd at 1. unfold bind at 1, upd at 1. unfold bind at 1, upd at 1. unfold bind at 1, get at 1. unfold bind at 1, upd at 1.
    unfold bind at 1, unif_many at 1. cbn [s_y upd_sims upd_theta upd_gen]. rewrite first_log. cbn [fst snd]. unfold bind at 1, upd at 1. unfold start_rest.
    apply bind_ext. intros [] s2 g2 X. destruct meth; try reflexivity. cbn [s_1d s_n upd_sims upd_theta upd_gen].
    apply bind_ext. intros [] s3 g3 X3. unfold bind at 2, get. 
    assert (Y : s_y s3 = s_y s).
    { assert (s_y s3 = s_y s2) as -> by (destruct (s_1d s); [discriminate X3|injection X3 as <- _; reflexivity]).
      revert X. match goal with |- ?m o ?x ?h = _ -> _ => intros X; transitivity (s_y x); [eapply (keeps_ok s_y); [|exact X]|reflexivity] end.
      destruct (is_snone ig); [apply keeps_tail_to_slice; reflexivity|keep; reflexivity]. }
    rewrite Y. reflexivity. }
  all: reflexivity.
Qed.
Lemma logs_start_rest E c fuel ig meth a b n : logs (fun _ => True) (start_rest E c fuel ig meth a b n).
Proof.
  unfold start_rest. apply logs_bind.
  - destruct (is_snone ig); [apply logs_tail_to_slice; auto|apply logs_bind; [apply logs_onw, logs_wm_complete; auto|intros; apply logs_ret]].
  - intros _. destruct meth.
    + apply logs_bind; [destruct b; [apply logs_raise|apply logs_ret]|intros _]. apply logs_bind; [apply logs_get|intros ?]. apply logs_bind; [apply logs_km; auto|intros; apply logs_upd].
    + apply logs_bind; [apply logs_onw, logs_wm_random_assignment; auto|intros; apply logs_upd].
    + apply logs_bind; [apply logs_get|intros ?]. apply logs_bind; [apply logs_fit_variational; auto|intros; apply logs_bind; [apply logs_get|intros; apply logs_upd]].
    + apply logs_raise.
Qed.
Lemma c89_first_proof E c fuel y ig meth o s g r s' g' : is_data y = true -> has_nu s y -> fit_gibbs E c fuel y ig false meth o s g = (r, s', g') ->
  exists t, g' = g ++ first_slices (length (rows_of y)) ++ t.
Proof.
  intros D N H. destruct (init_common_ok y o s g D N) as (s1 & I). pose proof (init_common_shape _ _ _ _ _ _ I) as (_ & Y & _).
  unfold fit_gibbs in H. unfold bind in H at 1. rewrite I in H.
  destruct (init_split E c fuel ig meth o s1 g) as (s2 & _ & _ & _ & _ & _ & _ & X).
  unfold bind in H at 1. unfold bind in H at 1. rewrite X, Y in H.
  destruct (start_rest _ _ _ _ _ _ _ _ o s2 _) as [[r3 s3] g3] eqn:X3. apply grows in X3 as (t3 & ->); [|apply logs_start_rest].
  set (h := g ++ first_slices (length (rows_of y))) in *.
  assert (Z : exists t, g' = h ++ t).
  2:{ destruct Z as (t & ->). exists t. unfold h. rewrite <- app_assoc. reflexivity. }
  destruct r3 as [[]|e|]; [|injection H as _ _ <-; eauto..].
  destruct (update_map E c o s3 (h ++ t3)) as [[r4 s4] g4] eqn:X4. apply grows in X4 as (t4 & ->); [|apply logs_update_map; auto].
  destruct r4 as [[]|e|]; [|injection H as _ _ <-; exists (t3 ++ t4); rewrite app_assoc; reflexivity..].
  apply grows in H as (t5 & ->); [exists (t3 ++ t4 ++ t5); rewrite <- !app_assoc; reflexivity|].
  apply logs_bind; [apply logs_get|intros ?]. apply logs_bind; [apply logs_burn; auto|intros ?]. apply logs_bind; [apply logs_train; auto|intros ?; apply logs_upd].
Qed.

(* the start *)
Lemma start_weights_ok c fuel ig o s g s' g' : (if is_snone ig then tail_to_slice c fuel else onw (wm_complete c ig) ;; ret tt) o s g = (Ok tt, s', g') ->
  start_weights c fuel ig (s_u s) o (s_wm s) g (s_wm s') g' /\ s' = upd_wm (s_wm s') s.
Proof.
  destruct (is_snone ig) eqn:Ei.
  - destruct ig; try discriminate Ei. unfold tail_to_slice. intros H. apply bind_ok in H as (? & t & gt & Ht & H). injection Ht as <- <- <-.
    destruct (is_nil (s_u s)) eqn:En; [discriminate H|]. apply nonnil in En. apply bind_ok in H as (r & t & gt & Ht & H). injection H as <- <-.
    unfold onw in Ht. destruct (wm_tail c fuel (1 - qmin (s_u s)) o (s_wm s) g) as [[q x] gx] eqn:W. injection Ht as -> <- <-. split; [|reflexivity].
    exists (qmin (s_u s)), r. split; [apply qmin_least; exact En|exact W].
  - intros H. apply bind_ok in H as (r & t & gt & Ht & H). injection H as <- <-.
    unfold onw in Ht. destruct (wm_complete c ig o (s_wm s) g) as [[q x] gx] eqn:W. injection Ht as -> <- <-. split; [|reflexivity].
    destruct ig; try discriminate Ei; exists r; exact W.
Qed.
Lemma complete_other c o x g r x' g' : built_groups c 0 = None -> wm_complete c SOther o x g <> (Ok r, x', g').
Proof.
  intros B H. destruct c; try discriminate B; simpl in H; apply bind_ok in H as (? & ? & ? & H & _).
  5:{ unfold bid_complete in H. apply bind_ok in H as (? & ? & ? & _ & H). apply bind_ok in H as (? & ? & ? & _ & H). apply bind_ok in H as (? & ? & ? & H & _). discriminate H. }
  all: try (unfold dp_complete, py_complete, geom_complete, bib_complete, bb_complete, bbin_complete in H; apply bind_ok in H as (? & ? & ? & H & _); discriminate H).
Qed.
Lemma c89_start_proof E c fuel y ig meth o s g s' g' : argsorts (e_argsort E) -> (s_n s = None -> built_groups c 0 = None) ->
  fit_gibbs E c fuel y ig false meth o s g = (Ok tt, s', g') ->
  exists x1 g1 p ll s1 g2 b, let rows := rows_of y in let n := length rows in
    start_weights c fuel ig (answers o g (first_slices n)) o (s_wm s) (g ++ first_slices n) x1 g1 /\
    replay E c fuel y ig false meth 0 o s g = (Ok [(p, ll)], s1, g2) /\ g' = g2 ++ b /\
    match meth with
    | IKmeans => exists k, start_groups (s_n s) ig = Some k /\ (1 <= k <= Z.of_nat n)%Z /\ kmeans_labels o g1 rows k (r_d p) /\
        exists a a2, g1 = g ++ first_slices n ++ a /\ g2 = g1 ++ [RKMeans rows (Z.to_nat k)] ++ a2 /\ Forall not_kmeans (a ++ a2 ++ b)
    | IRandom => r_d p = map (assign_label (w x1)) (unif_answers o g1 n)
    | IVariational => exists sv sv' gv y2, s_wm sv = x1 /\ rows_of y2 = rows /\ cols_of y2 = cols_of y /\ (forall l, y2 <> YSeries l) /\
        fit_variational E c y2 (SInt (Z.of_nat (length (w x1)))) false (1 # 100000000) IKmeans o sv g1 = (Ok tt, sv', gv) /\
        likeliest (vresp (s_var sv')) n (r_d p)
    | IOther => False
    end.
Proof.
  intros Ha Hb H. unfold fit_gibbs in H. apply bind_ok in H as ([] & s1 & g1 & H1 & H). pose proof (init_common_shape _ _ _ _ _ _ H1) as (_ & Y & Dm & F).
  pose proof (init_common_log _ _ _ _ _ _ H1) as (-> & W1 & N1).
  apply bind_ok in H as ([] & s2 & g2 & H2 & H). apply bind_ok in H2 as ([] & s3 & g3 & H3 & H2).
  assert (Hr : exists p ll s5 g5, replay E c fuel y ig false meth 0 o s g = (Ok [(p, ll)], s5, g5) /\ g5 = g2 /\ r_d p = labels_of s3).
  { unfold update_map in H2. apply bind_ok in H2 as (ll & s4 & g4 & H4 & H2). 
    assert (Kd : s_d s4 = s_d s3) by (eapply (keeps_ok s_d); [apply keeps_run_loglik; reflexivity|exact H4]).
    assert (Eg : g2 = g4).
    { unfold bind, get in H2. destruct (lx_ltb _ _); [injection H2 as _ <-; reflexivity|]. destruct (lx_is_neg _); injection H2 as _ <-; reflexivity. }
    exists (get_run_params s4), ll, s4, g4. split; [|split; [auto|unfold labels_of; simpl; rewrite Kd; reflexivity]].
    unfold replay. unfold bind at 1. rewrite H1. unfold bind at 1. unfold bind at 1. rewrite H3. unfold visit, bind. rewrite H4. reflexivity. }
  destruct Hr as (p & ll & s5 & g5 & Hr & -> & Ed).
  destruct (init_split E c fuel ig meth o s1 g) as (t1 & T1 & T2 & T3 & T4 & T5 & T6 & T7). rewrite T7, Y in H3. rewrite Y in T6. clear T7.
  unfold start_rest in H3. apply bind_ok in H3 as ([] & t2 & h2 & A2 & H3). apply start_weights_ok in A2 as (SW & Et2). rewrite T4, T6, W1 in SW.
  assert (Y2 : s_y t2 = rows_of y) by (rewrite Et2; simpl; rewrite T1; exact Y). assert (D2 : s_1d t2 = s_1d s1) by (rewrite Et2; exact T3). assert (M2 : s_dim t2 = cols_of y) by (rewrite Et2; simpl; rewrite T2; exact Dm).
  assert (Gb : exists b, g' = g2 ++ b).
  { apply grows in H; [exact H|]. apply logs_bind; [apply logs_get|intros ?]. apply logs_bind; [apply logs_burn; auto|intros ?]. apply logs_bind; [apply logs_train; auto|intros ?; apply logs_upd]. }
  destruct Gb as (b & Eb).
  exists (s_wm t2), h2, p, ll, s5, g2, b. cbv zeta. split; [exact SW|]. split; [exact Hr|]. split; [exact Eb|].
  destruct meth.
  - apply bind_ok in H3 as ([] & t3 & h3 & A3 & H3). destruct (s_1d s1) eqn:E1; [discriminate A3|]. injection A3 as <- <-. apply bind_ok in H3 as (? & t3 & h3 & A3 & H3). injection A3 as <- <- <-.
    rewrite Y2 in H3. set (k := match s_n s1 with Some k => k | None => match size_val ig with Some k => k | None => 2%Z end end) in *.
    apply bind_ok in H3 as (l & t3 & h3 & A3 & H3). injection H3 as <- <-.
    assert (Hk : (1 <= k <= Z.of_nat (length (rows_of y)))%Z).
    { destruct (Z.le_gt_cases 1 k) as [K1|K1]; [destruct (Z.le_gt_cases k (Z.of_nat (length (rows_of y)))) as [K2|K2]; [auto|]|]; exfalso; unfold vec in *; rewrite c45_bad_k_proof in A3 by lia; discriminate A3. }
    destruct (c45_relabel_proof (e_argsort E) ms t2 (rows_of y) k o h2 Ha Hk) as (l' & K1 & K2). rewrite K1 in A3. injection A3 as -> <- <-.
    exists k. split.
    { unfold start_groups, k. rewrite N1. destruct (s_n s) as [m|] eqn:Es; [reflexivity|]. destruct ig; try reflexivity.
      exfalso. destruct SW as (r & SW). exact (complete_other _ _ _ _ _ _ _ (Hb eq_refl) SW). }
    split; [exact Hk|]. split; [rewrite Ed; exact K2|].
    assert (L1 : exists a, h2 = (g ++ first_slices (length (rows_of y))) ++ a /\ Forall not_kmeans a).
    { destruct ig; cbn in SW; [destruct SW as (m & r & _ & SW)|destruct SW as (r & SW)..].
      - destruct (logs_wm_tail not_kmeans) with (c := c) (f := fuel) (x := 1 - m) (o := o) (s := s_wm s) (g := g ++ first_slices (length (rows_of y))) as (a & X & Fa); try (intros; exact I); try exact I.
        rewrite SW in X. simpl in X. eauto.
      - edestruct (logs_wm_complete not_kmeans) with (c := c) (o := o) (s := s_wm s) (g := g ++ first_slices (length (rows_of y))) as (a & X & Fa); try (intros; exact I); try exact I.
        rewrite SW in X. simpl in X. eauto.
      - edestruct (logs_wm_complete not_kmeans) with (c := c) (o := o) (s := s_wm s) (g := g ++ first_slices (length (rows_of y))) as (a & X & Fa); try (intros; exact I); try exact I.
        rewrite SW in X. simpl in X. eauto.
      - edestruct (logs_wm_complete not_kmeans) with (c := c) (o := o) (s := s_wm s) (g := g ++ first_slices (length (rows_of y))) as (a & X & Fa); try (intros; exact I); try exact I.
        rewrite SW in X. simpl in X. eauto. }
    destruct L1 as (a & -> & Fa).
    assert (L2 : exists a2, g2 = ((g ++ first_slices (length (rows_of y))) ++ a) ++ [RKMeans (rows_of y) (Z.to_nat k)] ++ a2 /\ Forall not_kmeans a2).
    { match type of H2 with update_map E c o ?x ?gg = _ => destruct (logs_update_map not_kmeans) with (E := E) (c := c) (o := o) (s := x) (g := gg) as (a2 & X & F2); try (intros; exact I); try exact I end.
      rewrite H2 in X. simpl in X. exists a2. rewrite app_assoc. auto. }
    destruct L2 as (a2 & E2 & F2). exists a, a2. rewrite app_assoc. split; [reflexivity|]. split; [exact E2|].
    assert (L3 : logs not_kmeans (s <- get ;; burn_loop E c fuel (Z.to_nat (s_burn s)) ;; train_loop E c fuel (Z.to_nat (s_total s - s_burn s)) 0 ;; upd (fun s => upd_flags true (s_vfit s) (s_vconv s) s))).
    { apply logs_bind; [apply logs_get|intros ?]. apply logs_bind; [apply logs_burn; try (intros; exact I); exact I|intros ?]. apply logs_bind; [apply logs_train; try (intros; exact I); exact I|intros ?; apply logs_upd]. }
    destruct (L3 o s2 g2) as (b' & Eb' & Fb). rewrite H in Eb'. simpl in Eb'. assert (b' = b) as -> by (apply (app_inv_head g2); congruence).
    apply Forall_app. split; [exact Fa|]. apply Forall_app. auto.
  - apply bind_ok in H3 as (l & t3 & h3 & A3 & H3). injection H3 as <- <-. unfold onw in A3. rewrite c21_call_proof in A3 by lia. injection A3 as <- <- <-. rewrite Ed. unfold labels_of. simpl. rewrite Nat2Z.id. reflexivity.
  - apply bind_ok in H3 as (? & t3 & h3 & A3 & H3). injection A3 as <- <- <-. apply bind_ok in H3 as ([] & t3 & h3 & A3 & H3). apply bind_ok in H3 as (? & t4 & h4 & A4 & H3). injection A4 as <- <- <-. injection H3 as <- <-.
    rewrite Y2, M2 in A3.
    assert (Y3 : s_y t3 = rows_of y /\ length (labels_of (upd_d (Some (argmax0 (vresp (s_var t3)) (length (s_y t3)))) t3)) = length (s_y t3)).
    { split; [|unfold labels_of, argmax0; simpl; rewrite map_length, seq_length; reflexivity]. apply fit_var_shape in A3 as (_ & A3 & _). destruct (s_1d t2) eqn:E1; simpl in A3; [|exact A3].
      assert (X1 : s_1d s1 = true) by congruence; apply F in X1 as (l & ->). rewrite A3. apply column_first. }
    destruct Y3 as (Y3 & L3). rewrite Y3 in L3.
    eexists t2, t3, h3, _. split; [reflexivity|]. refine (conj _ (conj _ (conj _ (conj A3 _)))).
    { destruct (s_1d t2) eqn:E1; [|reflexivity]. assert (X1 : s_1d s1 = true) by congruence; apply F in X1 as (l & ->). apply column_first. }
    { destruct (s_1d t2) eqn:E1; [|reflexivity]. assert (X1 : s_1d s1 = true) by congruence; apply F in X1 as (l & ->). reflexivity. }
    { destruct (s_1d t2); intros l; discriminate. }
    rewrite Ed. split; [rewrite Y3; exact L3|]. intros i Hi HD. unfold labels_of, argmax0. cbn [s_d upd_d]. rewrite Y3.
    rewrite (nth_indep _ 0%nat (argmax (col (vresp (s_var t3)) 0))) by (rewrite map_length, seq_length; exact Hi). rewrite (map_nth (fun i => argmax (col (vresp (s_var t3)) i))), seq_nth by exact Hi. cbn [plus].
    apply argmax_spec. intros X. apply map_eq_nil in X. exact (HD X).
  - discriminate H3.
Qed.

(* the slices of a sweep *)
Lemma update_weights_requests c fuel o s g : valid_oracle o ->
  wp o (update_weights c fuel) (fun r s' g' => r = Ok tt -> exists a b, g' = g ++ a ++ sweep_slices (w (s_wm s')) (labels_of s) ++ b /\ s_u s' = answers o (g ++ a) (sweep_slices (w (s_wm s')) (labels_of s))) s g.
Proof.
  intros Ho. unfold update_weights. wpure. unfold wm_fit. apply wp_bind, wp_onw, wp_upd. cbv iota beta.
  set (s1 := upd_wm _ _).
  destruct (s_d s) as [dl|] eqn:Ed.
  2:{ apply wp_bind, wp_onw. eapply wp_mono; [apply wp_any_triv|]. intros [a|e|] x g' _; wsteps; discriminate. }
  assert (El : labels_of s = dl) by (unfold labels_of; rewrite Ed; reflexivity).
  destruct (is_nil dl) eqn:Enil.
  { apply isnil in Enil. subst dl. apply wp_bind, wp_onw. eapply wp_mono; [apply wp_any_triv|]. intros [a|e|] x g' _; try discriminate.
    cbv beta iota. rewrite Enil. simpl gather. cbv iota. wstep. wstep. unfold tail_to_slice. wpure. simpl. wstep. discriminate. }
  apply nonnil in Enil.
  apply wp_bind, wp_onw.
  assert (L : wp o (wm_random c SNone) (fun r x' g' => exists t, g' = g ++ t) (s_wm s1) g).
  { unfold wp. destruct (wm_random c SNone o (s_wm s1) g) as [[r x'] g'] eqn:X. eapply grows; [|exact X]. apply logs_wm_random; auto. }
  eapply wp_mono; [apply wp_and; [apply (random_full c o (s_wm s1) g Ho)|exact L]|].
  { unfold s1; simpl. rewrite El; exact Enil. }
  intros [a|e|] x g1 (H & t1 & ->); try discriminate. destruct (H a eq_refl) as (Hf & -> & Hd & _). cbv beta iota.
  destruct (gather (w x) dl) as [wd|] eqn:Eg; [|wstep; discriminate].
  rewrite (gather_prefix (w x) [] _ _ Eg), app_nil_r, map_map.
  apply wp_bind. unfold wp at 1, unif_many. rewrite sweep_log. cbn [fst snd].
  wstep. unfold tail_to_slice. wpure.
  destruct (is_nil (s_u _)) eqn:Eu; [wstep; discriminate|].
  match goal with |- context [onw (wm_tail c fuel ?q)] => set (qq := q) end.
  apply wp_bind, wp_onw.
  match goal with |- wp o _ _ ?xx ?gg => assert (L2 : wp o (wm_tail c fuel qq) (fun r x' g' => exists t, g' = gg ++ t) xx gg) end.
  { unfold wp. match goal with |- context [wm_tail c fuel qq o ?xx ?gg] => destruct (wm_tail c fuel qq o xx gg) as [[r x'] g'] eqn:X end. eapply grows; [|exact X]. apply logs_wm_tail; auto. }
  eapply wp_mono; [apply wp_and; [apply (tail_full c o fuel _ _ _ Ho)|exact L2]|]; [exact Hf|].
  intros [b|e|] x' g2 (HT & t2 & ->); try discriminate. destruct (HT b eq_refl) as (_ & _ & (t & HT3) & _). wstep. intros _.
  exists t1, t2. simpl. rewrite HT3, El.
  assert (X : sweep_slices (w x ++ t) dl = sweep_slices (w x) dl).
  { unfold sweep_slices. apply map_ext_in. intros j Hj. rewrite app_nth1; [reflexivity|]. clear - Eg Hj. revert wd Eg. induction dl as [|i l IH]; intros wd Eg; [destruct Hj|].
    simpl in Eg. destruct (nth_error (w x) i) eqn:Ei; [|discriminate]. destruct (gather (w x) l) eqn:El; [|discriminate]. destruct Hj as [<-|Hj]; [|eapply IH; eauto]. apply nth_error_Some. congruence. }
  cbn [s_wm upd_wm upd_u w] in *. rewrite X. rewrite <- !app_assoc. auto.
Qed.
Lemma c89_sweep_proof E c fuel o s g s' g' : valid_oracle o -> gibbs_step E c fuel o s g = (Ok tt, s', g') ->
  exists a b, g' = g ++ a ++ sweep_slices (w (s_wm s')) (labels_of s) ++ b /\ s_u s' = answers o (g ++ a) (sweep_slices (w (s_wm s')) (labels_of s)).
Proof.
  intros Ho H. unfold gibbs_step, update_all_atoms in H. apply bind_ok in H as ([] & s1 & g1 & H1 & H). apply bind_ok in H1 as (? & t & gt & Ht & H1). injection Ht as <- <- <-.
  assert (Kd : labels_of s1 = labels_of s) by (unfold labels_of; replace (s_d s1) with (s_d s); [reflexivity|symmetry; eapply (keeps_ok s_d); [apply (keeps_update_atoms s_d); reflexivity|exact H1]]).
  apply grows in H1 as (t1 & ->); [|apply logs_update_atoms; auto].
  apply bind_ok in H as ([] & s2 & g2 & H2 & H). pose proof (update_weights_requests c fuel o s1 (g ++ t1) Ho) as W. unfold wp in W. rewrite H2 in W. destruct (W eq_refl) as (a & b & -> & Eu).
  assert (K : (s_wm s', s_u s') = (s_wm s2, s_u s2)).
  { unfold update_d in H. apply bind_ok in H as (? & t & gt & Ht & H). injection Ht as <- <- <-. apply bind_ok in H as (ll & s3 & g3 & H3 & H).
    pose proof (keeps_ok (fun s => (s_wm s, s_u s)) _ _ _ _ _ _ _ (keeps_logpdf_rows (fun s => (s_wm s, s_u s)) E _ ltac:(reflexivity)) H3) as K3. cbv zeta in H.
    destruct (_ || _) in H; [discriminate H|]. apply bind_ok in H as (r & s4 & g4 & H4 & H). rewrite draw_labels_eq in H4. injection H4 as _ <- _. injection H as <- _. exact K3. }
  injection K as K1 K2. apply grows in H as (t2 & ->); [|apply logs_update_d; auto].
  exists (t1 ++ a), (b ++ t2). rewrite K1, K2, <- Kd, Eu. rewrite <- !app_assoc. auto.
Qed.
Lemma c89_history_proof E c fuel parg narg mu lam psi nu t b k o s0 g0 ops s g y ig meth s' g' : argsorts (e_argsort E) ->
  new_mix c parg narg mu lam psi nu t b k o = Ok (s0, g0) -> run_mops E c fuel ops o s0 g0 = (s, g) ->
  fit_gibbs E c fuel y ig false meth o s g = (Ok tt, s', g') ->
  exists x1 g1 p ll s1 g2 b, let rows := rows_of y in let n := length rows in
    start_weights c fuel ig (answers o g (first_slices n)) o (s_wm s) (g ++ first_slices n) x1 g1 /\
    replay E c fuel y ig false meth 0 o s g = (Ok [(p, ll)], s1, g2) /\ g' = g2 ++ b /\
    match meth with
    | IKmeans => exists k, start_groups (built_groups c narg) ig = Some k /\ (1 <= k <= Z.of_nat n)%Z /\ kmeans_labels o g1 rows k (r_d p) /\
        exists a a2, g1 = g ++ first_slices n ++ a /\ g2 = g1 ++ [RKMeans rows (Z.to_nat k)] ++ a2 /\ Forall not_kmeans (a ++ a2 ++ b)
    | IRandom => r_d p = map (assign_label (w x1)) (unif_answers o g1 n)
    | IVariational => exists sv sv' gv y2, s_wm sv = x1 /\ rows_of y2 = rows /\ cols_of y2 = cols_of y /\ (forall l, y2 <> YSeries l) /\
        fit_variational E c y2 (SInt (Z.of_nat (length (w x1)))) false (1 # 100000000) IKmeans o sv g1 = (Ok tt, sv', gv) /\
        likeliest (vresp (s_var sv')) n (r_d p)
    | IOther => False
    end.
Proof.
  intros Ha Hn Hr H. assert (N : s_n s = built_groups c narg).
  { apply class_n_run in Hr. rewrite Hr. unfold new_mix in Hn. destruct (new_ws c parg narg o) as [[x h]|e|]; try discriminate Hn. destruct (qltb b t); try discriminate Hn.
    injection Hn as <- _. destruct c; reflexivity. }
  rewrite <- N. eapply c89_start_proof; [exact Ha| |exact H]. rewrite N. destruct c; simpl; congruence.
Qed.
