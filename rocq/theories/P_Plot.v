(* Pair plots (C72). *)
From Coq Require Import Lqa Permutation Sorting.Sorted.
From Verif Require Import Prelude Numpy Rng M_Weights M_Niw M_Utils M_Mix M_Query M_Plot S_Oracle S_Weights S_Niw S_Mix S_Sort S_Query S_Plot P_Lists P_Niw P_Mix33 P_Mix34 P_MixOk P_Mix37 P_Sort P_Dens P_Clu.
Open Scope Q_scope.

(* ---- res ---- *)
Lemma rmap_in {A B} (f : A -> res B) : forall l r, rmap f l = Ok r -> forall y, In y r <-> exists x, In x l /\ f x = Ok y.
Proof.
  induction l as [|a l IH]; intros r H y; simpl in H.
  - injection H as <-. split; [intros []|intros (x & [] & _)].
  - apply rbind_ok in H as (b & Hb & H). apply rbind_ok in H as (t & Ht & H). injection H as <-. simpl. rewrite (IH t Ht y). split.
    + intros [<-|(x & Hx & E)]; [exists a; auto|exists x; auto].
    + intros (x & [<-|Hx] & E); [left; congruence|right; eauto].
Qed.
Lemma rmap_each {A B} (f : A -> res B) : forall l r, rmap f l = Ok r -> forall x, In x l -> exists y, f x = Ok y /\ In y r.
Proof.
  induction l as [|a l IH]; intros r H x Hx; simpl in H; [destruct Hx|].
  apply rbind_ok in H as (b & Hb & H). apply rbind_ok in H as (t & Ht & H). injection H as <-. destruct Hx as [<-|Hx]; [exists b; simpl; auto|].
  destruct (IH t Ht x Hx) as (y & E & I). exists y; simpl; auto.
Qed.
Lemma rmap_total {A B} (f : A -> res B) l : (forall x, In x l -> exists y, f x = Ok y) -> exists r, rmap f l = Ok r.
Proof.
  induction l as [|a l IH]; intros H; simpl; [eauto|]. destruct (H a (or_introl eq_refl)) as (y & ->). simpl.
  destruct (IH (fun x Hx => H x (or_intror Hx))) as (t & ->). simpl. eauto.
Qed.
Lemma py_nth_ok {A} (l : list A) z b d : py_nth l (Z.of_nat z) = Ok b -> (z < length l)%nat /\ b = nth z l d.
Proof.
  intros P. destruct (Nat.lt_ge_cases z (length l)) as [Lt|Ge]; [rewrite (py_nth_nat _ z d Lt) in P; injection P as <-; auto|].
  rewrite py_nth_over in P by exact Ge. discriminate P.
Qed.

(* ---- labels and colours ---- *)
Lemma nunique_range u lab : contiguous u lab -> forall j, In j (nunique lab) <-> (j < u)%nat.
Proof. intros C j. rewrite nunique_in. apply C. Qed.
Lemma sorted_nodup l : StronglySorted lt l -> NoDup l.
Proof.
  induction 1 as [|a l S IH F]; constructor; [|exact IH]. intros I. rewrite Forall_forall in F. specialize (F a I). lia.
Qed.
Lemma nunique_len u lab : contiguous u lab -> length (nunique lab) = u.
Proof.
  intros C. rewrite <- (seq_length u 0). apply Permutation_length, NoDup_Permutation; [apply sorted_nodup, nunique_sorted|apply seq_NoDup|].
  intros j. rewrite (nunique_range u lab C), in_seq. lia.
Qed.
Lemma nmax_in l : l <> [] -> In (nmax l) l.
Proof.
  induction l as [|a l IH]; [congruence|]. intros _. simpl. destruct (Nat.max_spec a (nmax l)) as [[H ->]|[H ->]]; [|left; reflexivity].
  right. apply IH. intros ->. simpl in H. lia.
Qed.
Lemma nmax_ub l x : In x l -> (x <= nmax l)%nat.
Proof. induction l as [|a l IH]; [intros []|]. intros [<-|H]; simpl; [lia|]. specialize (IH H). lia. Qed.
Lemma nmax_range u lab : contiguous u lab -> lab <> [] -> (0 < u)%nat /\ nmax lab = (u - 1)%nat.
Proof.
  intros C N. pose proof (proj1 (C _) (nmax_in lab N)) as H. split; [lia|]. pose proof (nmax_ub lab (u - 1)%nat (proj2 (C (u - 1)%nat) ltac:(lia))). lia.
Qed.
Lemma n_colours_range u lab : contiguous u lab -> lab <> [] -> n_colours lab = if Nat.ltb 11 u then S u else 10%nat.
Proof.
  intros C N. destruct (nmax_range u lab C N) as [P M]. unfold n_colours. rewrite M, (nunique_len u lab C).
  destruct (Nat.ltb_spec 10 (u - 1)), (Nat.ltb_spec 11 u); try reflexivity; lia.
Qed.
Lemma enough_colours u lab : contiguous u lab -> lab <> [] -> (u <= n_colours lab)%nat <-> u <> 11%nat.
Proof. intros C N. rewrite (n_colours_range u lab C N). destruct (Nat.ltb_spec 11 u); lia. Qed.
Lemma tab10_few j : (j < 10)%nat -> tab10 10 j = j.
Proof. intros H. do 10 (destruct j as [|j]; [reflexivity|]). lia. Qed.
Lemma colours_apart u lab : contiguous u lab -> lab <> [] -> u <> 11%nat -> told_apart u (tab10 (n_colours lab)) <-> (u <= 10)%nat.
Proof.
  intros C N U. rewrite (n_colours_range u lab C N). unfold told_apart. destruct (Nat.ltb_spec 11 u) as [L|L].
  - split; [|lia]. intros H. specialize (H 0%nat 1%nat ltac:(lia) ltac:(lia)). exfalso. assert (X : 0%nat = 1%nat); [|discriminate X]. apply H.
    unfold tab10. rewrite Nat.mul_0_r, Nat.div_0_l by lia. rewrite (Nat.div_small (10 * 1)) by lia. reflexivity.
  - split; [intros _; lia|]. intros _ j j' Hj Hj'. rewrite !tab10_few by lia. auto.
Qed.
Lemma colours_palette u lab j : contiguous u lab -> lab <> [] -> u <> 11%nat -> (j < u)%nat -> tab10 (n_colours lab) j = palette u j.
Proof.
  intros C N U H. rewrite (n_colours_range u lab C N). unfold palette. destruct (Nat.ltb_spec 11 u), (Nat.leb_spec u 10); try lia.
  - unfold tab10. replace (S u - 1)%nat with u by lia. reflexivity.
  - apply tab10_few. lia.
Qed.
Lemma colour_ok u lab j : contiguous u lab -> lab <> [] -> u <> 11%nat -> (j < u)%nat -> colour_of lab j = Ok (tab10 (n_colours lab) j).
Proof.
  intros C N U H. unfold colour_of. pose proof (proj2 (enough_colours u lab C N) U). destruct (Nat.ltb_spec j (n_colours lab)); [reflexivity|lia].
Qed.
Lemma colours_row u lab : contiguous u lab -> lab <> [] -> u <> 11%nat -> rmap (colour_of lab) lab = Ok (map (tab10 (n_colours lab)) lab).
Proof. intros C N U. apply rmap_all. intros j Hj. apply (colour_ok u); auto. apply C, Hj. Qed.
Lemma used_label u lab j : contiguous u lab -> existsb (Nat.eqb j) lab = Nat.ltb j u.
Proof.
  intros C. apply eq_iff_eq_true. rewrite existsb_exists, Nat.ltb_lt, <- (C j). split.
  - intros (x & Hx & E). apply Nat.eqb_eq in E. subst. exact Hx.
  - intros H. exists j. split; [exact H|apply Nat.eqb_refl].
Qed.

(* ---- grids ---- *)
Lemma bmax_ge a b : a <= bmax a b /\ b <= bmax a b.
Proof. unfold bmax. destruct (qltb a b) eqn:E; [apply qltb_spec' in E; lra|]. assert (~ a < b) by (rewrite <- qltb_spec'; congruence). lra. Qed.
Lemma bmin_le a b : bmin a b <= a /\ bmin a b <= b.
Proof. unfold bmin. destruct (qltb b a) eqn:E; [apply qltb_spec' in E; lra|]. assert (~ b < a) by (rewrite <- qltb_spec'; congruence). lra. Qed.
Lemma fold_max l x : In (fold_left bmax l x) (x :: l) /\ forall z, In z (x :: l) -> z <= fold_left bmax l x.
Proof.
  revert x. induction l as [|a l IH]; intros x; simpl; [split; [left; reflexivity|intros z [<-|[]]; lra]|].
  destruct (IH (bmax x a)) as [I U]. pose proof (bmax_ge x a) as [G1 G2]. split.
  - destruct I as [I|I]; [|right; right; exact I]. rewrite <- I. unfold bmax. destruct (qltb x a); auto.
  - intros z [<-|[<-|Hz]]; [|apply (Qle_trans _ (bmax x a)); [exact G2|apply U; left; reflexivity]|apply U; right; exact Hz].
    apply (Qle_trans _ (bmax x a)); [exact G1|apply U; left; reflexivity].
Qed.
Lemma fold_min l x : In (fold_left bmin l x) (x :: l) /\ forall z, In z (x :: l) -> fold_left bmin l x <= z.
Proof.
  revert x. induction l as [|a l IH]; intros x; simpl; [split; [left; reflexivity|intros z [<-|[]]; lra]|].
  destruct (IH (bmin x a)) as [I U]. pose proof (bmin_le x a) as [G1 G2]. split.
  - destruct I as [I|I]; [|right; right; exact I]. rewrite <- I. unfold bmin. destruct (qltb a x); auto.
  - intros z [<-|[<-|Hz]]; [|apply (Qle_trans _ (bmin x a)); [apply U; left; reflexivity|exact G2]|apply U; right; exact Hz].
    apply (Qle_trans _ (bmin x a)); [apply U; left; reflexivity|exact G1].
Qed.
Lemma y_range_ok values ys : y_range values = Ok ys -> grid_of values ys.
Proof.
  unfold y_range. destruct values as [|x l]; [discriminate|]. cbn [py_min py_max rbind]. destruct (fold_min l x) as [A B]. destruct (fold_max l x) as [C D].
  set (lo := fold_left bmin l x) in *. set (hi := fold_left bmax l x) in *. intros [= <-]. exists lo, hi. split; [exact A|]. split; [exact C|].
  split; [intros z Hz; split; [apply B, Hz|apply D, Hz]|]. unfold linspace. rewrite map_length, seq_length. split; [reflexivity|].
  intros t Ht. rewrite nth_map_seq by exact Ht. change (nq (100 - 1)) with (99 # 1). field.
Qed.
Lemma y_range_total values : values <> [] -> exists ys, y_range values = Ok ys.
Proof. destruct values as [|x l]; [congruence|]. intros _. unfold y_range. cbn [py_min py_max rbind]. eauto. Qed.
Lemma py_max_visible d m : py_max d = Ok m -> (qltb (1 # 10000) m = true <-> visible d).
Proof.
  destruct d as [|x l]; [discriminate|]. intros [= <-]. destruct (fold_max l x) as [I U]. rewrite qltb_spec'. split.
  - intros H. apply (In_nth _ _ 0) in I as (t & Ht & E). exists t. rewrite E. auto.
  - intros (t & Ht & H). eapply Qlt_le_trans; [exact H|]. apply U, nth_In, Ht.
Qed.

(* ---- one density ---- *)
Lemma column_coord ys : map (coord 0) (column ys) = ys.
Proof. unfold column. rewrite map_map. apply map_id. Qed.
Lemma dens_ok QE s r ys i j d : s_map s = Some r -> gibbs_map_density QE s (Some (YArr1 ys)) (DInt (Z.of_nat i)) (Some (Z.of_nat j)) = Ok d -> component_marginal QE ys r i j d.
Proof.
  intros M H. unfold gibbs_map_density in H. destruct (negb (s_gfit s)); [discriminate H|]. cbn [cast_obs rbind] in H. unfold get_map in H. rewrite M in H. cbn [rbind fst snd] in H.
  unfold mixture_density in H. apply rbind_ok in H as (cols & Hc & H). injection H as <-. cbn [rmap] in Hc. apply rbind_ok in Hc as (c & Hc & H). injection H as <-. simpl in Hc.
  apply rbind_ok in Hc as (a & Ha & K). apply rbind_ok in K as (m & Hm & K). apply rbind_ok in K as (rr & Hrr & K). apply rbind_ok in K as (cc & Hcc & K). apply rbind_ok in K as (l & Hl & K). apply rbind_ok in K as (q & Hq & K). injection K as <-.
  rewrite dict_get_of in Ha. fold (atom_of j (r_theta r)) in Ha. destruct (atom_of j (r_theta r)) as [a'|] eqn:Ea; [|discriminate Ha]. injection Ha as <-.
  apply (py_nth_ok _ _ _ 0) in Hm as [Lm ->]. apply (py_nth_ok _ _ _ []) in Hrr as [_ ->]. apply (py_nth_ok _ _ _ 0) in Hcc as [_ ->]. apply (py_nth_ok _ _ _ 0) in Hq as [Lw ->].
  exists a', l. split; [exact Ea|]. split; [exact Lw|]. split; [exact Lm|]. split; [rewrite <- (column_coord ys) at 1; exact Hl|].
  cbn [somes sum_columns]. assert (Lc : length (column ys) = length ys) by apply map_length. rewrite Lc, map_length, seq_length. split; [reflexivity|].
  intros t Ht. rewrite nth_map_seq by exact Ht. cbn [map qsum]. rewrite nth_scaled. ring.
Qed.
Lemma dens_all_ok QE s r ys i d : s_map s = Some r -> r_w r <> [] -> gibbs_map_density QE s (Some (YArr1 ys)) (DInt (Z.of_nat i)) None = Ok d -> marginal_at 0 QE (column ys) r i d.
Proof.
  intros M W H. unfold gibbs_map_density in H. destruct (negb (s_gfit s)); [discriminate H|]. cbn [cast_obs rbind] in H. unfold get_map in H. rewrite M in H. cbn [rbind fst snd] in H.
  apply c65_column0_proof; assumption.
Qed.

(* ---- the panels ---- *)
Lemma diag_ok QE s r u lab i cmds : s_map s = Some r -> contiguous u lab -> lab <> [] -> u <> 11%nat -> r_w r <> [] -> diag_panel QE s (r_w r) lab i = Ok cmds ->
  exists ys d, grid_of (map (coord i) (s_y s)) ys /\ marginal_at 0 QE (column ys) r i d /\
  (forall c, In c cmds <-> (exists j e, (j < u)%nat /\ gibbs_map_density QE s (Some (YArr1 ys)) (DInt (Z.of_nat i)) (Some (Z.of_nat j)) = Ok e /\ c = PArea i (Some (tab10 (n_colours lab) j)) ys e) \/
     (exists j e, (u <= j < length (r_w r))%nat /\ gibbs_map_density QE s (Some (YArr1 ys)) (DInt (Z.of_nat i)) (Some (Z.of_nat j)) = Ok e /\ visible e /\ c = PArea i None ys e) \/ c = PLine i ys d) /\
  (forall j, (j < u)%nat -> exists e, gibbs_map_density QE s (Some (YArr1 ys)) (DInt (Z.of_nat i)) (Some (Z.of_nat j)) = Ok e) /\
  (forall j, (u <= j < length (r_w r))%nat -> exists e, gibbs_map_density QE s (Some (YArr1 ys)) (DInt (Z.of_nat i)) (Some (Z.of_nat j)) = Ok e).
Proof.
  intros M C N U W H. unfold diag_panel in H. apply rbind_ok in H as (ys & Hy & H). apply rbind_ok in H as (used & Hu & H). apply rbind_ok in H as (unused & Hn & H). apply rbind_ok in H as (d & Hd & H). injection H as <-.
  exists ys, d. split; [apply y_range_ok, Hy|]. split; [eapply dens_all_ok; eassumption|].
  pose proof (rmap_in _ _ _ Hu) as Iu. pose proof (rmap_in _ _ _ Hn) as In'. split; [|split].
  - intros c. rewrite !in_app_iff. assert (X : In c [PLine i ys d] <-> c = PLine i ys d) by (simpl; split; [intros [<-|[]]; reflexivity|intros ->; auto]). rewrite X. clear X.
    assert (A : In c used <-> exists j e, (j < u)%nat /\ gibbs_map_density QE s (Some (YArr1 ys)) (DInt (Z.of_nat i)) (Some (Z.of_nat j)) = Ok e /\ c = PArea i (Some (tab10 (n_colours lab) j)) ys e).
    { rewrite Iu. split.
      - intros (j & Hj & E). apply (nunique_range u lab C) in Hj. apply rbind_ok in E as (e & He & E). rewrite (colour_ok u) in E by assumption. injection E as <-. eauto.
      - intros (j & e & Hj & He & ->). exists j. split; [apply (nunique_range u lab C), Hj|]. rewrite He. cbn [rbind]. rewrite (colour_ok u) by assumption. reflexivity. }
    assert (B : In c (concat unused) <-> exists j e, (u <= j < length (r_w r))%nat /\ gibbs_map_density QE s (Some (YArr1 ys)) (DInt (Z.of_nat i)) (Some (Z.of_nat j)) = Ok e /\ visible e /\ c = PArea i None ys e).
    { rewrite in_concat. split.
      - intros (l & Hl & Hc). apply In' in Hl as (j & Hj & E). apply in_seq in Hj. rewrite (used_label u lab j C) in E. destruct (Nat.ltb_spec j u) as [L|L]; [injection E as <-; destruct Hc|].
        apply rbind_ok in E as (e & He & E). apply rbind_ok in E as (m & Hm & E). injection E as <-. destruct (qltb (1 # 10000) m) eqn:Q; [|destruct Hc]. destruct Hc as [<-|[]].
        exists j, e. split; [lia|]. split; [exact He|]. split; [apply (py_max_visible e m Hm), Q|reflexivity].
      - intros (j & e & Hj & He & V & ->). destruct (rmap_each _ _ _ Hn j) as (l & El & Il); [apply in_seq; lia|]. exists l. split; [exact Il|]. rewrite (used_label u lab j C) in El. destruct (Nat.ltb_spec j u) as [L|L]; [lia|].
        rewrite He in El. cbn [rbind] in El. apply rbind_ok in El as (m & Hm & El). injection El as <-. rewrite (proj2 (py_max_visible e m Hm) V). left. reflexivity. }
    rewrite A, B. tauto.
  - intros j Hj. destruct (rmap_each _ _ _ Hu j) as (c & Ec & _); [apply (nunique_range u lab C), Hj|]. apply rbind_ok in Ec as (e & He & _). eauto.
  - intros j Hj. destruct (rmap_each _ _ _ Hn j) as (l & El & _); [apply in_seq; lia|]. rewrite (used_label u lab j C) in El. destruct (Nat.ltb_spec j u) as [L|L]; [lia|].
    apply rbind_ok in El as (e & He & _). eauto.
Qed.
Lemma off_ok s r u lab p q cmds : contiguous u lab -> lab <> [] -> u <> 11%nat -> off_panel s (r_theta r) lab p q = Ok cmds ->
  forall c, In c cmds <-> c = PScatter p q (map (coord p) (s_y s)) (map (coord q) (s_y s)) (map (tab10 (n_colours lab)) lab) \/
    exists j a, (j < u)%nat /\ atom_of j (r_theta r) = Some a /\ c = PContour p q (tab10 (n_colours lab) j) [coord p (fst a); coord q (fst a)] [[entry (snd a) p p; entry (snd a) p q]; [entry (snd a) q p; entry (snd a) q q]].
Proof.
  intros C N U H c. unfold off_panel in H. rewrite (colours_row u lab C N U) in H. cbn [rbind] in H. apply rbind_ok in H as (lines & Hl & H). injection H as <-.
  pose proof (rmap_in _ _ _ Hl c) as I.
  assert (F : forall j y, (j < u)%nat -> (a <~ dict_get (r_theta r) (Z.of_nat j) ;; mu <~ sub_vec [Z.of_nat p; Z.of_nat q] (fst a) ;; rows <~ rmap (py_nth (snd a)) [Z.of_nat p; Z.of_nat q] ;;
             sg <~ rmap (sub_vec [Z.of_nat p; Z.of_nat q]) rows ;; c <~ colour_of lab j ;; Ok (PContour p q c mu sg)) = Ok y ->
     exists a, atom_of j (r_theta r) = Some a /\ y = PContour p q (tab10 (n_colours lab) j) [coord p (fst a); coord q (fst a)] [[entry (snd a) p p; entry (snd a) p q]; [entry (snd a) q p; entry (snd a) q q]]).
  { intros j y Hj E. apply rbind_ok in E as (a & Ha & E). rewrite dict_get_of in Ha. fold (atom_of j (r_theta r)) in Ha. destruct (atom_of j (r_theta r)) as [a'|] eqn:Ea; [|discriminate Ha]. injection Ha as <-.
    apply rbind_ok in E as (mu & Hmu & E). apply rbind_ok in E as (rows & Hr & E). apply rbind_ok in E as (sg & Hs & E). rewrite (colour_ok u) in E by assumption. injection E as <-.
    assert (SV : forall v x, sub_vec [Z.of_nat p; Z.of_nat q] v = Ok x -> x = [coord p v; coord q v]).
    { intros v x E. unfold sub_vec in E. cbn [rmap] in E. apply rbind_ok in E as (x1 & E1 & E). apply rbind_ok in E as (t & Et & E). injection E as <-. apply rbind_ok in Et as (x2 & E2 & Et). injection Et as <-.
      apply (py_nth_ok _ _ _ 0) in E1 as [_ ->]. apply (py_nth_ok _ _ _ 0) in E2 as [_ ->]. reflexivity. }
    apply SV in Hmu as ->. cbn [rmap] in Hr. apply rbind_ok in Hr as (r1 & E1 & E). apply rbind_ok in E as (t & Et & E). injection E as <-. apply rbind_ok in Et as (r2 & E2 & Et). injection Et as <-.
    apply (py_nth_ok _ _ _ []) in E1 as [_ ->]. apply (py_nth_ok _ _ _ []) in E2 as [_ ->]. cbn [rmap] in Hs. apply rbind_ok in Hs as (s1 & F1 & E). apply rbind_ok in E as (t & Et & E). injection E as <-. apply rbind_ok in Et as (s2 & F2 & Et). injection Et as <-.
    apply SV in F1 as ->. apply SV in F2 as ->. exists a'. split; reflexivity. }
  cbn [In]. rewrite I. split.
  - intros [<-|(j & Hj & E)]; [left; reflexivity|]. right. apply (nunique_range u lab C) in Hj. destruct (F j c Hj E) as (a & Ea & ->). eauto.
  - intros [->|(j & a & Hj & Ea & ->)]; [left; reflexivity|right]. destruct (rmap_each _ _ _ Hl j) as (y & Ey & _); [apply (nunique_range u lab C), Hj|].
    exists j. split; [apply (nunique_range u lab C), Hj|]. rewrite Ey. destruct (F j y Hj Ey) as (a' & Ea' & ->). assert (a' = a) by congruence. subst. reflexivity.
Qed.
Lemma in_square p q n : In (p, q) (list_prod (seq 0 n) (seq 0 n)) <-> (p < n)%nat /\ (q < n)%nat.
Proof. rewrite in_prod_iff, !in_seq. lia. Qed.

(* ---- the whole plot ---- *)
Lemma clusters_facts QE x r grp lab unc : clusters QE x r grp lab unc -> (0 < length (r_w r))%nat -> lab <> [] ->
  contiguous (distinct grp) lab /\ (distinct grp <= length (r_w r))%nat.
Proof.
  intros (ls & A & Lg & Ll & Lu & H & C & _ & _) W N. split; [exact C|]. unfold distinct. rewrite <- (seq_length (length (r_w r)) 0).
  apply NoDup_incl_length; [apply NoDup_nodup|]. intros j Hj. apply nodup_In in Hj. apply (In_nth _ _ 0%nat) in Hj as (i & Hi & <-). apply in_seq. rewrite Lg in Hi.
  destruct (H i Hi) as [[[_ G]|[_ (G & _)]] _]; [rewrite G; lia|]. unfold joint in G. rewrite map_length, seq_length in G. lia.
Qed.
Lemma pairplot_shows QE s r u lab unc cmds : s_map s = Some r -> r_w r <> [] -> gibbs_map_cluster QE s None = Ok (lab, unc) -> contiguous u lab ->
  gibbs_map_pairplot QE s = Ok cmds -> (2 <= s_dim s)%nat /\ u <> 11%nat /\ lab <> [] /\ shows QE s r u lab (tab10 (n_colours lab)) cmds.
Proof.
  intros M W K C H. unfold gibbs_map_pairplot in H. destruct (s_1d s); [discriminate H|]. rewrite K in H. cbn [rbind fst] in H.
  destruct (Nat.eqb_spec (s_dim s) 0) as [|D0]; [discriminate H|]. destruct lab as [|l0 lab0] eqn:El; [discriminate H|]. rewrite <- El in *. assert (N : lab <> []) by (rewrite El; discriminate).
  replace (is_nil lab) with false in H by (rewrite El; reflexivity). destruct (Nat.eqb_spec (s_dim s) 1) as [|D1]; [discriminate H|]. unfold get_map in H. rewrite M in H. cbn [rbind] in H.
  apply rbind_ok in H as (ps & Hp & H). injection H as <-. set (n := s_dim s) in *. split; [lia|]. clear El l0 lab0.
  assert (U : u <> 11%nat).
  { intros ->. destruct (rmap_each _ _ _ Hp (0, 0)%nat) as (cm & E & _); [apply in_square; lia|]. cbn [fst snd Nat.eqb] in E. unfold diag_panel in E.
    apply rbind_ok in E as (ys & _ & E). apply rbind_ok in E as (used & Hu & _). destruct (rmap_each _ _ _ Hu 10%nat) as (c & Ec & _); [apply (nunique_range 11 lab C); lia|].
    apply rbind_ok in Ec as (e & _ & Ec). unfold colour_of in Ec. rewrite (n_colours_range 11 lab C N) in Ec. discriminate Ec. }
  split; [exact U|]. split; [exact N|]. set (col := tab10 (n_colours lab)).
  (* membership, panel by panel *)
  assert (Mem : forall c, In c (concat ps) <-> exists p q cm, (p < n)%nat /\ (q < n)%nat /\ In c cm /\ (if Nat.eqb p q then diag_panel QE s (r_w r) lab p else off_panel s (r_theta r) lab p q) = Ok cm).
  { intros c. rewrite in_concat. split.
    - intros (cm & Hcm & Hc). apply (rmap_in _ _ _ Hp) in Hcm as ([p q] & Hpq & E). apply in_square in Hpq. exists p, q, cm. tauto.
    - intros (p & q & cm & Hp' & Hq & Hc & E). exists cm. split; [|exact Hc]. apply (rmap_in _ _ _ Hp). exists (p, q). split; [apply in_square; tauto|exact E]. }
  assert (Diag : forall i, (i < n)%nat -> exists cm, diag_panel QE s (r_w r) lab i = Ok cm).
  { intros i Hi. destruct (rmap_each _ _ _ Hp (i, i)) as (cm & E & _); [apply in_square; tauto|]. cbn [fst snd] in E. rewrite Nat.eqb_refl in E. eauto. }
  assert (Off : forall p q, (p < n)%nat -> (q < n)%nat -> p <> q -> exists cm, off_panel s (r_theta r) lab p q = Ok cm).
  { intros p q P1 P2 Pq. destruct (rmap_each _ _ _ Hp (p, q)) as (cm & E & _); [apply in_square; tauto|]. cbn [fst snd] in E. destruct (Nat.eqb_spec p q); [contradiction|]. eauto. }
  assert (DI : forall i cm, (i < n)%nat -> diag_panel QE s (r_w r) lab i = Ok cm -> forall c, In c cm -> In c (concat ps)).
  { intros i cm Hi E c Hc. apply Mem. exists i, i, cm. rewrite Nat.eqb_refl. auto. }
  assert (OI : forall p q cm, (p < n)%nat -> (q < n)%nat -> p <> q -> off_panel s (r_theta r) lab p q = Ok cm -> forall c, In c cm -> In c (concat ps)).
  { intros p q cm P1 P2 Pq E c Hc. apply Mem. exists p, q, cm. destruct (Nat.eqb_spec p q); [contradiction|]. auto. }
  assert (Case : forall c, In c (concat ps) -> (exists i cm, (i < n)%nat /\ diag_panel QE s (r_w r) lab i = Ok cm /\ In c cm) \/ (exists p q cm, (p < n)%nat /\ (q < n)%nat /\ p <> q /\ off_panel s (r_theta r) lab p q = Ok cm /\ In c cm)).
  { intros c Hc. apply Mem in Hc as (p & q & cm & P1 & P2 & Hc & E). destruct (Nat.eqb_spec p q) as [<-|Ne]; [left; exists p, cm; auto|right; exists p, q, cm; auto]. }
  constructor.
  - intros i c ys d Hc. apply Case in Hc as [(i' & cm & Hi & E & Hc)|(p & q & cm & P1 & P2 & Ne & E & Hc)].
    + destruct (diag_ok QE s r u lab i' cm M C N U W E) as (ys' & d' & G & _ & I & _). apply (proj1 (I _)) in Hc. destruct Hc as [(j & e & Hj & He & X)|[(j & e & _ & _ & _ & X)|X]]; [|discriminate X|discriminate X].
      injection X as X0 X1 X2 X3; subst. split; [exact Hi|]. split; [exact G|]. exists j. split; [exact Hj|]. split; [reflexivity|]. eapply dens_ok; eassumption.
    + apply (off_ok s r u lab p q cm C N U E) in Hc as [X|(j & a & _ & _ & X)]; discriminate X.
  - intros i j Hi Hj. destruct (Diag i Hi) as (cm & E). destruct (diag_ok QE s r u lab i cm M C N U W E) as (ys & d & G & _ & I & Eu & _). destruct (Eu j Hj) as (e & He).
    exists ys, e. split; [|eapply dens_ok; eassumption]. apply (DI i cm Hi E), I. left. eauto.
  - intros i ys d Hc. apply Case in Hc as [(i' & cm & Hi & E & Hc)|(p & q & cm & P1 & P2 & Ne & E & Hc)].
    + destruct (diag_ok QE s r u lab i' cm M C N U W E) as (ys' & d' & G & _ & I & _). apply (proj1 (I _)) in Hc. destruct Hc as [(j & e & Hj & He & X)|[(j & e & Hj & He & V & X)|X]]; [discriminate X| |discriminate X].
      injection X as X0 X1 X2; subst. split; [exact Hi|]. split; [exact G|]. split; [exact V|]. exists j. split; [exact Hj|]. eapply dens_ok; eassumption.
    + apply (off_ok s r u lab p q cm C N U E) in Hc as [X|(j & a & _ & _ & X)]; discriminate X.
  - intros i j Hi Hj. destruct (Diag i Hi) as (cm & E). destruct (diag_ok QE s r u lab i cm M C N U W E) as (ys & d & G & _ & I & _ & Eb). destruct (Eb j Hj) as (e & He).
    exists ys, e. split; [exact G|]. split; [eapply dens_ok; eassumption|]. intros V. apply (DI i cm Hi E), I. right. left. eauto 6.
  - intros i ys d Hc. apply Case in Hc as [(i' & cm & Hi & E & Hc)|(p & q & cm & P1 & P2 & Ne & E & Hc)].
    + destruct (diag_ok QE s r u lab i' cm M C N U W E) as (ys' & d' & G & L & I & _). apply (proj1 (I _)) in Hc. destruct Hc as [(j & e & Hj & He & X)|[(j & e & Hj & He & V & X)|X]]; [discriminate X|discriminate X|].
      injection X as X0 X1 X2; subst. auto.
    + apply (off_ok s r u lab p q cm C N U E) in Hc as [X|(j & a & _ & _ & X)]; discriminate X.
  - intros i Hi. destruct (Diag i Hi) as (cm & E). destruct (diag_ok QE s r u lab i cm M C N U W E) as (ys & d & G & _ & I & _). exists ys, d. apply (DI i cm Hi E), I. auto.
  - intros p q xs ys cs. split.
    + intros Hc. apply Case in Hc as [(i' & cm & Hi & E & Hc)|(p' & q' & cm & P1 & P2 & Ne & E & Hc)].
      * destruct (diag_ok QE s r u lab i' cm M C N U W E) as (ys' & d' & _ & _ & I & _). apply (proj1 (I _)) in Hc. destruct Hc as [(j & e & _ & _ & X)|[(j & e & _ & _ & _ & X)|X]]; discriminate X.
      * apply (off_ok s r u lab p' q' cm C N U E) in Hc as [X|(j & a & _ & _ & X)]; [|discriminate X]. injection X as X0 X1 X2 X3 X4; subst. repeat (split; [assumption || reflexivity|]). reflexivity.
    + intros (P1 & P2 & Ne & -> & -> & ->). destruct (Off p q P1 P2 Ne) as (cm & E). apply (OI p q cm P1 P2 Ne E), (off_ok s r u lab p q cm C N U E). left. reflexivity.
  - intros p q k mu sg. split.
    + intros Hc. apply Case in Hc as [(i' & cm & Hi & E & Hc)|(p' & q' & cm & P1 & P2 & Ne & E & Hc)].
      * destruct (diag_ok QE s r u lab i' cm M C N U W E) as (ys' & d' & _ & _ & I & _). apply (proj1 (I _)) in Hc. destruct Hc as [(j & e & _ & _ & X)|[(j & e & _ & _ & _ & X)|X]]; discriminate X.
      * apply (off_ok s r u lab p' q' cm C N U E) in Hc as [X|(j & a & Hj & Ea & X)]; [discriminate X|]. injection X as X0 X1 X2 X3 X4; subst.
        split; [exact P1|]. split; [exact P2|]. split; [exact Ne|]. exists j, a. auto.
    + intros (P1 & P2 & Ne & j & a & Hj & -> & Ea & -> & ->). destruct (Off p q P1 P2 Ne) as (cm & E). apply (OI p q cm P1 P2 Ne E), (off_ok s r u lab p q cm C N U E). right. eauto.
Qed.
Lemma c72_shows_proof : forall E QE c fuel parg narg mu lam psi nu t b k o s0 g0 ops s g cmds, valid_oracle o ->
  (forall x al a b pm, c = CBIB x al a b pm -> in01 parg) -> pdf_ok QE ->
  new_mix c parg narg mu lam psi nu t b k o = Ok (s0, g0) -> run_mops E c fuel ops o s0 g0 = (s, g) ->
  gibbs_map_pairplot QE s = Ok cmds ->
  exists r grp lab unc col, s_map s = Some r /\ clusters QE (s_y s) r grp lab unc /\ (2 <= s_dim s)%nat /\ distinct grp <> 11%nat /\
    (forall j, (j < distinct grp)%nat -> col j = palette (distinct grp) j) /\
    (told_apart (distinct grp) col <-> (distinct grp <= 10)%nat) /\ shows QE s r (distinct grp) lab col cmds.
Proof.
  intros E QE c fuel parg narg mu lam psi nu t b k o s0 g0 ops s g cmds V P Pd N R H.
  assert (K : exists lu, gibbs_map_cluster QE s None = Ok lu) by (unfold gibbs_map_pairplot in H; destruct (s_1d s); [discriminate H|]; apply rbind_ok in H as (lu & X & _); eauto).
  destruct K as ([lab unc] & K). pose proof (c44_clusters_proof E QE c fuel _ _ _ _ _ _ _ _ _ _ _ _ _ _ _ None lab unc V P Pd N R K) as (x & fl & r & grp & Hx & M & C).
  injection Hx as <- <-. assert (W : r_w r <> []).
  { intros W. unfold gibbs_map_cluster in K. destruct (negb (s_gfit s)); [discriminate K|]. cbn [cast_obs rbind] in K. unfold get_map in K. rewrite M in K. cbn [rbind] in K.
    unfold cluster in K. apply rbind_ok in K as (rows & _ & K). rewrite W in K. discriminate K. }
  assert (C' : contiguous (distinct grp) lab) by (destruct C as (ls & _ & _ & _ & _ & _ & C & _); exact C).
  destruct (pairplot_shows QE s r _ lab unc cmds M W K C' H) as (D & U & Nl & Sh). exists r, grp, lab, unc, (tab10 (n_colours lab)).
  split; [exact M|]. split; [exact C|]. split; [exact D|]. split; [exact U|]. split; [intros j Hj; apply (colours_palette (distinct grp) lab j C' Nl U Hj)|]. split; [apply (colours_apart (distinct grp) lab C' Nl U)|exact Sh].
Qed.
(* the component of a row has the number of its cluster, for all rows, exactly
   when the components in use are the first ones *)
Lemma c72_rows_proof : forall QE x r grp lab unc, clusters QE x r grp lab unc ->
  (lab = grp <-> contiguous (distinct grp) grp).
Proof.
  intros QE x r grp lab unc (ls & A & Lg & Ll & _ & _ & C & Sp & So). split; [intros <-; exact C|]. intros G.
  (* both are increasing bijections of the components in use onto 0 .. u - 1 *)
  set (u := distinct grp) in *.
  assert (Pos : forall v, (v < u)%nat -> exists i, (i < length grp)%nat /\ nth i grp 0%nat = v) by (intros v Hv; apply G in Hv; apply (In_nth _ _ 0%nat) in Hv; exact Hv).
  assert (Posl : forall v, (v < u)%nat -> exists i, (i < length lab)%nat /\ nth i lab 0%nat = v) by (intros v Hv; apply C in Hv; apply (In_nth _ _ 0%nat) in Hv; exact Hv).
  assert (Eq : forall v i, (i < length grp)%nat -> nth i grp 0%nat = v -> nth i lab 0%nat = v).
  { induction v as [v IH] using lt_wf_ind. intros i Hi Ev. assert (Hu : (nth i grp 0%nat < u)%nat) by (apply G, nth_In, Hi).
    destruct (Nat.lt_trichotomy (nth i lab 0%nat) v) as [Lt|[E|Gt]]; [|exact E|].
    - destruct (Pos (nth i lab 0%nat) ltac:(lia)) as (i' & Hi' & E'). pose proof (IH _ Lt i' Hi' E') as E2. pose proof (proj2 (proj2 Sp i i' Hi Hi') (eq_sym E2)). lia.
    - destruct (Posl v ltac:(lia)) as (i' & Hi' & E'). assert (Hi2 : (i' < length grp)%nat) by lia. 
      assert (X : (nth i' grp 0 < nth i grp 0)%nat) by (apply (So i' i Hi2 Hi); lia).
      pose proof (IH (nth i' grp 0%nat) ltac:(lia) i' Hi2 eq_refl). lia. }
  apply (nth_ext _ _ 0%nat 0%nat); [lia|]. intros i Hi. apply (Eq _ i); [lia|reflexivity].
Qed.
(* ---- exceptions ---- *)
Lemma dens_total QE s r ys i j : s_gfit s = true -> s_map s = Some r -> norm_total QE -> atoms_of_dim (s_dim s) r -> (i < s_dim s)%nat -> (j < length (r_w r))%nat ->
  exists d, gibbs_map_density QE s (Some (YArr1 ys)) (DInt (Z.of_nat i)) (Some (Z.of_nat j)) = Ok d /\ length d = length ys.
Proof.
  intros F M T A Hi Hj. unfold gibbs_map_density. rewrite F. cbn [negb cast_obs rbind]. unfold get_map. rewrite M. cbn [rbind fst snd]. unfold mixture_density. cbn [rmap].
  destruct (A j Hj) as (a & Ea & La & Sq1 & Sq2). unfold component_density. rewrite dict_get_of. fold (atom_of j (r_theta r)). rewrite Ea. cbn [rbind].
  rewrite (py_nth_nat (fst a) i 0) by lia. cbn [rbind]. rewrite (py_nth_nat (snd a) i []) by lia. cbn [rbind]. rewrite (py_nth_nat _ i 0) by (rewrite Sq2; lia). cbn [rbind].
  destruct (T (map (fun v => vat v 0) (column ys)) (nth i (fst a) 0) (nth i (nth i (snd a) []) 0)) as (l & ->). cbn [rbind]. rewrite (py_nth_nat _ j 0) by exact Hj. cbn [rbind].
  eexists. split; [reflexivity|]. cbn [somes sum_columns]. rewrite map_length, seq_length. apply map_length.
Qed.
Lemma dens_all_total QE s r ys i : s_gfit s = true -> s_map s = Some r -> norm_total QE -> atoms_of_dim (s_dim s) r -> (i < s_dim s)%nat ->
  exists d, gibbs_map_density QE s (Some (YArr1 ys)) (DInt (Z.of_nat i)) None = Ok d.
Proof.
  intros F M T A Hi. unfold gibbs_map_density. rewrite F. cbn [negb cast_obs rbind]. unfold get_map. rewrite M. cbn [rbind fst snd]. unfold mixture_density.
  match goal with |- context [rmap ?f ?l] => assert (X : exists cols, rmap f l = Ok cols) end.
  { apply rmap_total. intros z Hz. apply in_map_iff in Hz as (j & <- & Hj). apply in_seq in Hj. destruct (dens_total QE s r ys i j F M T A Hi ltac:(lia)) as (d & Hd & _).
    unfold gibbs_map_density in Hd. rewrite F in Hd. cbn [negb cast_obs rbind] in Hd. unfold get_map in Hd. rewrite M in Hd. cbn [rbind fst snd] in Hd. unfold mixture_density in Hd. cbn [rmap] in Hd.
    apply rbind_ok in Hd as (cols & Hc & _). apply rbind_ok in Hc as (c & Hc & _). eauto. }
  destruct X as (cols & ->). cbn [rbind]. eauto.
Qed.
Lemma rmap_first {A B} (f : A -> res B) e : forall l1 x l2, (forall y, In y l1 -> exists b, f y = Ok b) -> f x = Err e -> rmap f (l1 ++ x :: l2) = Err e.
Proof.
  induction l1 as [|a l1 IH]; intros x l2 H E; simpl; [rewrite E; reflexivity|]. destruct (H a (or_introl eq_refl)) as (b & ->). simpl. rewrite IH; [reflexivity| |exact E].
  intros y Hy. apply H. right. exact Hy.
Qed.
Lemma nunique_seq u lab : contiguous u lab -> nunique lab = seq 0 u.
Proof.
  intros C. pose proof (nunique_range u lab C) as R. pose proof (nunique_sorted lab) as S1. pose proof (seq_sorted u 0) as S2.
  assert (R' : forall j, In j (nunique lab) <-> In j (seq 0 u)) by (intros j; rewrite R, in_seq; lia). clear R C.
  revert S1 S2 R'. generalize (nunique lab), (seq 0 u). clear. intros l. induction l as [|a l IH]; intros [|b m] S1 S2 R; try reflexivity.
  - exfalso. apply (proj2 (R b)). left. reflexivity.
  - exfalso. apply (proj1 (R a)). left. reflexivity.
  - apply StronglySorted_inv in S1 as [S1 F1]. apply StronglySorted_inv in S2 as [S2 F2]. rewrite Forall_forall in F1, F2.
    assert (a = b).
    { destruct (proj1 (R a) (or_introl eq_refl)) as [E|I1]; [congruence|]. destruct (proj2 (R b) (or_introl eq_refl)) as [E|I2]; [congruence|]. specialize (F1 b I2). specialize (F2 a I1). lia. }
    subst b. f_equal. apply IH; [exact S1|exact S2|]. intros j. split; intros I.
    + destruct (proj1 (R j) (or_intror I)) as [E|I']; [|exact I']. subst j. specialize (F1 a I). lia.
    + destruct (proj2 (R j) (or_intror I)) as [E|I']; [|exact I']. subst j. specialize (F2 a I). lia.
Qed.
Lemma c72_outcome_proof : forall QE s r lab unc, s_1d s = false -> s_map s = Some r -> (2 <= s_dim s)%nat -> norm_total QE -> atoms_of_dim (s_dim s) r ->
  pdf_ok QE -> nonneg (r_w r) -> gibbs_map_cluster QE s None = Ok (lab, unc) -> s_y s <> [] ->
  (distinct lab <> 11%nat -> exists cmds, gibbs_map_pairplot QE s = Ok cmds) /\
  (distinct lab = 11%nat -> gibbs_map_pairplot QE s = Err IndexError).
Proof.
  intros QE s r lab unc D1 M D T A Pd Wn K Y.
  assert (F : s_gfit s = true) by (unfold gibbs_map_cluster in K; destruct (s_gfit s); [reflexivity|discriminate K]).
  assert (K' := K). unfold gibbs_map_cluster in K'. rewrite F in K'. cbn [negb cast_obs rbind fst] in K'. unfold get_map in K'. rewrite M in K'. cbn [rbind fst] in K'.
  apply cluster_ok in K' as (_ & Lw & grp & C); [|exact Pd|exact Wn].
  assert (Ll : length lab = length (s_y s)) by (destruct C as (ls & _ & _ & Ll & _); exact Ll).
  assert (N : lab <> []) by (intros ->; destruct (s_y s); [congruence|discriminate Ll]).
  destruct (clusters_facts QE _ r grp lab unc C Lw N) as [Cg Le].
  assert (Eu : distinct lab = distinct grp).
  { unfold distinct at 1. rewrite <- (seq_length (distinct grp) 0). apply Permutation_length, NoDup_Permutation; [apply NoDup_nodup|apply seq_NoDup|]. intros j. rewrite nodup_In, in_seq, (Cg j). lia. }
  rewrite Eu. set (u := distinct grp) in *. assert (V : forall i, y_range (col_at i (s_y s)) <> Err ValueError /\ exists ys, y_range (col_at i (s_y s)) = Ok ys).
  { intros i. destruct (y_range_total (col_at i (s_y s))) as (ys & E); [unfold col_at; destruct (s_y s); [congruence|discriminate]|]. rewrite E. split; [discriminate|eauto]. }
  unfold gibbs_map_pairplot. rewrite D1, K. cbn [rbind fst]. destruct (Nat.eqb_spec (s_dim s) 0); [lia|]. replace (is_nil lab) with false by (destruct lab; [congruence|reflexivity]).
  destruct (Nat.eqb_spec (s_dim s) 1); [lia|]. unfold get_map. rewrite M. cbn [rbind]. split; intros U.
  - match goal with |- context [rmap ?f ?l] => assert (X : exists ps, rmap f l = Ok ps) end; [|destruct X as (ps & ->); cbn [rbind]; eauto].
    apply rmap_total. intros [p q] Hpq. apply in_square in Hpq as [Hp Hq]. cbn [fst snd]. destruct (Nat.eqb_spec p q) as [_|Ne].
    + unfold diag_panel. destruct (V p) as (_ & ys & Ey). rewrite Ey. cbn [rbind].
      match goal with |- context [rmap ?f (nunique lab)] => assert (X : exists x, rmap f (nunique lab) = Ok x) end.
      { apply rmap_total. intros j Hj. apply (nunique_range u lab Cg) in Hj. destruct (dens_total QE s r ys p j F M T A Hp ltac:(lia)) as (d & -> & _). cbn [rbind]. rewrite (colour_ok u) by assumption. cbn [rbind]. eauto. }
      destruct X as (used & ->). cbn [rbind].
      match goal with |- context [rmap ?f (seq 0 (length (r_w r)))] => assert (X : exists x, rmap f (seq 0 (length (r_w r))) = Ok x) end.
      { apply rmap_total. intros j Hj. apply in_seq in Hj. destruct (existsb (Nat.eqb j) lab); [eauto|]. destruct (dens_total QE s r ys p j F M T A Hp ltac:(lia)) as (d & -> & Ld). cbn [rbind].
        assert (X : exists m, py_max d = Ok m); [|destruct X as (m & ->); cbn [rbind]; eauto]. apply y_range_ok in Ey as (_ & _ & _ & _ & _ & Ly & _). destruct d; [exfalso; rewrite Ly in Ld; discriminate Ld|simpl; eauto]. }
      destruct X as (unused & ->). cbn [rbind]. destruct (dens_all_total QE s r ys p F M T A Hp) as (d & ->). cbn [rbind]. eauto.
    + unfold off_panel. rewrite (colours_row u lab Cg N U). cbn [rbind].
      match goal with |- context [rmap ?f (nunique lab)] => assert (X : exists x, rmap f (nunique lab) = Ok x) end; [|destruct X as (x & ->); cbn [rbind]; eauto].
      apply rmap_total. intros j Hj. apply (nunique_range u lab Cg) in Hj. destruct (A j ltac:(lia)) as (a & Ea & La & Sq1 & Sq2). rewrite dict_get_of. fold (atom_of j (r_theta r)). rewrite Ea. cbn [rbind].
      unfold sub_vec. cbn [rmap]. rewrite (py_nth_nat (fst a) p 0) by lia. rewrite (py_nth_nat (fst a) q 0) by lia. rewrite (py_nth_nat (snd a) p []) by lia. rewrite (py_nth_nat (snd a) q []) by lia. cbn [rbind rmap].
      rewrite (py_nth_nat (nth p (snd a) []) p 0) by (rewrite Sq2; lia). rewrite (py_nth_nat (nth p (snd a) []) q 0) by (rewrite Sq2; lia). rewrite (py_nth_nat (nth q (snd a) []) p 0) by (rewrite Sq2; lia). rewrite (py_nth_nat (nth q (snd a) []) q 0) by (rewrite Sq2; lia). cbn [rbind].
      rewrite (colour_ok u) by assumption. cbn [rbind]. eauto.
  - assert (X : exists m, s_dim s = S m) by (destruct (s_dim s); [lia|eauto]). destruct X as (m & Em). rewrite Em. cbn [seq list_prod map app]. cbn [rmap fst snd Nat.eqb]. unfold diag_panel at 1. destruct (V 0%nat) as (_ & ys & Ey). rewrite Ey. cbn [rbind].
    rewrite (nunique_seq u lab Cg), U. change (seq 0 11) with (seq 0 10 ++ [10%nat]). rewrite (rmap_first _ IndexError); [reflexivity| |].
    + intros j Hj. apply in_seq in Hj. destruct (dens_total QE s r ys 0 j F M T A ltac:(lia) ltac:(lia)) as (d & -> & _). cbn [rbind]. unfold colour_of. rewrite (n_colours_range u lab Cg N), U.
      destruct (Nat.ltb_spec 11 11); [lia|]. destruct (Nat.ltb_spec j 10); [cbn [rbind]; eauto|lia].
    + destruct (dens_total QE s r ys 0 10 F M T A ltac:(lia) ltac:(lia)) as (d & -> & _). cbn [rbind]. unfold colour_of. rewrite (n_colours_range u lab Cg N), U. reflexivity.
Qed.
Lemma c72_errors_proof : forall QE s,
  (s_1d s = true -> gibbs_map_pairplot QE s = Err IndexError) /\
  (s_1d s = false -> s_gfit s = false -> gibbs_map_pairplot QE s = Err NotFittedError) /\
  (forall lab unc, s_1d s = false -> s_dim s = 1%nat -> gibbs_map_cluster QE s None = Ok (lab, unc) -> lab <> [] -> gibbs_map_pairplot QE s = Err TypeError).
Proof.
  intros QE s. unfold gibbs_map_pairplot. split; [intros ->; reflexivity|]. split.
  - intros -> F. unfold gibbs_map_cluster. rewrite F. reflexivity.
  - intros lab unc -> D K N. rewrite K, D. cbn [rbind fst Nat.eqb]. destruct lab; [congruence|reflexivity].
Qed.
Lemma c72_unfitted_proof : forall QE c parg narg mu lam psi nu t b k o s g, new_mix c parg narg mu lam psi nu t b k o = Ok (s, g) -> gibbs_map_pairplot QE s = Err IndexError.
Proof.
  intros QE c parg narg mu lam psi nu t b k o s g H. apply c72_errors_proof. unfold new_mix in H. destruct (new_ws c parg narg o) as [[s0 g0]| |]; try discriminate H.
  destruct (qltb b t); [|discriminate H]. injection H as <- <-. reflexivity.
Qed.
