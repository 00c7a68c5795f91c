From Coq Require Import Lqa Permutation.
From Verif Require Import Prelude Numpy Rng M_Weights M_Niw M_Utils M_Mix M_Query S_Niw S_Mix S_Sort S_Query S_MixEx S_Renumber P_Lists P_Dens P_Plot P_Sort P_Clu P_GAffQ P_MixEx P_QueryEx.
Open Scope Q_scope.

Lemma qsum_perm l l' : Permutation l l' -> qsum l == qsum l'.
Proof. induction 1; cbn [qsum]; [reflexivity|rewrite IHPermutation; reflexivity|ring|rewrite IHPermutation1; exact IHPermutation2]. Qed.
Lemma somes_perm {A} (l l' : list (option A)) : Permutation l l' -> Permutation (somes l) (somes l').
Proof.
  induction 1 as [|[a|]|[a|] [b|]|]; cbn; auto; try apply perm_swap; try apply Permutation_refl. eapply Permutation_trans; eassumption.
Qed.
Lemma rmap_perm {A B} (f : A -> res B) l l' : Permutation l l' -> forall r, rmap f l = Ok r -> exists r', rmap f l' = Ok r' /\ Permutation r r'.
Proof.
  induction 1 as [|x l l' P IH|x y l|l l' l'' P1 IH1 P2 IH2]; intros r H.
  - exists r. auto.
  - cbn in H. apply rbind_ok in H as (b & Hb & H). apply rbind_ok in H as (t & Ht & H). injection H as <-. destruct (IH t Ht) as (t' & E & P'). exists (b :: t'). cbn. rewrite Hb. cbn. rewrite E. auto.
  - cbn in H. apply rbind_ok in H as (b & Hb & H). apply rbind_ok in H as (t & Ht & H). injection H as <-. apply rbind_ok in Ht as (c & Hc & Ht). apply rbind_ok in Ht as (t' & Ht & H). injection H as <-.
    exists (c :: b :: t'). cbn. rewrite Hc. cbn. rewrite Hb. cbn. rewrite Ht. split; [reflexivity|apply perm_swap].
  - destruct (IH1 r H) as (r1 & E1 & P1'). destruct (IH2 r1 E1) as (r2 & E2 & P2'). exists r2. split; [exact E2|]. eapply Permutation_trans; eassumption.
Qed.
Lemma sum_columns_perm n a b : Permutation a b -> agree (sum_columns n a) (sum_columns n b).
Proof.
  intros P. unfold agree, sum_columns. destruct a as [|x a].
  - apply Permutation_nil in P. subst b. constructor; [reflexivity|constructor].
  - destruct b as [|y b]; [apply Permutation_sym, Permutation_nil in P; discriminate|].
    generalize (seq 0 n). induction l as [|i l IH]; [constructor|]. constructor; [|exact IH]. apply qsum_perm, Permutation_map, P.
Qed.

Section Pi.
Variables (n : nat) (pi : nat -> nat).
Hypothesis Hin : forall j, (j < n)%nat -> (pi j < n)%nat.
Hypothesis Hinj : forall i j, (i < n)%nat -> (j < n)%nat -> pi i = pi j -> i = j.
Lemma pi_perm : Permutation (map pi (seq 0 n)) (seq 0 n).
Proof.
  apply NoDup_Permutation_bis.
  - assert (G : forall l, NoDup l -> (forall j, In j l -> (j < n)%nat) -> NoDup (map pi l)).
    { induction 1 as [|x l Nx ND IH]; intros Hl; [constructor|]. cbn. constructor; [|apply IH; intros; apply Hl; right; assumption].
      intros H. apply in_map_iff in H. destruct H as (y & E & Hy). apply Hinj in E; [subst; contradiction|apply Hl; right; exact Hy|apply Hl; left; reflexivity]. }
    apply G; [apply seq_NoDup|]. intros j Hj. apply in_seq in Hj. destruct Hj as [_ Hj]. exact Hj.
  - rewrite map_length, seq_length. apply le_n.
  - intros x Hx. apply in_map_iff in Hx. destruct Hx as (j & <- & Hj). apply in_seq in Hj. apply in_seq. split; [apply Nat.le_0_l|]. apply Hin. apply (proj2 Hj).
Qed.
Lemma pi_onto k : (k < n)%nat -> exists j, (j < n)%nat /\ pi j = k.
Proof.
  intros Hk. assert (H : In k (map pi (seq 0 n))). { eapply Permutation_in; [apply Permutation_sym, pi_perm|]. apply in_seq. split; [apply Nat.le_0_l|exact Hk]. }
  apply in_map_iff in H. destruct H as (j & E & Hj). apply in_seq in Hj. exists j. split; [apply (proj2 Hj)|exact E].
Qed.
Lemma list_seq {A} (l : list A) d : l = map (fun i => nth i l d) (seq 0 (length l)).
Proof. induction l as [|x l IH]; [reflexivity|]. cbn [length seq map nth]. f_equal. rewrite <- seq_shift, map_map. exact IH. Qed.
Lemma nth_perm {A} (l l' : list A) d : length l = n -> length l' = n -> (forall j, (j < n)%nat -> nth (pi j) l' d = nth j l d) -> Permutation l l'.
Proof.
  intros L L' H. rewrite (list_seq l d), (list_seq l' d), L, L'.
  assert (E : map (fun i => nth i l d) (seq 0 n) = map (fun i => nth i l' d) (map pi (seq 0 n))).
  { rewrite map_map. apply map_ext_in. intros j Hj. apply in_seq in Hj. symmetry. apply H. apply (proj2 Hj). }
  rewrite E. apply Permutation_map, pi_perm.
Qed.
Lemma nth_zseq m j d : (j < m)%nat -> nth j (map Z.of_nat (seq 0 m)) d = Z.of_nat j.
Proof. intros H. rewrite (nth_indep _ d (Z.of_nat 0)) by (rewrite map_length, seq_length; exact H). rewrite map_nth, seq_nth by exact H. reflexivity. Qed.
Lemma rmap_ren {B} (f f' : Z -> res B) cols : (forall j, (j < n)%nat -> f' (Z.of_nat (pi j)) = f (Z.of_nat j)) ->
  rmap f (map Z.of_nat (seq 0 n)) = Ok cols -> exists cols', rmap f' (map Z.of_nat (seq 0 n)) = Ok cols' /\ length cols = n /\ length cols' = n /\
    forall j d, (j < n)%nat -> nth (pi j) cols' d = nth j cols d.
Proof.
  intros Hf H. destruct (rmap_ok f _ _ H) as [L K]. rewrite map_length, seq_length in L, K.
  destruct (rmap_total f' (map Z.of_nat (seq 0 n))) as (cols' & H').
  { intros z Hz. apply in_map_iff in Hz. destruct Hz as (k & <- & Hk). apply in_seq in Hk. destruct (pi_onto k (proj2 Hk)) as (j & Hj & <-).
    rewrite Hf by exact Hj. destruct (rmap_each f _ _ H (Z.of_nat j)) as (y & E & _); [|exists y; exact E]. apply in_map_iff. exists j. split; [reflexivity|]. apply in_seq. split; [apply Nat.le_0_l|exact Hj]. }
  exists cols'. split; [exact H'|]. destruct (rmap_ok f' _ _ H') as [L' K']. rewrite map_length, seq_length in L', K'. split; [exact L|]. split; [exact L'|].
  intros j d Hj. pose proof (K j 0%Z d Hj) as A. pose proof (K' (pi j) 0%Z d (Hin j Hj)) as A'. rewrite nth_zseq in A by exact Hj. rewrite nth_zseq in A' by (apply Hin; exact Hj).
  rewrite Hf in A' by exact Hj. congruence.
Qed.
End Pi.

Lemma py_nth_nat {A} (l : list A) j d : (j < length l)%nat -> py_nth l (Z.of_nat j) = Ok (nth j l d).
Proof.
  intros H. unfold py_nth, py_index. destruct (Z.ltb_spec (Z.of_nat j) 0); [lia|]. destruct (Z.ltb_spec (Z.of_nat j) 0); [lia|]. destruct (Z.leb_spec (Z.of_nat (length l)) (Z.of_nat j)); [lia|]. cbn [orb].
  rewrite Nat2Z.id, (nth_error_nth' l d H). reflexivity.
Qed.
Lemma component_ren QE x fl pi r r' dim j : renumbers pi r r' -> (j < length (r_w r))%nat ->
  component_density QE x fl (r_w r') (r_theta r') dim (Z.of_nat (pi j)) = component_density QE x fl (r_w r) (r_theta r) dim (Z.of_nat j).
Proof.
  intros (L & Hin & _ & H) Hj. destruct (H j Hj) as [Ew Ea].
  assert (D : dict_get (r_theta r') (Z.of_nat (pi j)) = dict_get (r_theta r) (Z.of_nat j)).
  { rewrite !dict_get_of. fold (atom_of (pi j) (r_theta r')). fold (atom_of j (r_theta r)). rewrite Ea. reflexivity. }
  assert (W : py_nth (r_w r') (Z.of_nat (pi j)) = py_nth (r_w r) (Z.of_nat j)).
  { rewrite (py_nth_nat (r_w r') (pi j) 0) by (rewrite L; apply Hin; exact Hj). rewrite (py_nth_nat (r_w r) j 0) by exact Hj. rewrite Ew. reflexivity. }
  unfold component_density. rewrite D, W. reflexivity.
Qed.
Lemma density_proof QE x fl dim r r' v : same_mixture r r' -> mixture_density QE x fl (r_w r) (r_theta r) dim None = Ok v ->
  exists v', mixture_density QE x fl (r_w r') (r_theta r') dim None = Ok v' /\ agree v v'.
Proof.
  intros (pi & R) H. pose proof R as (L & Hin & Hinj & _). unfold mixture_density in *. apply rbind_ok in H as (cols & Hc & H). injection H as <-. rewrite L.
  destruct (rmap_ren (length (r_w r)) pi Hin Hinj _ (component_density QE x fl (r_w r') (r_theta r') dim) cols (fun j Hj => component_ren QE x fl pi r r' dim j R Hj) Hc) as (cols' & E & L1 & L2 & N).
  rewrite E. cbn [rbind]. eexists. split; [reflexivity|]. apply sum_columns_perm, somes_perm.
  apply (nth_perm (length (r_w r)) pi Hin Hinj cols cols' None); auto.
Qed.
Lemma one_component_proof QE x fl dim pi r r' j : renumbers pi r r' -> (j < length (r_w r))%nat ->
  mixture_density QE x fl (r_w r') (r_theta r') dim (Some (Z.of_nat (pi j))) = mixture_density QE x fl (r_w r) (r_theta r) dim (Some (Z.of_nat j)).
Proof. intros R Hj. unfold mixture_density. cbn [rmap]. rewrite (component_ren QE x fl pi r r' dim j R Hj). reflexivity. Qed.

Lemma Forall2_length {A B} (R : A -> B -> Prop) l l' : Forall2 R l l' -> length l = length l'.
Proof. induction 1; cbn; congruence. Qed.
Lemma agree_nth v v' i : agree v v' -> nth i v 0 == nth i v' 0.
Proof. intros H. revert i. induction H; intros [|i]; cbn; auto; reflexivity. Qed.
Lemma agree_len v v' : agree v v' -> length v = length v'.
Proof. intros H; induction H; cbn; congruence. Qed.
Lemma agree_lens k L L' : Forall2 agree L L' -> forallb (fun x => Nat.eqb (length x) k) L' = forallb (fun x => Nat.eqb (length x) k) L.
Proof. induction 1 as [|a a' l l' Ha H IH]; cbn; [reflexivity|]. rewrite (agree_len _ _ Ha), IH. reflexivity. Qed.
Lemma agree_sums i L L' : Forall2 agree L L' -> qsum (map (fun x => nth i x 0) L) == qsum (map (fun x => nth i x 0) L').
Proof. induction 1 as [|a a' l l' Ha H IH]; cbn [map qsum]; [reflexivity|]. rewrite IH, (agree_nth _ _ i Ha). reflexivity. Qed.
Lemma mean_rows_agree rows rows' v : Forall2 agree rows rows' -> mean_rows rows = Ok (Some v) -> exists v', mean_rows rows' = Ok (Some v') /\ agree v v'.
Proof.
  intros H M. destruct H as [|a a' l l' Ha H]; [discriminate|]. unfold mean_rows in *.
  assert (H2 : Forall2 agree (a :: l) (a' :: l')) by (constructor; assumption).
  pose proof (fun k => agree_lens k _ _ H2) as E. pose proof (fun i => agree_sums i _ _ H2) as S.
  rewrite <- (agree_len _ _ Ha), E. destruct (forallb _ (a :: l)); [|discriminate]. injection M as <-. eexists. split; [reflexivity|].
  assert (LL : length (a' :: l') = length (a :: l)) by (symmetry; exact (Forall2_length _ _ _ H2)). rewrite LL.
  unfold agree. generalize (seq 0 (length a)). induction l0 as [|i l0 IH]; [constructor|]. constructor; [|exact IH]. rewrite (S i). reflexivity.
Qed.
Lemma rmap_rel {A A' B} (RA : A -> A' -> Prop) (RB : B -> B -> Prop) (f : A -> res B) (f' : A' -> res B) l l' : Forall2 RA l l' ->
  (forall a a' b, RA a a' -> f a = Ok b -> exists b', f' a' = Ok b' /\ RB b b') -> forall r, rmap f l = Ok r -> exists r', rmap f' l' = Ok r' /\ Forall2 RB r r'.
Proof.
  intros H F. induction H as [|a a' l l' Ha H IH]; intros r E; cbn in E.
  - injection E as <-. exists []. split; [reflexivity|constructor].
  - apply rbind_ok in E as (b & Hb & E). apply rbind_ok in E as (t & Ht & E). injection E as <-. destruct (F _ _ _ Ha Hb) as (b' & Eb & Rb). destruct (IH t Ht) as (t' & Et & Rt).
    exists (b' :: t'). cbn. rewrite Eb. cbn. rewrite Et. split; [reflexivity|constructor; assumption].
Qed.
Lemma skipn_rel {A B} (R : A -> B -> Prop) l l' : Forall2 R l l' -> forall k, Forall2 R (skipn k l) (skipn k l').
Proof. induction 1; intros [|k]; cbn; auto. Qed.
Lemma last_periods_rel {A} (R : A -> A -> Prop) l l' p : Forall2 R l l' -> Forall2 R (last_periods l p) (last_periods l' p).
Proof.
  intros H. unfold last_periods. destruct p as [p|]; [|exact H]. rewrite <- (Forall2_length _ _ _ H). destruct (_ <=? 0)%Z; apply skipn_rel; exact H.
Qed.
Lemma cast_same s s' y : same_data s s' -> cast_obs s' y = cast_obs s y.
Proof. intros (H1 & H2 & _). unfold cast_obs. rewrite H1, H2. reflexivity. Qed.
Lemma eap_proof QE s s' y dim periods v : same_data s s' -> Forall2 same_mixture (get_sim_params s) (get_sim_params s') ->
  gibbs_eap_density QE s y dim None periods = Ok (Some v) -> exists v', gibbs_eap_density QE s' y dim None periods = Ok (Some v') /\ agree v v'.
Proof.
  intros D M H. unfold gibbs_eap_density in *. rewrite (cast_same s s' y D). destruct D as (_ & _ & ->). destruct (negb (s_gfit s)); [discriminate|].
  apply rbind_ok in H as (x & -> & H). cbn [rbind]. apply rbind_ok in H as (rows & Hr & H).
  destruct (rmap_rel same_mixture agree _ (fun r => mixture_density QE (fst x) (snd x) (r_w r) (r_theta r) dim None) _ _ (last_periods_rel _ _ _ periods M)
    (fun r r' b R E => density_proof QE (fst x) (snd x) dim r r' b R E) rows Hr) as (rows' & E & R).
  unfold get_sim_params in *. rewrite E. cbn [rbind]. apply (mean_rows_agree rows rows' v R H).
Qed.
Lemma mean_rows_perm rows rows' v : Permutation rows rows' -> mean_rows rows = Ok (Some v) -> exists v', mean_rows rows' = Ok (Some v') /\ agree v v'.
Proof.
  intros P M. unfold mean_rows in *. destruct rows as [|a l]; [discriminate|]. destruct rows' as [|a' l']; [apply Permutation_sym, Permutation_nil in P; discriminate|].
  destruct (forallb (fun x => Nat.eqb (length x) (length a)) (a :: l)) eqn:F; [|discriminate]. injection M as <-. rewrite forallb_forall in F.
  assert (L : length a' = length a). { apply Nat.eqb_eq, F. eapply Permutation_in; [apply Permutation_sym; exact P|left; reflexivity]. }
  assert (forallb (fun x => Nat.eqb (length x) (length a')) (a' :: l') = true) as ->. { rewrite forallb_forall. intros x Hx. rewrite L. apply F. eapply Permutation_in; [apply Permutation_sym; exact P|exact Hx]. }
  eexists. split; [reflexivity|]. rewrite L, <- (Permutation_length P). unfold agree. generalize (seq 0 (length a)). induction l0 as [|i l0 IH]; [constructor|]. constructor; [|exact IH].
  rewrite (qsum_perm _ _ (Permutation_map (fun x => nth i x 0) P)). reflexivity.
Qed.
Lemma eap_order_proof QE s s' y dim comp v : same_data s s' -> Permutation (get_sim_params s) (get_sim_params s') ->
  gibbs_eap_density QE s y dim comp None = Ok (Some v) -> exists v', gibbs_eap_density QE s' y dim comp None = Ok (Some v') /\ agree v v'.
Proof.
  intros D M H. unfold gibbs_eap_density, last_periods in *. rewrite (cast_same s s' y D). destruct D as (_ & _ & ->). destruct (negb (s_gfit s)); [discriminate|].
  apply rbind_ok in H as (x & -> & H). cbn [rbind]. apply rbind_ok in H as (rows & Hr & H). destruct (rmap_perm _ _ _ M rows Hr) as (rows' & E & P). unfold get_sim_params in *. rewrite E. cbn [rbind].
  apply (mean_rows_perm rows rows' v P H).
Qed.
Lemma map_proof QE s s' y dim r r' v : same_data s s' -> s_map s = Some r -> s_map s' = Some r' -> same_mixture r r' ->
  gibbs_map_density QE s y dim None = Ok v -> exists v', gibbs_map_density QE s' y dim None = Ok v' /\ agree v v'.
Proof.
  intros D M M' R H. unfold gibbs_map_density, get_map in *. rewrite (cast_same s s' y D), M' in *. rewrite M in H. destruct D as (_ & _ & ->). destruct (negb (s_gfit s)); [discriminate|].
  apply rbind_ok in H as (x & -> & H). cbn [rbind] in *. apply (density_proof QE _ _ _ r r' v R H).
Qed.

(* ---- clustering ---- *)
Lemma nth_map_seq' {A} (f : nat -> A) m i d : (i < m)%nat -> nth i (map f (seq 0 m)) d = f i.
Proof. intros H. rewrite (nth_indep _ d (f 0%nat)) by (rewrite map_length, seq_length; exact H). rewrite (map_nth f), seq_nth by exact H. reflexivity. Qed.
Lemma joint_len ls ww i : length (joint ls ww i) = length ww.
Proof. unfold joint. rewrite map_length, seq_length. reflexivity. Qed.
Lemma joint_nth ls ww i j : (j < length ww)%nat -> nth j (joint ls ww i) 0 = nth i (nth j ls []) 0 * nth j ww 0.
Proof.
  intros H. unfold joint. apply (nth_map_seq' (fun j => nth i (nth j ls []) 0 * nth j ww 0)). exact H.
Qed.
Lemma nth_div q S i : (i < length q)%nat -> nth i (map (fun x => x / S) q) 0 = nth i q 0 / S.
Proof. intros H. rewrite (nth_indep _ 0 ((fun x => x / S) 0)) by (rewrite map_length; exact H). apply (map_nth (fun x => x / S)). Qed.
Section Row.
Variables (n : nat) (pi : nat -> nat) (q q' : list Q).
Hypothesis Hin : forall j, (j < n)%nat -> (pi j < n)%nat.
Hypothesis Hinj : forall i j, (i < n)%nat -> (j < n)%nat -> pi i = pi j -> i = j.
Hypothesis Hn : (0 < n)%nat.
Hypothesis L : length q = n.
Hypothesis L' : length q' = n.
Hypothesis N : forall j, (j < n)%nat -> nth (pi j) q' 0 = nth j q 0.
Lemma row_sum : qsum q == qsum q'.
Proof. apply qsum_perm, (nth_perm n pi Hin Hinj q q' 0 L L' N). Qed.
Lemma row_zero : Qeq_bool (qsum q') 0 = Qeq_bool (qsum q) 0.
Proof. apply eq_true_iff_eq. rewrite !Qeq_bool_iff, row_sum. reflexivity. Qed.
Lemma row_max p : length p = n -> Qeq_bool (qsum p) 0 = false -> (row_group p < n)%nat /\ forall j, (j < n)%nat -> nth j p 0 / qsum p <= nth (row_group p) p 0 / qsum p.
Proof.
  intros Lp Z. unfold row_group. rewrite Z. assert (M : first_max (map (fun x => x / qsum p) p) (argmax (map (fun x => x / qsum p) p))).
  { apply argmax_spec. intros X. apply map_eq_nil in X. rewrite X in Lp. cbn in Lp. rewrite <- Lp in Hn. inversion Hn. }
  destruct M as (M1 & M2 & _). rewrite map_length, Lp in M1, M2. split; [exact M1|]. intros j Hj. rewrite <- !nth_div by (rewrite Lp; assumption). apply M2. exact Hj.
Qed.
Lemma row_unc : agree_nan (row_uncertainty q) (row_uncertainty q').
Proof.
  unfold row_uncertainty. rewrite row_zero. destruct (Qeq_bool (qsum q) 0) eqn:Z; [exact I|]. cbn.
  destruct (row_max q L Z) as [G M]. destruct (row_max q' L' (eq_trans row_zero Z)) as [G' M'].
  assert (A : nth (row_group q) q 0 / qsum q == nth (row_group q') q' 0 / qsum q').
  { apply Qle_antisym.
    - rewrite <- (N _ G). rewrite row_sum. apply M', Hin, G.
    - destruct (pi_onto n pi Hin Hinj _ G') as (j & Hj & E). rewrite <- E, (N _ Hj). rewrite <- row_sum. apply M. exact Hj. }
  rewrite A. reflexivity.
Qed.
Lemma row_strict p g : length p = n -> 0 < qsum p -> (g < n)%nat -> (forall j, (j < n)%nat -> j <> g -> nth j p 0 < nth g p 0) -> row_group p = g.
Proof.
  intros Lp P G S. assert (Z : Qeq_bool (qsum p) 0 = false). { apply not_true_is_false. intros E. apply Qeq_bool_iff in E. rewrite E in P. apply (Qlt_irrefl 0 P). }
  destruct (row_max p Lp Z) as [H M]. destruct (Nat.eq_dec (row_group p) g) as [E|E]; [exact E|]. exfalso. specialize (S _ H E). specialize (M g G).
  apply (Qlt_not_le _ _ S). apply (Qmult_le_r _ _ (/ qsum p)); [apply Qinv_lt_0_compat; exact P|exact M].
Qed.
Lemma row_moves g : 0 < qsum q -> (g < n)%nat -> (forall j, (j < n)%nat -> j <> g -> nth j q 0 < nth g q 0) -> row_group q = g /\ row_group q' = pi g.
Proof.
  intros P G S. split; [apply row_strict; assumption|]. apply row_strict; [exact L'|rewrite <- row_sum; exact P|apply Hin; exact G|].
  intros k Hk Nk. destruct (pi_onto n pi Hin Hinj k Hk) as (j & Hj & <-). rewrite !N by assumption. apply S; [exact Hj|]. intros ->. apply Nk. reflexivity.
Qed.
End Row.
Lemma partition_ranks a b : same_partition a b -> same_partition (ranks a) (ranks b).
Proof.
  intros [La H]. destruct (ranks_same_partition a) as [L1 H1]. destruct (ranks_same_partition b) as [L2 H2]. split; [congruence|].
  intros i j Hi Hj. rewrite <- L1 in Hi, Hj. rewrite <- (H1 i j Hi Hj), (H i j Hi Hj). apply H2; rewrite <- La; assumption.
Qed.
Lemma cluster_proof QE x r r' lab unc : same_mixture r r' -> cluster QE x (r_w r) (r_theta r) = Ok (lab, unc) ->
  exists lab' unc', cluster QE x (r_w r') (r_theta r') = Ok (lab', unc') /\ Forall2 agree_nan unc unc' /\ (decided QE x r -> same_partition lab lab').
Proof.
  intros (pi & R) H. pose proof R as (Lw & Hin & Hinj & Hc). unfold cluster in *. apply rbind_ok in H as (rows & Hr & H). unfold prob_rows in *. apply rbind_ok in Hr as (ls & Hls & Hr). injection Hr as <-.
  rewrite Lw. set (f' := fun j => a <~ dict_get (r_theta r') j;; q_pdf QE x (fst a) (snd a)).
  destruct (rmap_ren (length (r_w r)) pi Hin Hinj (fun j => a <~ dict_get (r_theta r) j;; q_pdf QE x (fst a) (snd a)) f' ls) with (2 := Hls) as (ls' & E & L1 & L2 & N).
  { intros j Hj. unfold f'. rewrite !dict_get_of. fold (atom_of (pi j) (r_theta r')). fold (atom_of j (r_theta r)). rewrite (proj2 (Hc j Hj)). reflexivity. }
  fold f'. rewrite E. cbn [rbind].
  assert (B : is_nil (r_w r') = is_nil (r_w r)) by (destruct (r_w r), (r_w r'); try discriminate Lw; reflexivity). rewrite B.
  destruct (is_nil (r_w r) || Nat.eqb (length x) 1) eqn:Bx; [discriminate H|]. apply orb_false_iff in Bx as (B1 & _). injection H as <- <-.
  assert (Hn : (0 < length (r_w r))%nat) by (destruct (r_w r); [discriminate B1|cbn; apply Nat.lt_0_succ]).
  assert (E1 : map (fun i => qmul2 (map (fun c => nth i c 0) ls) (r_w r)) (seq 0 (length x)) = map (joint ls (r_w r)) (seq 0 (length x))) by (apply map_ext; intros i; apply qmul2_joint; exact L1).
  assert (E2 : map (fun i => qmul2 (map (fun c => nth i c 0) ls') (r_w r')) (seq 0 (length x)) = map (joint ls' (r_w r')) (seq 0 (length x))) by (apply map_ext; intros i; apply qmul2_joint; congruence).
  rewrite E1, E2. clear E1 E2.
  assert (J : forall i j, (j < length (r_w r))%nat -> nth (pi j) (joint ls' (r_w r') i) 0 = nth j (joint ls (r_w r) i) 0).
  { intros i j Hj. rewrite !joint_nth by (rewrite ?Lw; auto). rewrite N by exact Hj. rewrite (proj1 (Hc j Hj)). reflexivity. }
  assert (Lj : forall i, length (joint ls (r_w r) i) = length (r_w r)) by (intros; apply joint_len).
  assert (Lj' : forall i, length (joint ls' (r_w r') i) = length (r_w r)) by (intros; rewrite joint_len; exact Lw).
  eexists _, _. split; [reflexivity|]. split.
  - rewrite !map_map. generalize (seq 0 (length x)). induction l as [|i l IH]; [constructor|]. cbn. constructor; [|exact IH].
    apply (row_unc (length (r_w r)) pi); auto.
  - intros D.
    assert (A : atom_densities QE x r ls).
    { split; [exact L1|]. intros j Hj. destruct (rmap_ok _ _ _ Hls) as [_ K]. rewrite map_length, seq_length in K. specialize (K j 0%Z [] Hj). rewrite nth_zseq in K by exact Hj. apply rbind_ok in K as (a & Ha & K).
      rewrite dict_get_of in Ha. fold (atom_of j (r_theta r)) in Ha. destruct (atom_of j (r_theta r)) as [a'|]; [|discriminate Ha]. injection Ha as <-. eauto. }
    assert (G : forall i, (i < length x)%nat -> exists g, (g < length (r_w r))%nat /\ row_group (joint ls (r_w r) i) = g /\ row_group (joint ls' (r_w r') i) = pi g).
    { intros i Hi. destruct (D ls A i Hi) as (P & g & Hg & S). exists g. split; [exact Hg|]. apply (row_moves (length (r_w r)) pi); auto. rewrite qsum_over. exact P. }
    apply partition_ranks. rewrite !map_map. split; [rewrite !map_length; reflexivity|]. rewrite map_length, seq_length. intros i j Hi Hj.
    rewrite !(nth_map_seq' (fun i => row_group (joint ls (r_w r) i))), !(nth_map_seq' (fun i => row_group (joint ls' (r_w r') i))) by assumption.
    destruct (G i Hi) as (gi & Gi & -> & ->). destruct (G j Hj) as (gj & Gj & -> & ->). split; [intros ->; reflexivity|apply Hinj; assumption].
Qed.
Lemma map_cluster_proof QE s s' y r r' lab unc : same_data s s' -> s_map s = Some r -> s_map s' = Some r' -> same_mixture r r' ->
  gibbs_map_cluster QE s y = Ok (lab, unc) -> exists lab' unc', gibbs_map_cluster QE s' y = Ok (lab', unc') /\ Forall2 agree_nan unc unc' /\
    ((forall x fl, cast_obs s y = Ok (x, fl) -> decided QE x r) -> same_partition lab lab').
Proof.
  intros D M M' R H. unfold gibbs_map_cluster, get_map in *. rewrite (cast_same s s' y D), M' in *. rewrite M in H. destruct D as (_ & _ & ->). destruct (negb (s_gfit s)); [discriminate|].
  apply rbind_ok in H as ([x fl] & E & H). rewrite E. cbn [rbind fst] in *. destruct (cluster_proof QE x r r' lab unc R H) as (lab' & unc' & E' & U & P). exists lab', unc'. split; [exact E'|]. split; [exact U|].
  intros HD. apply P. apply (HD x fl). reflexivity.
Qed.
Lemma map_as_seq {A B} (f : A -> B) l d : map f l = map (fun j => f (nth j l d)) (seq 0 (length l)).
Proof. rewrite (list_seq l d) at 1. apply map_map. Qed.
Lemma partition_matrix a b : same_partition a b -> equal_matrix a = equal_matrix b.
Proof.
  intros [Lab H]. unfold equal_matrix.
  assert (K : forall i, (i < length a)%nat -> map (fun y => if Nat.eqb y (nth i a 0%nat) then 1%nat else 0%nat) a = map (fun y => if Nat.eqb y (nth i b 0%nat) then 1%nat else 0%nat) b).
  { intros i Hi. rewrite (map_as_seq _ a 0%nat), (map_as_seq _ b 0%nat), Lab. apply map_ext_in. intros j Hj. apply in_seq in Hj. rewrite <- Lab in Hj. specialize (H j i (proj2 Hj) Hi).
    destruct (Nat.eqb_spec (nth j a 0%nat) (nth i a 0%nat)), (Nat.eqb_spec (nth j b 0%nat) (nth i b 0%nat)); tauto. }
  rewrite (map_as_seq _ a 0%nat), (map_as_seq _ b 0%nat), Lab. apply map_ext_in. intros i Hi. apply in_seq in Hi. rewrite <- Lab in Hi. apply K. apply (proj2 Hi).
Qed.

Lemma affinity_proof QE s s' y m : same_data s s' -> Forall2 same_mixture (get_sim_params s) (get_sim_params s') ->
  (forall x fl r, cast_obs s (Some y) = Ok (x, fl) -> In r (get_sim_params s) -> decided QE x r) ->
  gibbs_eap_affinity_matrix QE s (Some y) = Ok m -> gibbs_eap_affinity_matrix QE s' (Some y) = Ok m.
Proof.
  intros D M HD H. unfold gibbs_eap_affinity_matrix, get_sim_params in *. rewrite (cast_same s s' (Some y) D). destruct D as (_ & _ & ->). destruct (negb (s_gfit s)); [discriminate|].
  apply rbind_ok in H as ([x fl] & E & H). rewrite E. cbn [rbind fst] in *. apply rbind_ok in H as (gs & Hg & H). injection H as <-.
  assert (M2 : Forall2 (fun r r' => same_mixture r r' /\ decided QE x r) (s_sims s) (s_sims s')).
  { assert (HD' : forall r, In r (s_sims s) -> decided QE x r) by (intros r Hr; apply (HD x fl r E Hr)). clear - M HD'.
    induction M as [|a a' l l' Ha M IH]; constructor; [split; [exact Ha|apply HD'; left; reflexivity]|apply IH; intros; apply HD'; right; assumption]. }
  destruct (rmap_rel _ (fun g g' => equal_matrix (fst g) = equal_matrix (fst g')) (fun r => cluster QE x (r_w r) (r_theta r)) (fun r => cluster QE x (r_w r) (r_theta r)) _ _ M2) with (2 := Hg) as (gs' & E' & R).
  { intros r r' [lab unc] [Rm Rd] Hc. destruct (cluster_proof QE x r r' lab unc Rm Hc) as (lab' & unc' & Ec & _ & P). exists (lab', unc'). split; [exact Ec|]. cbn [fst]. apply partition_matrix, P, Rd. }
  rewrite E'. cbn [rbind]. rewrite (Forall2_length _ _ _ M). f_equal. f_equal.
  generalize (repeat (repeat 0%nat (length x)) (length x)). clear - R. induction R as [|g g' l l' Hg R IH]; intros m0; [reflexivity|]. cbn [fold_left]. rewrite Hg. apply IH.
Qed.

(* ---- witnesses ---- *)
Definition near (lo : Q) (r m : vec) : Q := if Qeq_bool (vat r 0) (vat m 0) then 2 else lo.
Definition near_qenv (lo : Q) : qenv := ex_qenv (near lo).
Definition two_a : rparams := RP [1 # 2; 1 # 4] [(0%nat, ([0], [[1]])); (1%nat, ([1], [[1]]))] [] [].
Definition two_b : rparams := RP [1 # 4; 1 # 2] [(0%nat, ([1], [[1]])); (1%nat, ([0], [[1]]))] [] [].
Definition even_a : rparams := RP [1 # 2; 1 # 2] [(0%nat, ([0], [[1]])); (1%nat, ([1], [[1]]))] [] [].
Definition even_b : rparams := RP [1 # 2; 1 # 2] [(0%nat, ([1], [[1]])); (1%nat, ([0], [[1]]))] [] [].
Lemma swap_same w0 w1 a0 a1 : same_mixture (RP [w0; w1] [(0%nat, a0); (1%nat, a1)] [] []) (RP [w1; w0] [(0%nat, a1); (1%nat, a0)] [] []).
Proof.
  exists (fun j => (1 - j)%nat). unfold renumbers. cbn [r_w length]. split; [reflexivity|]. split; [intros; lia|]. split; [intros; lia|].
  intros [|[|j]] Hj; [split; reflexivity|split; reflexivity|lia].
Qed.
Lemma near_ok lo : 0 <= lo -> pdf_ok (near_qenv lo).
Proof. intros H. apply ex_qenv_ok. intros r m. unfold near. destruct (Qeq_bool _ _); lra. Qed.
Lemma tie_proof : exists QE x r r' lab unc lab' unc', pdf_ok QE /\ same_mixture r r' /\
  (forall y m c l, q_pdf QE y m c = Ok l -> Forall (fun v => 0 < v) l) /\ Forall (fun v => 0 < v) (r_w r) /\
  cluster QE x (r_w r) (r_theta r) = Ok (lab, unc) /\ cluster QE x (r_w r') (r_theta r') = Ok (lab', unc') /\ ~ same_partition lab lab'.
Proof.
  exists (near_qenv 1), [[0]; [5]], even_a, even_b. eexists _, _, _, _. split; [apply near_ok; lra|]. split; [apply swap_same|]. split.
  { intros y m c l [= <-]. apply Forall_forall. intros v Hv. apply in_map_iff in Hv as (r & <- & _). unfold near. destruct (Qeq_bool _ _); lra. }
  split; [constructor; [lra|constructor; [lra|constructor]]|]. split; [vm_compute; reflexivity|]. split; [vm_compute; reflexivity|].
  intros [_ H]. specialize (H 0%nat 1%nat). cbn in H. destruct H as [H _]; [lia|lia|]. specialize (H eq_refl). discriminate H.
Qed.
Lemma zero_proof : exists QE x r r' lab unc lab' unc', pdf_ok QE /\ same_mixture r r' /\ nth 0 (r_w r) 0 > nth 1 (r_w r) 0 /\
  cluster QE x (r_w r) (r_theta r) = Ok (lab, unc) /\ cluster QE x (r_w r') (r_theta r') = Ok (lab', unc') /\ nth 1 unc (Some 0) = None /\ ~ same_partition lab lab'.
Proof.
  exists (near_qenv 0), [[0]; [5]], two_a, two_b. eexists _, _, _, _. split; [apply near_ok; lra|]. split; [apply swap_same|]. split; [reflexivity|].
  split; [vm_compute; reflexivity|]. split; [vm_compute; reflexivity|]. split; [reflexivity|].
  intros [_ H]. specialize (H 0%nat 1%nat). cbn in H. destruct H as [H _]; [lia|lia|]. specialize (H eq_refl). discriminate H.
Qed.
Lemma two_decided : decided (near_qenv (1 # 2)) [[0]; [1]] two_a.
Proof.
  intros ls (L & A) i Hi. cbn in L. destruct ls as [|l0 [|l1 [|]]]; try discriminate L. cbn [r_w two_a length] in *.
  destruct (A 0%nat ltac:(lia)) as (a & [= <-] & [= <-]). destruct (A 1%nat ltac:(lia)) as (a & [= <-] & [= <-]).
  destruct i as [|[|i]]; [| |cbn in Hi; lia].
  - split; [reflexivity|]. exists 0%nat. split; [lia|]. intros [|[|j]] Hj Nj; [congruence|reflexivity|lia].
  - split; [reflexivity|]. exists 1%nat. split; [lia|]. intros [|[|j]] Hj Nj; [reflexivity|congruence|lia].
Qed.
Lemma labels_proof : exists QE x r r' lab unc lab' unc', pdf_ok QE /\ same_mixture r r' /\ decided QE x r /\
  cluster QE x (r_w r) (r_theta r) = Ok (lab, unc) /\ cluster QE x (r_w r') (r_theta r') = Ok (lab', unc') /\ lab <> lab'.
Proof.
  exists (near_qenv (1 # 2)), [[0]; [1]], two_a, two_b. eexists _, _, _, _. split; [apply near_ok; lra|]. split; [apply swap_same|]. split; [exact two_decided|].
  split; [vm_compute; reflexivity|]. split; [vm_compute; reflexivity|]. discriminate.
Qed.
(* two fitted objects that hold one mixture under two numberings *)
Definition ren_s (l : list rparams) : ms := upd_map (match l with r :: _ => Some r | [] => None end) (LQ 0) (upd_sims 2 l [] [] (snd (fst ex_fit))).
Lemma ren_facts l l' : same_data (ren_s l) (ren_s l') /\ get_sim_params (ren_s l) = l /\ s_gfit (ren_s l) = true.
Proof. split; [split; [reflexivity|split; reflexivity]|]. split; [reflexivity|]. vm_compute. reflexivity. Qed.
