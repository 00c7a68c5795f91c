(* Ranks of labels and the size-biased relabelling (C45). *)
From Coq Require Import Permutation Sorted.
From Verif Require Import Prelude Numpy Rng M_Utils S_Mix S_Sort P_Lists P_Mix37 P_Mix34.
Open Scope nat_scope.

(* ---- np.unique ---- *)
Lemma seq_sorted n : forall a, StronglySorted lt (seq a n).
Proof.
  induction n; intros a; simpl; constructor; [apply IHn|]. apply Forall_forall. intros x Hx. apply in_seq in Hx. lia.
Qed.
Lemma filter_sorted f l : StronglySorted lt l -> StronglySorted lt (filter f l).
Proof.
  induction 1 as [|x l Hs IH Hf]; simpl; [constructor|]. destruct (f x); [constructor; [exact IH|]|exact IH].
  apply Forall_forall. intros y Hy. apply filter_In in Hy. rewrite Forall_forall in Hf. apply Hf, Hy.
Qed.
Lemma nunique_sorted l : StronglySorted lt (nunique l).
Proof. unfold nunique. destruct l; [constructor|]. apply filter_sorted, seq_sorted. Qed.
Lemma rank_nth u : StronglySorted lt u -> forall r, r < length u -> rank_in u (nth r u 0) = r.
Proof.
  unfold rank_in. induction 1 as [|x l Hs IH Hf]; intros r Hr; simpl in Hr; [lia|]. rewrite Forall_forall in Hf.
  destruct r as [|r]; simpl.
  - rewrite Nat.ltb_irrefl. assert (filter (fun y => y <? x) l = []) as ->; [|reflexivity].
    rewrite (filter_ext_in _ (fun _ => false)); [clear; induction l; simpl; auto|]. intros y Hy. apply Nat.ltb_ge. specialize (Hf y Hy). lia.
  - assert (x < nth r l 0) by (apply Hf, nth_In; lia). apply Nat.ltb_lt in H. rewrite H. simpl. f_equal. apply IH. lia.
Qed.
Lemma rank_mem u x : StronglySorted lt u -> In x u -> nth (rank_in u x) u 0 = x /\ rank_in u x < length u.
Proof. intros Hs Hx. destruct (In_nth u x 0 Hx) as (r & Hr & E). rewrite <- E, rank_nth by assumption. auto. Qed.
Lemma ranks_length l : length (ranks l) = length l. Proof. apply map_length. Qed.
Lemma ranks_nth l i : i < length l -> nth i (ranks l) 0 = rank_in (nunique l) (nth i l 0).
Proof. intros H. unfold ranks. rewrite (nth_indep _ 0 (rank_in (nunique l) 0)) by (rewrite map_length; exact H). apply map_nth. Qed.
Lemma rank_label l x : In x l -> nth (rank_in (nunique l) x) (nunique l) 0 = x /\ rank_in (nunique l) x < length (nunique l).
Proof. intros H. apply rank_mem; [apply nunique_sorted|apply nunique_in, H]. Qed.
Lemma rank_inj l x y : In x l -> In y l -> rank_in (nunique l) x = rank_in (nunique l) y -> x = y.
Proof. intros Hx Hy E. destruct (rank_label l x Hx) as [A _]. destruct (rank_label l y Hy) as [B _]. rewrite <- A, <- B, E. reflexivity. Qed.
Lemma rank_mono u x y : StronglySorted lt u -> In x u -> x < y -> rank_in u x < rank_in u y.
Proof.
  unfold rank_in. intros Hs Hx Hy. assert (K : forall u, length (filter (fun z => z <? x) u) <= length (filter (fun z => z <? y) u)).
  { induction u0 as [|z t IH]; simpl; [lia|]. destruct (Nat.ltb_spec z x), (Nat.ltb_spec z y); simpl; lia. }
  clear Hs. induction u as [|z t IH]; [destruct Hx|]. simpl. destruct Hx as [->|Hx].
  - rewrite Nat.ltb_irrefl. apply Nat.ltb_lt in Hy. rewrite Hy. simpl. specialize (K t). lia.
  - specialize (IH Hx). destruct (Nat.ltb_spec z x), (Nat.ltb_spec z y); simpl; lia.
Qed.
Lemma ranks_same_partition l : same_partition l (ranks l).
Proof.
  split; [symmetry; apply ranks_length|]. intros i j Hi Hj. rewrite !ranks_nth by assumption. split; [congruence|].
  apply rank_inj; apply nth_In; assumption.
Qed.
Lemma ranks_in l r : In r (ranks l) <-> r < length (nunique l).
Proof.
  unfold ranks. rewrite in_map_iff. split.
  - intros (x & <- & Hx). apply rank_label, Hx.
  - intros Hr. exists (nth r (nunique l) 0). split; [apply rank_nth; [apply nunique_sorted|exact Hr]|]. apply nunique_in, nth_In, Hr.
Qed.
Lemma ranks_contiguous l : contiguous (distinct l) (ranks l).
Proof. intros r. rewrite ranks_in, nunique_distinct. reflexivity. Qed.

(* ---- argsort ---- *)
Lemma argsort_len f l : argsorts f -> length (f l) = length l.
Proof. intros H. destruct (H l) as [P _]. apply Permutation_length in P. rewrite seq_length in P. exact P. Qed.
Lemma argsort_bound f l i : argsorts f -> i < length l -> nth i (f l) 0 < length l.
Proof.
  intros H Hi. pose proof (argsort_len f l H) as L. destruct (H l) as [P _].
  assert (K : In (nth i (f l) 0) (f l)) by (apply nth_In; lia). eapply Permutation_in in K; [|exact P]. apply in_seq in K. lia.
Qed.
(* a non-decreasing injective map of {0..m-1} to itself is the identity *)
Lemma mono_id m (p : nat -> nat) : (forall i, i < m -> p i < m) -> (forall i j, i <= j -> j < m -> p i <= p j) ->
  (forall i j, i < m -> j < m -> p i = p j -> i = j) -> forall i, i < m -> p i = i.
Proof.
  intros B Mo I.
  assert (St : forall i j, i < j -> j < m -> p i < p j).
  { intros i j H Hj. assert (p i <= p j) by (apply Mo; lia). assert (p i <> p j) by (intros F; apply I in F; lia). lia. }
  assert (L : forall i, i < m -> i <= p i).
  { induction i; intros Hi; [lia|]. specialize (IHi ltac:(lia)). specialize (St i (S i) ltac:(lia) Hi). lia. }
  assert (U : forall k i, i + k < m -> p i + k <= p (i + k)).
  { induction k; intros i Hi; [rewrite !Nat.add_0_r; lia|]. specialize (IHk i ltac:(lia)). specialize (St (i + k) (i + S k) ltac:(lia) Hi). lia. }
  intros i Hi. specialize (L i Hi). specialize (U (m - 1 - i) i ltac:(lia)). replace (i + (m - 1 - i)) with (m - 1) in U by lia.
  specialize (B (m - 1) ltac:(lia)). lia.
Qed.
(* the argsort of a permutation is its inverse *)
Lemma argsort_inverse f q m : argsorts f -> Permutation q (seq 0 m) -> forall i, i < m -> nth (nth i (f (map Z.of_nat q)) 0) q 0 = i.
Proof.
  intros H P. pose proof (Permutation_length P) as L. rewrite seq_length in L.
  set (p := f (map Z.of_nat q)). assert (Lp : length p = m) by (unfold p; rewrite argsort_len, map_length by exact H; exact L).
  assert (Bq : forall i, i < m -> nth i q 0 < m).
  { intros i Hi. assert (K : In (nth i q 0) q) by (apply nth_In; lia). eapply Permutation_in in K; [|exact P]. apply in_seq in K. lia. }
  assert (Bp : forall i, i < m -> nth i p 0 < m).
  { intros i Hi. pose proof (argsort_bound f (map Z.of_nat q) i H) as K. rewrite map_length in K. unfold p. rewrite <- L in *. auto. }
  assert (Nq : NoDup q) by (eapply Permutation_NoDup; [apply Permutation_sym, P|apply seq_NoDup]).
  assert (Np : NoDup p) by (destruct (H (map Z.of_nat q)) as [K _]; eapply Permutation_NoDup; [apply Permutation_sym, K|apply seq_NoDup]).
  apply (mono_id m (fun i => nth (nth i p 0) q 0)).
  - auto.
  - intros i j Hij Hj. destruct (H (map Z.of_nat q)) as [_ K]. rewrite map_length in K. specialize (K i j Hij ltac:(lia)). fold p in K.
    rewrite !(map_nth Z.of_nat q 0 : forall n, nth n (map Z.of_nat q) 0%Z = _) in K. lia.
  - intros i j Hi Hj Eq. rewrite NoDup_nth in Nq, Np. apply Np; try lia. apply Nq; try (rewrite L; auto); exact Eq.
Qed.

(* ---- counting ---- *)
Lemma ncount_size j l : ncount j l = size_of j l.
Proof.
  unfold ncount, size_of. induction l as [|x t IH]; simpl; [reflexivity|]. destruct (Nat.eqb_spec j x), (Nat.eq_dec x j); subst; simpl; congruence.
Qed.
Lemma size_map (f : nat -> nat) l x : In x l -> (forall y, In y l -> f y = f x -> y = x) -> size_of (f x) (map f l) = size_of x l.
Proof.
  intros _ I. unfold size_of. induction l as [|y t IH]; simpl; [reflexivity|].
  destruct (Nat.eq_dec (f y) (f x)) as [e|e], (Nat.eq_dec y x) as [e'|e']; subst.
  - f_equal. apply IH. intros z Hz. apply I. right; exact Hz.
  - exfalso. apply e', I; [left; reflexivity|exact e].
  - congruence.
  - apply IH. intros z Hz. apply I. right; exact Hz.
Qed.
Lemma gather_total (x : list nat) idx : (forall i, In i idx -> i < length x) -> gather x idx = Some (map (fun i => nth i x 0) idx).
Proof.
  induction idx as [|i t IH]; intros H; simpl; [reflexivity|]. rewrite IH by (intros; apply H; right; assumption).
  assert (Hi : i < length x) by (apply H; left; reflexivity). destruct (nth_error x i) eqn:E; [erewrite nth_error_nth by exact E; reflexivity|].
  apply nth_error_None in E. lia.
Qed.

(* ---- size_biased ---- *)
Lemma size_biased_spec f l : argsorts f -> exists l', size_biased f l = Some l' /\
  same_partition l l' /\ contiguous (distinct l) l' /\ by_size (distinct l) l'.
Proof.
  intros H. unfold size_biased. set (m := distinct l). assert (Hm : length (nunique l) = m) by apply nunique_distinct.
  set (neg := map (fun c => (- Z.of_nat c)%Z) (ucounts l)). set (q := f neg). set (p := f (map Z.of_nat q)).
  assert (Ln : length neg = m) by (unfold neg, ucounts; rewrite !map_length; exact Hm).
  assert (P : Permutation q (seq 0 m)) by (destruct (H neg) as [K _]; rewrite Ln in K; exact K).
  assert (Lq : length q = m) by (rewrite (Permutation_length P); apply seq_length).
  assert (Lp : length p = m) by (unfold p; rewrite argsort_len, map_length by exact H; exact Lq).
  assert (Inv : forall i, i < m -> nth (nth i p 0) q 0 = i) by (apply argsort_inverse; assumption).
  assert (Bp : forall i, i < m -> nth i p 0 < m).
  { intros i Hi. unfold p. pose proof (argsort_bound f (map Z.of_nat q) i H) as K. rewrite map_length, Lq in K. auto. }
  assert (Bq : forall i, i < m -> nth i q 0 < m).
  { intros i Hi. unfold q. rewrite <- Ln. apply argsort_bound; [exact H|lia]. }
  assert (Nq : NoDup q) by (eapply Permutation_NoDup; [apply Permutation_sym, P|apply seq_NoDup]).
  assert (Inv' : forall c, c < m -> nth (nth c q 0) p 0 = c).
  { intros c Hc. rewrite NoDup_nth in Nq. apply (Nq _ c); try (rewrite Lq; auto). apply (Inv (nth c q 0)). auto. }
  exists (map (fun i => nth i p 0) (ranks l)). split; [|split; [|split]].
  - apply gather_total. intros r Hr. apply ranks_in in Hr. lia.
  - split; [rewrite map_length, ranks_length; reflexivity|]. intros i j Hi Hj.
    rewrite !(nth_map_lt _ _ _ _ 0) by (rewrite ranks_length; assumption).
    destruct (ranks_same_partition l) as [_ K]. rewrite (K i j Hi Hj). split; [congruence|]. intros F.
    assert (Ri : nth i (ranks l) 0 < m) by (rewrite <- Hm; apply ranks_in, nth_In; rewrite ranks_length; exact Hi).
    assert (Rj : nth j (ranks l) 0 < m) by (rewrite <- Hm; apply ranks_in, nth_In; rewrite ranks_length; exact Hj).
    rewrite <- (Inv _ Ri), <- (Inv _ Rj), F. reflexivity.
  - intros c. rewrite in_map_iff. split.
    + intros (r & <- & Hr). apply ranks_in in Hr. apply Bp. lia.
    + intros Hc. exists (nth c q 0). split; [apply Inv', Hc|]. apply ranks_in. rewrite Hm. auto.
  - assert (Sz : forall c, c < m -> Z.of_nat (size_of c (map (fun i => nth i p 0) (ranks l))) = Z.opp (nth (nth c q 0) neg 0%Z)).
    { intros c Hc. set (r := nth c q 0). assert (Hr : r < m) by (apply Bq, Hc).
      rewrite <- (Inv' c Hc). fold r.
      assert (Ir : In r (ranks l)) by (apply ranks_in; lia).
      rewrite (size_map (fun i => nth i p 0) (ranks l) r Ir).
      2: { intros y Hy E. apply ranks_in in Hy. rewrite <- (Inv y), <- (Inv r), E by lia. reflexivity. }
      set (x := nth r (nunique l) 0). assert (Ex : rank_in (nunique l) x = r) by (apply rank_nth; [apply nunique_sorted|lia]).
      assert (Ix : In x l) by (apply nunique_in, nth_In; lia).
      rewrite <- Ex at 1. unfold ranks. rewrite (size_map (rank_in (nunique l)) l x Ix).
      2: { intros y Hy E. apply (rank_inj l); assumption. }
      unfold neg. rewrite (nth_map_lt _ _ _ _ 0) by (unfold ucounts; rewrite map_length; lia).
      unfold ucounts. rewrite (nth_map_lt _ _ _ _ 0) by lia. fold x. rewrite ncount_size. lia. }
    intros c c' Hc Hc'. destruct (H neg) as [_ K]. rewrite Ln in K. specialize (K c c' Hc Hc'). fold q in K.
    pose proof (Sz c ltac:(lia)). pose proof (Sz c' Hc'). lia.
Qed.
Lemma c45_relabel_proof : forall argsort S (s : S) y k o g, argsorts argsort -> (1 <= k <= Z.of_nat (length y))%Z ->
  exists l', kmeans_cluster_size_biased argsort y k o s g = (Ok l', s, g ++ [RKMeans y (Z.to_nat k)]) /\
    let l := o_kmeans o g y (Z.to_nat k) in same_partition l l' /\ contiguous (distinct l) l' /\ by_size (distinct l) l'.
Proof.
  intros argsort S s y k o g H Hk. unfold kmeans_cluster_size_biased, kmeans1, bind.
  destruct (Z.leb_spec k 0); [lia|]. destruct (Z.ltb_spec (Z.of_nat (length y)) k); [lia|]. simpl.
  destruct (size_biased_spec argsort (o_kmeans o g y (Z.to_nat k)) H) as (l' & E & R). exists l'. rewrite E. split; [reflexivity|exact R].
Qed.
Lemma c45_bad_k_proof : forall argsort S (s : S) y k o g, (k <= 0 \/ Z.of_nat (length y) < k)%Z ->
  kmeans_cluster_size_biased argsort y k o s g = (Err ValueError, s, g).
Proof.
  intros argsort S s y k o g H. unfold kmeans_cluster_size_biased, kmeans1, bind.
  destruct (Z.leb_spec k 0); [reflexivity|]. destruct (Z.ltb_spec (Z.of_nat (length y)) k); [reflexivity|lia].
Qed.

(* an argsort exists *)
Lemma ins_perm x l : Permutation (ins x l) (x :: l).
Proof. induction l as [|y t IH]; simpl; [reflexivity|]. destruct (_ <=? _)%Z; [reflexivity|]. rewrite IH. apply perm_swap. Qed.
Lemma isort_perm l : Permutation (isort l) l.
Proof. induction l as [|x t IH]; simpl; [reflexivity|]. rewrite ins_perm, IH. reflexivity. Qed.
Definition zle (a b : Z * nat) := (fst a <= fst b)%Z.
Lemma ins_sorted x l : StronglySorted zle l -> StronglySorted zle (ins x l).
Proof.
  unfold zle. induction 1 as [|y t Hs IH Hf]; simpl; [repeat constructor|]. destruct (Z.leb_spec (fst x) (fst y)).
  - constructor; [constructor; assumption|]. constructor; [assumption|]. eapply Forall_impl; [|exact Hf]. intros z Hz; simpl in *; lia.
  - constructor; [exact IH|]. eapply Permutation_Forall; [apply Permutation_sym, ins_perm|]. constructor; [lia|exact Hf].
Qed.
Lemma isort_sorted l : StronglySorted zle (isort l).
Proof. induction l; simpl; [constructor|apply ins_sorted; assumption]. Qed.
Lemma sorted_nth (R : Z * nat -> Z * nat -> Prop) l z : StronglySorted R l -> forall i j, i < j -> j < length l -> R (nth i l z) (nth j l z).
Proof.
  induction 1 as [|y t Hs IH Hf]; simpl; intros i j Hij Hj; [lia|]. destruct j; [lia|]. destruct i.
  - rewrite Forall_forall in Hf. apply Hf, nth_In. lia.
  - apply IH; lia.
Qed.
Lemma stable_argsorts : argsorts stable_argsort.
Proof.
  intros l. unfold stable_argsort. set (z := combine l (seq 0 (length l))).
  assert (Lz : length z = length l) by (unfold z; rewrite combine_length, seq_length; lia).
  pose proof (isort_perm z) as P. assert (Li : length (isort z) = length l) by (rewrite (Permutation_length P); exact Lz).
  split; [rewrite P; unfold z; assert (X : forall (a : list Z) (b : list nat), length a = length b -> map snd (combine a b) = b) by (induction a; destruct b; simpl; intros; try discriminate; f_equal; auto); rewrite X; [reflexivity|symmetry; apply seq_length]|].
  assert (V : forall i, i < length l -> nth (nth i (map snd (isort z)) 0) l 0%Z = fst (nth i (isort z) (0%Z, 0))).
  { intros i Hi. rewrite (nth_map_lt _ _ _ _ (0%Z, 0)) by lia. assert (K : In (nth i (isort z) (0%Z, 0)) z) by (eapply Permutation_in; [exact P|apply nth_In; lia]).
    destruct (In_nth z _ (0%Z, 0) K) as (n & Hn & E). rewrite <- E. unfold z. rewrite combine_nth by (rewrite seq_length; reflexivity). simpl.
    rewrite seq_nth by lia. reflexivity. }
  intros i j Hij Hj. rewrite !V by lia. destruct (Nat.eq_dec i j) as [->|]; [lia|].
  apply (sorted_nth zle); [apply isort_sorted|lia|lia].
Qed.
