(* The law of the coincidences among the sticks of BetaInDirichlet. *)
From Coq Require Import Lqa.
From Verif Require Import Prelude Numpy Rng M_Weights S_Weights S_Hist S_Urn P_Lists P_Urn.
Open Scope Q_scope.

(* ---- picks ---- *)
Lemma labels_after_snoc k t x : labels_after k (t ++ [x]) = next (labels_after k t) x.
Proof. unfold labels_after. rewrite fold_left_app. reflexivity. Qed.
Lemma labels_after_ge t : forall k, (k <= labels_after k t)%nat.
Proof. induction t as [|x t IH]; intros k; simpl; [lia|]. specialize (IH (next k x)). pose proof (next_ge k x). unfold labels_after in *. simpl. lia. Qed.
Lemma picks_lt t : forall k, picks k t -> Forall (fun x => (x < labels_after k t)%nat) t.
Proof.
  induction t as [|x t IH]; intros k H; [constructor|]. destruct H as [H1 H2]. constructor; [|apply (IH _ H2)].
  pose proof (pick_lt_next k x H1). pose proof (labels_after_ge t (next k x)). unfold labels_after in *. simpl. lia.
Qed.
Lemma pattern_all t : forall i, pattern t -> (i < labels_after 0 t)%nat -> In i t.
Proof.
  induction t as [|x t IH] using rev_ind; intros i H Hi; [unfold labels_after in Hi; simpl in Hi; lia|].
  apply picks_snoc in H. destruct H as [H Hx]. rewrite labels_after_snoc in Hi. apply in_or_app.
  unfold next in Hi. destruct (Nat.ltb_spec x (labels_after 0 t)); [left; apply IH; assumption|].
  destruct (Nat.eq_dec i x) as [->|N]; [right; left; reflexivity|left; apply IH; [exact H|lia]].
Qed.

(* ---- the two ways of using the first base stick ---- *)
(* relabelling in which the j-th block uses the first base stick *)
Definition rho (j i : nat) : nat := if Nat.eqb i j then 0%nat else if (i <? j)%nat then S i else i.
Ltac rh := unfold rho; repeat match goal with |- context[Nat.eqb ?a ?b] => destruct (Nat.eqb_spec a b) | |- context[Nat.ltb ?a ?b] => destruct (Nat.ltb_spec a b) end.
Lemma rho_inj j a b : rho j a = rho j b -> a = b.
Proof. rh; lia. Qed.
Lemma rho_self j : rho j j = 0%nat. Proof. rh; lia. Qed.
Lemma rho_lt j k x : (j < k)%nat -> (x < k)%nat -> (rho j x < k)%nat. Proof. intros. rh; lia. Qed.
Lemma rho_ge j k : (j < k)%nat -> rho j k = k. Proof. intros. rh; lia. Qed.
Lemma rho_below j x : (x < j)%nat -> rho j x = S x. Proof. intros. rh; lia. Qed.
Lemma rho_onto j k y : (j < k)%nat -> (y < k)%nat -> exists x, (x < k)%nat /\ rho j x = y.
Proof.
  intros Hj Hy. destruct y as [|y]; [exists j; split; [lia|apply rho_self]|].
  destruct (le_lt_dec (S y) j); [exists y|exists (S y)]; (split; [lia|]); rh; lia.
Qed.
Lemma map_rho_below j t : Forall (fun x => (x < j)%nat) t -> map (rho j) t = map S t.
Proof. intros H. apply map_ext_in. intros x Hx. rewrite Forall_forall in H. apply rho_below. auto. Qed.
Lemma n_eq_map f x t : (forall y, f x = f y -> x = y) -> n_eq (f x) (map f t) = n_eq x t.
Proof.
  intros H. unfold n_eq. induction t as [|y t IH]; [reflexivity|]. simpl. destruct (Nat.eq_dec (f y) (f x)) as [E|E]; destruct (Nat.eq_dec y x) as [E'|E'].
  - f_equal. exact IH. - exfalso. apply E'. symmetry. apply H. symmetry. exact E. - subst. congruence. - exact IH.
Qed.

Lemma labels_S t : forall k, labels_after (S k) (map S t) = S (labels_after k t).
Proof.
  induction t as [|x t IH]; intros k; [reflexivity|]. unfold labels_after in *. simpl. rewrite <- IH. f_equal. unfold next.
  change (S x <? S k)%nat with (x <? k)%nat. destruct (x <? k)%nat; reflexivity.
Qed.
Lemma picks_S t : forall k, picks k t -> picks (S k) (map S t).
Proof.
  induction t as [|x t IH]; intros k H; [exact I|]. destruct H as [H1 H2]. split; [lia|].
  replace (next (S k) (S x)) with (S (next k x)); [apply IH; exact H2|]. unfold next. change (S x <? S k)%nat with (x <? k)%nat. destruct (x <? k)%nat; reflexivity.
Qed.
Lemma rho_labels t : forall j, pattern t -> (j < labels_after 0 t)%nat -> picks 1 (map (rho j) t) /\ labels_after 1 (map (rho j) t) = labels_after 0 t.
Proof.
  induction t as [|x t IH] using rev_ind; intros j H Hj; [unfold labels_after in Hj; simpl in Hj; lia|].
  apply picks_snoc in H. destruct H as [H Hx]. rewrite labels_after_snoc in *. rewrite map_app. simpl (map (rho j) [x]).
  set (k := labels_after 0 t) in *. rewrite picks_snoc, labels_after_snoc.
  destruct (le_lt_dec k j) as [Hk|Hk].
  - assert (x = k /\ j = k). { unfold next in Hj. destruct (Nat.ltb_spec x k); lia. } destruct H0; subst x j.
    rewrite map_rho_below by (apply picks_lt; exact H). rewrite rho_self, labels_S. fold k. split; [split; [apply picks_S; exact H|lia]|].
    unfold next. rewrite (proj2 (Nat.ltb_ge k k)) by lia. reflexivity.
  - destruct (IH j H Hk) as [P L]. rewrite L. fold k. split; [split; [exact P|]|].
    + destruct (Nat.eq_dec x k) as [->|N]; [rewrite rho_ge by exact Hk; lia|]. pose proof (rho_lt j k x Hk ltac:(lia)). lia.
    + unfold next. destruct (Nat.ltb_spec x k).
      * rewrite (proj2 (Nat.ltb_lt _ _)) by (apply rho_lt; assumption). reflexivity.
      * assert (x = k) by lia. subst x. rewrite rho_ge by exact Hk. rewrite (proj2 (Nat.ltb_ge _ _)) by lia. reflexivity.
Qed.

(* ---- the probabilities ---- *)
Definition share (a : Q) (k : nat) (seen : list nat) (p : nat) : Q := if (p <? k)%nat then nq (n_eq p seen) else a.
Lemma urn_chance_snoc a t : forall k seen x,
  urn_chance a k seen (t ++ [x]) == urn_chance a k seen t * (share a (labels_after k t) (seen ++ t) x / (nq (length seen + length t) + a)).
Proof.
  induction t as [|y t IH]; intros k seen x.
  - cbn [app urn_chance labels_after fold_left length]. rewrite app_nil_r, Nat.add_0_r. unfold share. ring.
  - cbn [app urn_chance]. rewrite IH. rewrite app_length, <- app_assoc. cbn [app length]. replace (length seen + 1 + length t)%nat with (length seen + S (length t))%nat by lia.
    unfold labels_after. cbn [fold_left]. ring.
Qed.
Lemma nqa n a : 0 < a -> ~ nq n + a == 0.
Proof. intros. pose proof (nq_nonneg n). lra. Qed.

Lemma chance_S a t : 0 < a -> pattern t -> urn_chance a 1 [0%nat] (map S t) == urn_chance a 0 [] t * (a / (nq (length t) + a)).
Proof.
  intros Ha. induction t as [|x t IH] using rev_ind; intros H.
  - change (1 == 1 * (a / (0 + a))). field. lra.
  - apply picks_snoc in H. destruct H as [H Hx]. rewrite map_app. simpl (map S [x]). rewrite !urn_chance_snoc, IH by exact H.
    rewrite (labels_S t 0), !app_length, map_length. cbn [length app].
    assert (E : share a (S (labels_after 0 t)) (0%nat :: map S t) (S x) = share a (labels_after 0 t) t x).
    { unfold share. change (S x <? S (labels_after 0 t))%nat with (x <? labels_after 0 t)%nat. destruct (x <? labels_after 0 t)%nat; [|reflexivity].
      f_equal. unfold n_eq. simpl. apply (n_eq_map S). intros; lia. }
    rewrite E. replace (length t + 1)%nat with (1 + length t)%nat by lia. simpl (0 + length t)%nat.
    pose proof (nqa (1 + length t) a Ha). pose proof (nqa (length t) a Ha). field. split; assumption.
Qed.
Lemma chance_rho a t : forall j, 0 < a -> pattern t -> (j < labels_after 0 t)%nat ->
  urn_chance a 1 [0%nat] (map (rho j) t) == urn_chance a 0 [] t * (nq (n_eq j t) / (nq (length t) + a)).
Proof.
  intros j Ha. revert j. induction t as [|x t IH] using rev_ind; intros j H Hj; [unfold labels_after in Hj; simpl in Hj; lia|].
  apply picks_snoc in H. destruct H as [H Hx]. rewrite labels_after_snoc in Hj. rewrite map_app. simpl (map (rho j) [x]).
  rewrite !urn_chance_snoc, !app_length, map_length, n_eq_snoc. cbn [length app]. set (k := labels_after 0 t) in *.
  replace (length t + 1)%nat with (1 + length t)%nat by lia. simpl (0 + length t)%nat.
  pose proof (nqa (1 + length t) a Ha) as N1. pose proof (nqa (length t) a Ha) as N0.
  destruct (le_lt_dec k j) as [Hk|Hk].
  - assert (x = k /\ j = k). { unfold next in Hj. destruct (Nat.ltb_spec x k); lia. } destruct H0; subst x j.
    pose proof (picks_lt t 0 H) as F. fold k in F. rewrite map_rho_below by exact F. rewrite chance_S by assumption. rewrite rho_self, (labels_S t 0), Nat.eqb_refl. fold k.
    rewrite (n_eq_fresh k t F). unfold share. rewrite (proj2 (Nat.ltb_ge k k)) by lia. change (0 <? S k)%nat with true.
    assert (Z : n_eq 0 (0%nat :: map S t) = 1%nat). { unfold n_eq. simpl. f_equal. apply count_occ_not_In. intros X. apply in_map_iff in X. destruct X as (y & X & _). discriminate. }
    rewrite Z. simpl (0 + 1)%nat. field. split; assumption.
  - rewrite (IH j H Hk). destruct (rho_labels t j H Hk) as [_ L]. rewrite L. fold k.
    assert (E : share a k (0%nat :: map (rho j) t) (rho j x) == share a k t x + (if Nat.eqb x j then 1 else 0)).
    { unfold share. destruct (Nat.ltb_spec x k).
      - rewrite (proj2 (Nat.ltb_lt _ _)) by (apply rho_lt; assumption).
        assert (Y : n_eq (rho j x) (0%nat :: map (rho j) t) = (n_eq x t + if Nat.eqb x j then 1 else 0)%nat).
        { rewrite <- (n_eq_map (rho j) x t (rho_inj j x)). unfold n_eq at 1. cbn [count_occ]. fold (n_eq (rho j x) (map (rho j) t)).
          destruct (Nat.eq_dec 0 (rho j x)) as [E|E]; destruct (Nat.eqb_spec x j) as [E'|E']; try lia.
          - exfalso. rewrite <- (rho_self j) in E at 1. apply rho_inj in E. lia.
          - subst. rewrite rho_self in E. lia. }
        rewrite Y, nq_add. destruct (Nat.eqb x j); reflexivity.
      - assert (x = k) by lia. subst x. rewrite rho_ge by exact Hk. rewrite (proj2 (Nat.ltb_ge k k)) by lia. rewrite (proj2 (Nat.eqb_neq k j)) by lia. ring. }
    rewrite E. destruct (Nat.eqb_spec x j) as [->|N].
    + rewrite (nq_add (n_eq j t) 1). unfold share. rewrite (proj2 (Nat.ltb_lt _ _)) by exact Hk. change (nq 1) with 1. field. split; assumption.
    + rewrite Nat.add_0_r. field. split; assumption.
Qed.

(* ---- all label lists with a given pattern ---- *)
Definition ways (t : list nat) : list (list nat) := map S t :: map (fun j => map (rho j) t) (seq 0 (labels_after 0 t)).
Lemma nth_map_in f (t : list nat) i : (i < length t)%nat -> nth i (map f t) 0%nat = f (nth i t 0%nat).
Proof. intros H. rewrite (nth_indep _ 0%nat (f 0%nat)) by (rewrite map_length; exact H). apply map_nth. Qed.
Lemma same_ties_map f t : (forall x y, f x = f y -> x = y) -> same_ties (map f t) t.
Proof.
  intros H. split; [apply map_length|]. intros i j Hi Hj. rewrite map_length in Hi, Hj. rewrite !nth_map_in by assumption.
  split; intros E; [apply H; exact E|rewrite E; reflexivity].
Qed.
Lemma same_ties_snoc ps p t x : same_ties (ps ++ [p]) (t ++ [x]) ->
  same_ties ps t /\ forall i, (i < length ps)%nat -> (nth i ps 0%nat = p <-> nth i t 0%nat = x).
Proof.
  intros [L H]. rewrite !app_length in L. simpl in L. assert (L' : length ps = length t) by lia. split.
  - split; [exact L'|]. intros i j Hi Hj. specialize (H i j). rewrite app_length in H. simpl in H. specialize (H ltac:(lia) ltac:(lia)).
    rewrite !app_nth1 in H by lia. exact H.
  - intros i Hi. specialize (H i (length ps)). rewrite app_length in H. simpl in H. specialize (H ltac:(lia) ltac:(lia)).
    rewrite !(app_nth1 _ _ _ (n := i)) in H by lia. rewrite app_nth2, Nat.sub_diag in H by lia. rewrite app_nth2 in H by lia. replace (length ps - length t)%nat with 0%nat in H by lia. exact H.
Qed.
Lemma ways_sound t ps : pattern t -> In ps (ways t) -> picks 1 ps /\ same_ties ps t.
Proof.
  intros H [<-|Hin].
  - split; [apply picks_S; exact H|apply same_ties_map; intros; lia].
  - apply in_map_iff in Hin. destruct Hin as (j & <- & Hj). apply in_seq in Hj. split; [apply (rho_labels t j H); lia|apply same_ties_map; apply rho_inj].
Qed.
Lemma ways_complete t : forall ps, pattern t -> picks 1 ps -> same_ties ps t -> In ps (ways t).
Proof.
  induction t as [|x t IH] using rev_ind; intros ps H Hp Ht.
  - destruct Ht as [L _]. destruct ps; [left; reflexivity|discriminate].
  - destruct ps as [|p ps _] using rev_ind; [destruct Ht as [L _]; rewrite app_length in L; simpl in L; lia|].
    apply picks_snoc in H. destruct H as [H Hx]. apply picks_snoc in Hp. destruct Hp as [Hp Hpp].
    apply same_ties_snoc in Ht. destruct Ht as [Ht Hlast]. specialize (IH ps H Hp Ht).
    set (k := labels_after 0 t) in *. assert (Lk : labels_after 0 (t ++ [x]) = next k x) by apply labels_after_snoc.
    assert (Old : forall f, ps = map f t -> In x t -> p = f x).
    { intros f E Hin. destruct (In_nth t x 0%nat Hin) as (i & Hi & Ei). destruct (Hlast i) as [_ X]; [subst ps; rewrite map_length; exact Hi|].
      rewrite <- (X Ei), E, nth_map_in by exact Hi. f_equal. exact Ei. }
    assert (New : ~ In x t -> ~ In p ps).
    { intros N Hin. destruct (In_nth ps p 0%nat Hin) as (i & Hi & Ei). apply N. destruct (Hlast i Hi) as [X _]. rewrite <- (X Ei). apply nth_In. destruct Ht; lia. }
    assert (XK : (x < k)%nat -> In x t) by (intros; apply pattern_all; assumption).
    assert (XN : x = k -> ~ In x t). { intros E Hin. pose proof (picks_lt t 0 H) as F. rewrite Forall_forall in F. specialize (F x Hin). fold k in F. lia. }
    destruct IH as [E|Hin].
    + subst ps. rewrite (labels_S t 0) in Hpp. fold k in Hpp. destruct (Nat.ltb_spec x k) as [L|L].
      * left. rewrite map_app. simpl. rewrite (Old S eq_refl (XK L)). reflexivity.
      * assert (x = k) by lia. subst x. specialize (New (XN eq_refl)). destruct p as [|p].
        -- right. apply in_map_iff. exists k. split; [|apply in_seq; rewrite Lk; unfold next; rewrite (proj2 (Nat.ltb_ge k k)) by lia; lia].
           rewrite map_app. simpl. rewrite rho_self. f_equal. apply map_rho_below. apply picks_lt. exact H.
        -- left. rewrite map_app. simpl. do 2 f_equal. destruct (Nat.eq_dec p k) as [->|N]; [reflexivity|]. exfalso. apply New. apply in_map. apply pattern_all; [exact H|]. fold k. lia.
    + apply in_map_iff in Hin. destruct Hin as (j & E & Hj). apply in_seq in Hj. assert (Hj' : (j < k)%nat) by lia. subst ps.
      destruct (rho_labels t j H Hj') as [_ LL]. rewrite LL in Hpp. fold k in Hpp. right. apply in_map_iff. exists j. split.
      * rewrite map_app. simpl. do 2 f_equal. destruct (Nat.ltb_spec x k) as [L|L]; [symmetry; apply (Old (rho j) eq_refl (XK L))|].
        assert (x = k) by lia. subst x. rewrite rho_ge by exact Hj'. destruct (Nat.eq_dec p k) as [->|N]; [reflexivity|]. exfalso. apply (New (XN eq_refl)).
        destruct (rho_onto j k p Hj' ltac:(lia)) as (y & Hy & <-). apply in_map. apply pattern_all; assumption.
      * apply in_seq. rewrite Lk. pose proof (next_ge k x). lia.
Qed.
Lemma map_at {B} (f g : nat -> B) (t : list nat) x : map f t = map g t -> In x t -> f x = g x.
Proof. induction t as [|y t IH]; intros E H; [destruct H|]. simpl in E. assert (f y = g y) by congruence. assert (map f t = map g t) by congruence. destruct H as [<-|H]; auto. Qed.
Lemma NoDup_map_on {A B} (f : A -> B) l : (forall x y, In x l -> In y l -> f x = f y -> x = y) -> NoDup l -> NoDup (map f l).
Proof.
  intros H N. induction N as [|x l Hx N IH]; simpl; constructor.
  - intros Hin. apply in_map_iff in Hin. destruct Hin as (y & E & Hy). apply Hx. rewrite (H x y); [exact Hy|left; reflexivity|right; exact Hy|symmetry; exact E].
  - apply IH. intros; apply H; try right; assumption.
Qed.
Lemma ways_nodup t : pattern t -> NoDup (ways t).
Proof.
  intros H. constructor.
  - intros Hin. apply in_map_iff in Hin. destruct Hin as (j & E & Hj). apply in_seq in Hj.
    pose proof (map_at _ _ t j E (pattern_all t j H ltac:(lia))) as X. rewrite rho_self in X. discriminate.
  - apply NoDup_map_on; [|apply seq_NoDup]. intros i j Hi Hj E. apply in_seq in Hi, Hj.
    pose proof (map_at _ _ t i E (pattern_all t i H ltac:(lia))) as X. rewrite rho_self in X. rewrite <- (rho_self j) in X. apply rho_inj in X. congruence.
Qed.

Lemma qsum_scale c f (l : list nat) : qsum (map (fun j => c * f j) l) == c * qsum (map f l).
Proof. induction l as [|x t IH]; simpl; [ring|]. rewrite IH. ring. Qed.
Lemma qsum_eq {A} (f g : A -> Q) l : (forall x, In x l -> f x == g x) -> qsum (map f l) == qsum (map g l).
Proof. induction l as [|x t IH]; intros H; [reflexivity|]. simpl. rewrite (H x) by (left; reflexivity). rewrite IH by (intros; apply H; right; assumption). reflexivity. Qed.
Lemma ways_sum a t : 0 < a -> pattern t -> qsum (map (urn_chance a 1 [0%nat]) (ways t)) == urn_chance a 0 [] t.
Proof.
  intros Ha H. unfold ways. cbn [map qsum]. rewrite map_map, chance_S by assumption.
  assert (E : qsum (map (fun j => urn_chance a 1 [0%nat] (map (rho j) t)) (seq 0 (labels_after 0 t))) ==
              qsum (map (fun j => (urn_chance a 0 [] t / (nq (length t) + a)) * nq (n_eq j t)) (seq 0 (labels_after 0 t)))).
  { apply qsum_eq. intros j Hj. apply in_seq in Hj. rewrite chance_rho by (try assumption; lia). field. apply nqa. exact Ha. }
  rewrite E, qsum_scale, qsum_counts by (apply picks_lt; exact H). field. apply nqa. exact Ha.
Qed.
Lemma c100_ties_proof : forall a t, 0 < a -> pattern t ->
  exists evs, NoDup evs /\ (forall ps, In ps evs <-> picks 1 ps /\ same_ties ps t) /\
    qsum (map (urn_chance a 1 [0%nat]) evs) == urn_chance a 0 [] t.
Proof.
  intros a t Ha H. exists (ways t). split; [apply ways_nodup; exact H|]. split; [|apply ways_sum; assumption].
  intros ps. split; [apply ways_sound; exact H|]. intros [P T]. apply ways_complete; assumption.
Qed.
