(* weighting_log_likelihood of BetaInDirichlet against the law of its urn. *)
From Coq Require Import Lqa Permutation Sorted.
From Verif Require Import Prelude Numpy Rng M_Weights M_Loglik S_Weights S_Hist S_Urn P_Lists P_Urn P_UrnLaw.
Open Scope Q_scope.

(* ---- np.unique ---- *)
Lemma uinsert_labels (f : nat -> Q) (c : nat -> nat) p : forall us,
  (forall j, In j us -> f p == f j -> p = j) -> StronglySorted (fun i j => f i < f j) us -> (~ In p us -> c p = 0%nat) ->
  exists us', StronglySorted (fun i j => f i < f j) us' /\ (forall j, In j us' <-> j = p \/ In j us) /\
    uinsert (f p) (map (fun j => (f j, c j)) us) = map (fun j => (f j, if Nat.eqb j p then S (c j) else c j)) us'.
Proof.
  assert (Ms : forall l, ~ In p l -> map (fun j => (f j, c j)) l = map (fun j => (f j, if Nat.eqb j p then S (c j) else c j)) l).
  { intros l Hl. apply map_ext_in. intros j Hj. rewrite (proj2 (Nat.eqb_neq j p)); [reflexivity|]. intros ->. auto. }
  induction us as [|x l IH]; intros Hinj Hs Hc.
  - exists [p]. split; [constructor; [constructor|constructor]|]. split; [intros j; simpl; intuition congruence|]. simpl. rewrite Nat.eqb_refl, Hc by intros []. reflexivity.
  - inversion Hs; subst. rewrite Forall_forall in H2. cbn [map uinsert]. destruct (Qeq_bool (f p) (f x)) eqn:E.
    + apply Qeq_bool_iff in E. assert (p = x) by (apply Hinj; [left; reflexivity|exact E]). subst x.
      exists (p :: l). split; [exact Hs|]. split; [intros j; simpl; intuition congruence|]. cbn [map]. rewrite Nat.eqb_refl. f_equal. apply Ms.
      intros Hp. specialize (H2 p Hp). lra.
    + assert (Nx : x <> p). { intros ->. rewrite (proj2 (Qeq_bool_iff (f p) (f p)) ltac:(reflexivity)) in E. discriminate. }
      destruct (qltb (f p) (f x)) eqn:L.
      * apply qltb_lt in L. assert (Hp : ~ In p (x :: l)). { intros [->|Hp]; [congruence|]. specialize (H2 p Hp). lra. }
        exists (p :: x :: l). split; [constructor; [exact Hs|]|].
        { apply Forall_forall. intros y [<-|Hy]; [exact L|]. specialize (H2 y Hy). lra. }
        split; [intros j; simpl; intuition congruence|]. cbn [map]. rewrite Nat.eqb_refl, (Hc Hp). f_equal.
        change ((f x, c x) :: map (fun j => (f j, c j)) l) with (map (fun j => (f j, c j)) (x :: l)). rewrite (Ms _ Hp). reflexivity.
      * assert (L' : f x < f p).
        { destruct (Qlt_le_dec (f x) (f p)) as [A|A]; [exact A|]. exfalso. destruct (Qlt_le_dec (f p) (f x)) as [B|B]; [apply qltb_lt in B; congruence|].
          assert (X : f p == f x) by lra. apply Qeq_bool_iff in X. congruence. }
        destruct IH as (us' & S' & I' & E'); [intros; apply Hinj; [right|]; assumption|exact H1|intros Hp; apply Hc; intros [X|X]; [congruence|auto]|].
        exists (x :: us'). split; [constructor; [exact S'|]|].
        { apply Forall_forall. intros y Hy. apply I' in Hy. destruct Hy as [->|Hy]; [exact L'|apply H2; exact Hy]. }
        split; [intros j; simpl; rewrite I'; intuition congruence|]. cbn [map]. rewrite (proj2 (Nat.eqb_neq x p)) by exact Nx. f_equal. exact E'.
Qed.
Lemma n_eq_cons j p t : n_eq j (p :: t) = if Nat.eqb j p then S (n_eq j t) else n_eq j t.
Proof. unfold n_eq. simpl. destruct (Nat.eq_dec p j) as [->|N]; [rewrite Nat.eqb_refl; reflexivity|]. rewrite (proj2 (Nat.eqb_neq j p)) by congruence. reflexivity. Qed.
Lemma qunique_labels (f : nat -> Q) ps : (forall i j, In i ps -> In j ps -> f i == f j -> i = j) ->
  exists us, StronglySorted (fun i j => f i < f j) us /\ (forall j, In j us <-> In j ps) /\ qunique (map f ps) = map (fun j => (f j, n_eq j ps)) us.
Proof.
  induction ps as [|p t IH]; intros Hinj; [exists []; split; [constructor|]; split; [tauto|reflexivity]|].
  destruct IH as (us & N & I & E); [intros; apply Hinj; try right; assumption|].
  cbn [map qunique fold_right]. fold (qunique (map f t)). rewrite E.
  destruct (uinsert_labels f (fun j => n_eq j t) p us) as (us' & S' & I' & E').
  - intros j Hj. apply Hinj; [left; reflexivity|right; apply I; exact Hj].
  - exact N.
  - intros Hp. apply count_occ_not_In. intros X. apply Hp. apply I. exact X.
  - exists us'. split; [exact S'|]. split; [intros j; rewrite I', I; simpl; intuition congruence|]. rewrite E'. apply map_ext. intros j. rewrite n_eq_cons. reflexivity.
Qed.
Lemma sorted_nodup (f : nat -> Q) us : StronglySorted (fun i j => f i < f j) us -> NoDup us.
Proof.
  induction 1 as [|x l S IH F]; constructor; [|exact IH]. intros Hin. rewrite Forall_forall in F. specialize (F x Hin). lra.
Qed.

(* ---- every list has a pattern ---- *)
Lemma pattern_exists (ps : list nat) : exists t f, pattern t /\ t = map f ps /\ forall x y, In x ps -> In y ps -> f x = f y -> x = y.
Proof.
  induction ps as [|p ps IH] using rev_ind; [exists [], (fun x => x); split; [exact I|]; split; [reflexivity|intros x y []]|].
  destruct IH as (t & f & P & E & Inj). destruct (in_dec Nat.eq_dec p ps) as [Hp|Hp].
  - exists (t ++ [f p]), f. split; [|split].
    + apply picks_snoc. split; [exact P|]. pose proof (picks_lt t 0 P) as F. rewrite Forall_forall in F. apply Nat.lt_le_incl. apply F. rewrite E. apply in_map. exact Hp.
    + rewrite map_app, E. reflexivity.
    + intros x y Hx Hy. apply Inj; [apply in_app_or in Hx; destruct Hx as [Hx|[<-|[]]]|apply in_app_or in Hy; destruct Hy as [Hy|[<-|[]]]]; assumption.
  - set (k := labels_after 0 t). exists (t ++ [k]), (fun q => if Nat.eqb q p then k else f q).
    assert (Fk : forall x, In x ps -> (f x < k)%nat). { intros x Hx. pose proof (picks_lt t 0 P) as F. rewrite Forall_forall in F. apply F. rewrite E. apply in_map. exact Hx. }
    assert (Np : forall x, In x ps -> Nat.eqb x p = false) by (intros x Hx; apply Nat.eqb_neq; intros ->; auto).
    split; [|split].
    + apply picks_snoc. split; [exact P|unfold k; lia].
    + rewrite map_app. simpl. rewrite Nat.eqb_refl. f_equal. rewrite E. apply map_ext_in. intros x Hx. rewrite (Np x Hx). reflexivity.
    + intros x y Hx Hy. apply in_app_or in Hx, Hy. destruct Hx as [Hx|[<-|[]]]; destruct Hy as [Hy|[<-|[]]]; rewrite ?Nat.eqb_refl, ?(Np x), ?(Np y) by assumption.
      * apply Inj; assumption. * pose proof (Fk x Hx). lia. * pose proof (Fk y Hy). lia. * reflexivity.
Qed.
Lemma same_ties_map_on f (t : list nat) : (forall x y, In x t -> In y t -> f x = f y -> x = y) -> same_ties t (map f t).
Proof.
  intros H. split; [symmetry; apply map_length|]. intros i j Hi Hj. rewrite !nth_map_in by assumption.
  split; intros E; [rewrite E; reflexivity|apply H; try apply nth_In; assumption].
Qed.
Lemma n_eq_map_on f x (t : list nat) : (forall y, In y t -> f y = f x -> y = x) -> n_eq (f x) (map f t) = n_eq x t.
Proof.
  intros H. unfold n_eq. induction t as [|y t IH]; [reflexivity|]. simpl. rewrite IH by (intros; apply H; [right|]; assumption).
  destruct (Nat.eq_dec (f y) (f x)) as [E|E]; destruct (Nat.eq_dec y x) as [E'|E']; try reflexivity.
  - exfalso. apply E'. apply H; [left; reflexivity|exact E]. - subst. congruence.
Qed.

Lemma c100_likelihood_proof : forall al a s base ps,
  v s = map (fun p => nth p base 0) ps -> Forall (fun p => (p < length base)%nat) ps ->
  (forall i j, (i < length base)%nat -> (j < length base)%nat -> nth i base 0 == nth j base 0 -> i = j) ->
  exists us t, NoDup us /\ (forall j, In j us <-> In j ps) /\ pattern t /\ same_ties ps t /\
    Permutation (map (fun j => n_eq j ps) us) (block_sizes t) /\
    wm_weight_ll (CBID al a) s = Ok (map (fun j => TBeta (Some (nth j base 0)) 1 al) us ++ [TEppf a (map (fun j => n_eq j ps) us)]).
Proof.
  intros al a s base ps Hv Hf Hd. rewrite Forall_forall in Hf.
  destruct (qunique_labels (fun p => nth p base 0) ps) as (us & S & I & E); [intros i j Hi Hj; apply Hd; apply Hf; assumption|].
  destruct (pattern_exists ps) as (t & f & P & Et & Inj). exists us, t.
  split; [apply (sorted_nodup _ _ S)|]. split; [exact I|]. split; [exact P|]. split; [rewrite Et; apply same_ties_map_on; exact Inj|]. split.
  - unfold block_sizes, counts_of.
    replace (map (fun j => n_eq j ps) us) with (map (fun j => n_eq j t) (map f us)).
    + apply Permutation_map. apply NoDup_Permutation.
      * apply NoDup_map_on; [|apply (sorted_nodup _ _ S)]. intros x y Hx Hy. apply Inj; apply I; assumption.
      * apply seq_NoDup.
      * intros x. rewrite in_seq. split.
        -- intros Hx. apply in_map_iff in Hx. destruct Hx as (y & <- & Hy). split; [lia|]. simpl. pose proof (picks_lt t 0 P) as F. rewrite Forall_forall in F. apply F. rewrite Et. apply in_map. apply I. exact Hy.
        -- intros [_ Hx]. simpl in Hx. pose proof (pattern_all t x P Hx) as Hin. rewrite Et in Hin. apply in_map_iff in Hin. destruct Hin as (y & <- & Hy). apply in_map. apply I. exact Hy.
    + rewrite map_map. apply map_ext_in. intros x Hx. rewrite Et. apply n_eq_map_on. intros y Hy. apply Inj; [exact Hy|apply I; exact Hx].
  - unfold wm_weight_ll. rewrite Hv. rewrite E, !map_map. reflexivity.
Qed.
