From Coq Require Import String Lqa Permutation.
From Verif Require Import Prelude Numpy Rng M_Weights M_Mix M_Construct S_Construct P_Lists.
Open Scope string_scope.

Lemma find_some k v kw : distinct kw -> (find_key k kw = Some v <-> In (k, v) kw).
Proof.
  unfold distinct. induction kw as [|[k' v'] t IH]; cbn; intros ND; [split; [discriminate|tauto]|]. inversion ND as [|? ? Hn ND']; subst. specialize (IH ND').
  destruct (String.eqb_spec k k') as [->|Ne].
  - split; [intros [= ->]; left; reflexivity|intros [[= ->]|H]; [reflexivity|]]. destruct Hn. apply in_map_iff. exists (k', v). split; [reflexivity|exact H].
  - rewrite IH. split; [intros H; right; exact H|intros [[= -> _]|H]; [congruence|exact H]].
Qed.
Lemma find_none k kw : find_key k kw = None <-> ~ In k (map fst kw).
Proof.
  induction kw as [|[k' v'] t IH]; cbn; [split; auto|]. destruct (String.eqb_spec k k') as [->|Ne]; [split; [discriminate|tauto]|]. rewrite IH. split; [intros H [E|E]; [congruence|tauto]|tauto].
Qed.
Lemma given_or kw k d v : distinct kw -> (given kw k d v <-> key_or k d kw = v).
Proof.
  intros ND. unfold given, key_or. destruct (find_key k kw) as [u|] eqn:E.
  - rewrite <- (find_some k v kw ND), E. split; [intros [[= ->]|(H & _)]; [reflexivity|]|intros ->; left; reflexivity].
    apply find_none in H. congruence.
  - pose proof (proj1 (find_none k kw) E) as H. split; [intros [H'|(_ & ->)]; [|reflexivity]|intros <-; right; auto].
    destruct H. apply in_map_iff. exists (k, v). auto.
Qed.
Lemma find_filter k kw (f : string -> bool) : f k = true -> find_key k (filter (fun kv => f (fst kv)) kw) = find_key k kw.
Proof.
  intros Hf. induction kw as [|[k' v'] t IH]; [reflexivity|]. cbn [filter fst]. destruct (f k') eqn:E; cbn [find_key]; destruct (String.eqb_spec k k') as [->|Ne]; auto. congruence.
Qed.
Lemma key_or_filter k d kw (f : string -> bool) : f k = true -> key_or k d (filter (fun kv => f (fst kv)) kw) = key_or k d kw.
Proof. intros H. unfold key_or. rewrite find_filter by exact H. reflexivity. Qed.

Definition names (c : mclass) : list string :=
  map fst (weight_params c) ++ map fst mixture_params ++ (match c with XBIB | XBBin => [] | _ => ["show_progress"] end).
Definition known (c : mclass) (kw : kwargs) : bool := forallb (fun kv => existsb (String.eqb (fst kv)) (names c)) kw.
Definition closed (c : mclass) : bool := match c with XBIB | XBBin => true | _ => false end.

(* the environment of the weight model *)
Definition wenv (c : mclass) (kw : kwargs) : kwargs := map (fun kd => (fst kd, key_or (fst kd) (snd kd) kw)) (fst (mix_sig c)).
Definition finish (c : mclass) (wm : wobj) (n : option cval) (kw : kwargs) : res mobj :=
  match num_of (key_or "total_iter" (CvInt 1000) kw), num_of (key_or "burn_in" (CvInt 100) kw) with
  | Some t, Some b =>
      if qltb b t then
        match check_rng (key_or "rng" CvNone kw) with
        | Ok _ => match num_of (key_or "subsample_steps" (CvInt 1) kw) with
            | Some k => Ok (MObj wm n (py_int t) (py_int b) (py_int k) (key_or "mu_prior" CvNone kw) (key_or "lambda_prior" (CvInt 1) kw)
                              (key_or "psi_prior" CvNone kw) (key_or "nu_prior" CvNone kw) (if closed c then CvBool false else key_or "show_progress" (CvBool false) kw) (key_or "rng" CvNone kw))
            | None => Err TypeError
            end
        | Err e => Err e
        | Diverge => Diverge
        end
      else Err AssertionError
  | _, _ => Err TypeError
  end.
Definition nf (c : mclass) (kw : kwargs) : res mobj :=
  if closed c && negb (known c kw) then Err TypeError else
  match weight_new c (wenv c kw) with
  | Ok wm => if known c kw then finish c wm (own_n c (wenv c kw)) kw else Err TypeError
  | Err e => Err e
  | Diverge => Diverge
  end.

Lemma nil_filter {A} (f : A -> bool) l : is_nil (filter (fun x => negb (f x)) l) = forallb f l.
Proof. induction l as [|x l IH]; [reflexivity|]. cbn. destruct (f x); cbn; [exact IH|reflexivity]. Qed.
Lemma filter_none {A} (f : A -> bool) l : is_nil (filter f l) = forallb (fun x => negb (f x)) l.
Proof. induction l as [|x l IH]; [reflexivity|]. cbn. destruct (f x); cbn; [reflexivity|exact IH]. Qed.
Lemma forallb_filter {A} (f h : A -> bool) l : forallb h (filter f l) = forallb (fun x => implb (f x) (h x)) l.
Proof. induction l as [|x l IH]; [reflexivity|]. cbn. destruct (f x); cbn; rewrite IH; reflexivity. Qed.
Lemma forallb_same {A} (f h : A -> bool) l : (forall x, f x = h x) -> forallb f l = forallb h l.
Proof. intros H. induction l; cbn; [reflexivity|]. rewrite H, IHl. reflexivity. Qed.
Lemma key_in_exists k l : key_in k l = existsb (String.eqb k) (map fst l).
Proof. unfold key_in. induction l as [|[k' v'] t IH]; [reflexivity|]. cbn. destruct (String.eqb k k'); [reflexivity|exact IH]. Qed.
Lemma existsb_perm {A} (f : A -> bool) l l' : (forall x, In x l <-> In x l') -> existsb f l = existsb f l'.
Proof.
  intros H. apply eq_true_iff_eq. rewrite !existsb_exists. split; intros (x & Hx & E); exists x; split; auto; apply H; exact Hx.
Qed.
Lemma base_closed wm n kw (c : mclass) f : closed c = true -> (forall k, In k passed_on -> exists d, f k = key_or k d kw /\ In (k, d) mixture_params) ->
  base_new wm n (map (fun k => (k, f k)) passed_on) = finish c wm n kw.
Proof.
  intros Hc H. unfold base_new, finish. rewrite Hc.
  assert (G : forall k d, In (k, d) mixture_params -> f k = key_or k d kw).
  { intros k d Hd. destruct (H k) as (d' & -> & Hd').
    - change passed_on with (map fst mixture_params). apply in_map_iff. exists (k, d). auto.
    - f_equal. cbn in Hd, Hd'. intuition congruence. }
  cbn -[num_of check_rng qltb py_int key_or String.eqb]. unfold argv.
  cbn.
  rewrite (G "total_iter" (CvInt 1000)), (G "burn_in" (CvInt 100)), (G "rng" CvNone), (G "subsample_steps" (CvInt 1)), (G "mu_prior" CvNone), (G "lambda_prior" (CvInt 1)), (G "psi_prior" CvNone), (G "nu_prior" CvNone) by (cbn; tauto).
  reflexivity.
Qed.

Lemma base_open wm n kw (c : mclass) (sig : kwargs) r : closed c = false -> r = key_or "rng" CvNone kw ->
  (forall k, existsb (String.eqb k) (names c) = key_in k sig || key_in k base_sig) ->
  (forall k, In k (map fst base_sig) -> k <> "rng" -> key_in k sig = false) -> key_in "weight_model" sig = false ->
  base_new wm n (("rng", r) :: filter (fun kv => negb (key_in (fst kv) sig)) kw) = if known c kw then finish c wm n kw else Err TypeError.
Proof.
  intros Hc Hr Hn Hs Hw. unfold base_new.
  assert (K : forall k d, k <> "rng" -> key_in k sig = false -> key_or k d (("rng", r) :: filter (fun kv => negb (key_in (fst kv) sig)) kw) = key_or k d kw).
  { intros k d Hk Hks. unfold key_or. cbn [find_key]. destruct (String.eqb_spec k "rng"); [contradiction|].
    rewrite (find_filter k kw (fun k => negb (key_in k sig))) by (rewrite Hks; reflexivity). reflexivity. }
  assert (EK : is_nil (filter (fun kv => negb (key_in (fst kv) base_sig)) (("rng", r) :: filter (fun kv => negb (key_in (fst kv) sig)) kw)) = known c kw).
  { rewrite nil_filter. cbn [forallb fst]. change (key_in "rng" base_sig) with true. cbn [andb].
    rewrite forallb_filter. unfold known. apply forallb_same. intros [k v]. cbn [fst]. rewrite Hn. destruct (key_in k sig), (key_in k base_sig); reflexivity. }
  destruct (key_in "weight_model" (("rng", r) :: filter (fun kv => negb (key_in (fst kv) sig)) kw)) eqn:EW.
  { replace (known c kw) with false; [reflexivity|]. symmetry. rewrite <- EK. apply not_true_is_false. intros H.
    rewrite nil_filter in H. rewrite forallb_forall in H. rewrite key_in_exists in EW. apply existsb_exists in EW. destruct EW as (k & Hk & E). apply String.eqb_eq in E. subst k.
    apply in_map_iff in Hk. destruct Hk as ([k v] & E & Hin). cbn in E. subst k. specialize (H _ Hin). vm_compute in H. discriminate. }
  unfold bind_kw. cbv zeta. rewrite EK. destruct (known c kw); [|reflexivity]. cbn [negb andb].
  unfold finish. rewrite Hc. unfold argv.
  set (kw' := ("rng", r) :: filter (fun kv => negb (key_in (fst kv) sig)) kw) in *.
  assert (A : forall k d, In (k, d) base_sig -> key_or k CvNone (map (fun kd => (fst kd, key_or (fst kd) (snd kd) kw')) base_sig) = key_or k d kw).
  { intros k d Hin.
    assert (B : key_or k CvNone (map (fun kd => (fst kd, key_or (fst kd) (snd kd) kw')) base_sig) = key_or k d kw').
    { cbn [base_sig In] in Hin. repeat (destruct Hin as [[= <- <-]|Hin]; [reflexivity|]). destruct Hin. }
    rewrite B. destruct (string_dec k "rng") as [->|Nk].
    - assert (d = CvNone) as -> by (cbn in Hin; intuition congruence). unfold kw'. unfold key_or at 1. cbn. rewrite Hr. reflexivity.
    - apply K; [exact Nk|]. apply Hs; [|exact Nk]. apply in_map_iff. exists (k, d). auto. }
  rewrite (A "total_iter" (CvInt 1000)), (A "burn_in" (CvInt 100)), (A "rng" CvNone), (A "subsample_steps" (CvInt 1)), (A "mu_prior" CvNone), (A "lambda_prior" (CvInt 1)), (A "psi_prior" CvNone), (A "nu_prior" CvNone), (A "show_progress" (CvBool false)) by (cbn; tauto).
  reflexivity.
Qed.

Lemma names_sig c k : closed c = false -> existsb (String.eqb k) (names c) = key_in k (fst (mix_sig c)) || key_in k base_sig.
Proof.
  intros Hc. rewrite !key_in_exists, <- existsb_app. apply existsb_perm. intros x. destruct c; try discriminate; cbn; tauto.
Qed.
Lemma names_closed c k : closed c = true -> existsb (String.eqb k) (names c) = key_in k (fst (mix_sig c)).
Proof.
  intros Hc. rewrite !key_in_exists. apply existsb_perm. intros x. destruct c; try discriminate; cbn; tauto.
Qed.
Lemma sig_open c : snd (mix_sig c) = negb (closed c).
Proof. destruct c; reflexivity. Qed.
Lemma wenv_rng c kw : argv "rng" (wenv c kw) = key_or "rng" CvNone kw.
Proof. destruct c; reflexivity. Qed.

Lemma mix_nf c kw : mix_new c kw = nf c kw.
Proof.
  unfold mix_new, nf. pose proof (sig_open c) as Ho. pose proof (names_sig c) as Ns. pose proof (names_closed c) as Nc. pose proof (wenv_rng c kw) as Wr.
  unfold wenv in *. destruct (mix_sig c) as [sig open] eqn:Es. cbn [fst snd] in *. subst open. unfold bind_kw.
  destruct (closed c) eqn:Ec; cbn [negb andb].
  - rewrite nil_filter. assert (forallb (fun kv => key_in (fst kv) sig) kw = known c kw) as -> by (unfold known; apply forallb_same; intros [k v]; symmetry; apply Nc; reflexivity).
    destruct (known c kw); cbn [negb]; [|reflexivity]. destruct (weight_new c _); try reflexivity.
    apply base_closed; [exact Ec|]. intros k Hk. destruct c; try discriminate; injection Es as <-; cbn [passed_on In] in Hk;
      repeat (destruct Hk as [<-|Hk]; [eexists; split; [reflexivity|cbn; tauto]|]); destruct Hk.
  - cbn [negb]. destruct (weight_new c _); try reflexivity. apply base_open; auto.
    + intros k Hk Nk. destruct c; try discriminate; injection Es as <-; cbn [base_sig map fst In] in Hk; repeat (destruct Hk as [<-|Hk]; [try reflexivity; congruence|]); destruct Hk.
    + destruct c; try discriminate; injection Es as <-; reflexivity.
Qed.

Lemma known_all c kw : known c kw = true <-> all_parameters c kw.
Proof.
  unfold known, all_parameters. rewrite forallb_forall, Forall_forall.
  assert (G : forall k, existsb (String.eqb k) (names c) = true <-> exists d, parameter c k d).
  { intros k. rewrite existsb_exists. unfold parameter, names. split.
    - intros (x & Hx & E). apply String.eqb_eq in E. subst x. rewrite !in_app_iff in Hx. destruct Hx as [Hx|[Hx|Hx]].
      + apply in_map_iff in Hx. destruct Hx as ([k' d] & <- & H). exists d. left. exact H.
      + apply in_map_iff in Hx. destruct Hx as ([k' d] & <- & H). exists d. right. left. exact H.
      + exists (CvBool false). right. right. unfold takes_show_progress. destruct c; cbn in Hx; try contradiction; destruct Hx as [<-|[]]; repeat split; congruence.
    - intros (d & H). exists k. split; [|apply String.eqb_refl]. rewrite !in_app_iff. destruct H as [H|[H|((H1 & H2) & -> & ->)]].
      + left. apply in_map_iff. exists (k, d). auto.
      + right. left. apply in_map_iff. exists (k, d). auto.
      + right. right. destruct c; try congruence; left; reflexivity. }
  split; intros H x Hx; specialize (H x Hx); apply G; exact H.
Qed.

(* the result depends only on the values of the parameters *)
Lemma mix_ext c kw kw' : known c kw = known c kw' -> (forall k d, parameter c k d -> key_or k d kw = key_or k d kw') -> mix_new c kw = mix_new c kw'.
Proof.
  intros Hk H. rewrite !mix_nf. unfold nf. rewrite Hk.
  assert (W : wenv c kw = wenv c kw').
  { unfold wenv. apply map_ext_in. intros [k d] Hin. cbn [fst snd]. f_equal. apply H. unfold parameter.
    destruct c; cbn [mix_sig fst In weight_params mixture_params] in *; repeat (destruct Hin as [[= <- <-]|Hin]; [tauto|]); destruct Hin. }
  rewrite W. destruct (closed c && negb (known c kw')); [reflexivity|]. destruct (weight_new c (wenv c kw')); try reflexivity.
  destruct (known c kw'); [|reflexivity]. unfold finish.
  rewrite (H "total_iter" (CvInt 1000)), (H "burn_in" (CvInt 100)), (H "rng" CvNone), (H "subsample_steps" (CvInt 1)), (H "mu_prior" CvNone), (H "lambda_prior" (CvInt 1)), (H "psi_prior" CvNone), (H "nu_prior" CvNone) by (right; left; cbn; tauto).
  assert (S : (if closed c then CvBool false else key_or "show_progress" (CvBool false) kw) = (if closed c then CvBool false else key_or "show_progress" (CvBool false) kw')).
  { destruct (closed c) eqn:Ec; [reflexivity|]. apply H. right. right. unfold takes_show_progress. destruct c; try discriminate Ec; repeat split; congruence. }
  rewrite S. reflexivity.
Qed.

Lemma find_perm k kw kw' : distinct kw -> Permutation kw kw' -> find_key k kw = find_key k kw'.
Proof.
  intros ND P. assert (ND' : distinct kw') by (unfold distinct in *; eapply Permutation_NoDup; [apply Permutation_map; exact P|exact ND]).
  destruct (find_key k kw) as [v|] eqn:E.
  - symmetry. apply find_some; [exact ND'|]. eapply Permutation_in; [exact P|]. apply find_some; assumption.
  - symmetry. apply find_none. apply find_none in E. intros H. apply E. eapply Permutation_in; [apply Permutation_map, Permutation_sym; exact P|exact H].
Qed.
Lemma order_proof c kw kw' : distinct kw -> Permutation kw kw' -> mix_new c kw = mix_new c kw'.
Proof.
  intros ND P. apply mix_ext.
  - apply eq_true_iff_eq. rewrite !known_all. unfold all_parameters. split; apply Permutation_Forall; [exact P|apply Permutation_sym; exact P].
  - intros k d _. unfold key_or. rewrite (find_perm k kw kw' ND P). reflexivity.
Qed.
Lemma parameter_fun c k d d' : parameter c k d -> parameter c k d' -> d = d'.
Proof.
  unfold parameter. intros H H'. destruct c; cbn [weight_params mixture_params In] in H, H'; intuition congruence.
Qed.
Lemma default_proof c kw k d : parameter c k d -> ~ In k (map fst kw) -> mix_new c ((k, d) :: kw) = mix_new c kw.
Proof.
  intros Hp Hn. apply mix_ext.
  - apply eq_true_iff_eq. rewrite !known_all. unfold all_parameters. split; intros H; [inversion H; assumption|constructor; [exists d; exact Hp|exact H]].
  - intros k' d' Hp'. unfold key_or. cbn [find_key]. destruct (String.eqb_spec k' k) as [->|]; [|reflexivity].
    apply find_none in Hn. rewrite Hn. exact (parameter_fun c k d d' Hp Hp').
Qed.
Lemma unknown_proof c kw : ~ all_parameters c kw -> (exists m, weight_new c (wenv c kw) = Ok m) \/ closed c = true -> mix_new c kw = Err TypeError.
Proof.
  intros Hn H. rewrite mix_nf. unfold nf. assert (known c kw = false) as -> by (apply not_true_is_false; rewrite known_all; exact Hn).
  cbn [negb]. destruct (closed c); [reflexivity|]. destruct H as [(m & ->)|H]; [reflexivity|discriminate].
Qed.

Lemma check_rng_ok v : check_rng v = Ok tt <-> rng_fine v.
Proof.
  unfold rng_fine. destruct v; cbn; split; intros H; try discriminate; try reflexivity; try tauto;
    try (destruct H as [H|[(i' & H)|(z' & H & _)]]; discriminate); try (right; left; eexists; reflexivity).
  - right. right. exists z. split; [reflexivity|]. destruct (Z.ltb_spec z 0); [discriminate|assumption].
  - destruct H as [H|[(i' & H)|(z' & [= ->] & H)]]; try discriminate. destruct (Z.ltb_spec z' 0); [lia|reflexivity].
Qed.
Lemma check_rng_cases v : check_rng v = Ok tt \/ exists e, check_rng v = Err e.
Proof. destruct v; cbn; eauto. destruct (z <? 0)%Z; eauto. Qed.

Lemma weight_fine_iff c kw : distinct kw -> (weight_fine c kw <-> exists m, weight_new c (wenv c kw) = Ok m).
Proof.
  intros ND. unfold weight_fine.
  unfold weight_new. rewrite wenv_rng.
  assert (R : (exists r, given kw "rng" CvNone r /\ rng_fine r) <-> check_rng (key_or "rng" CvNone kw) = Ok tt).
  { setoid_rewrite (given_or kw _ _ _ ND). rewrite check_rng_ok. split; [intros (r & <- & H); exact H|intros H; exists (key_or "rng" CvNone kw); auto]. }
  rewrite R. clear R. destruct (check_rng_cases (key_or "rng" CvNone kw)) as [->|(e & ->)]; [|split; [intros (H & _); discriminate|intros (m & H); discriminate]].
  destruct c; try (split; [intros _; eexists; reflexivity|intros _; split; [reflexivity|exact I]]); setoid_rewrite (given_or kw _ _ _ ND).
  - change (argv "n" (wenv XDirDist kw)) with (key_or "n" (CvInt 1) kw). split.
    + intros (_ & n & ->). eexists; reflexivity.
    + intros (m & H). split; [reflexivity|]. destruct (key_or "n" (CvInt 1) kw); try discriminate. eexists; reflexivity.
  - change (argv "pyd" (wenv XPY kw)) with (key_or "pyd" (CvInt 0) kw). change (argv "alpha" (wenv XPY kw)) with (key_or "alpha" (CvInt 1) kw). split.
    + intros (_ & vy & va & y & al & <- & <- & -> & -> & H). assert (qltb (- y) al = true) as -> by (apply qltb_lt; lra). eexists; reflexivity.
    + intros (m & H). split; [reflexivity|]. destruct (num_of (key_or "pyd" (CvInt 0) kw)) as [y|] eqn:Ey; [|discriminate]. destruct (num_of (key_or "alpha" (CvInt 1) kw)) as [al|] eqn:Ea; [|discriminate].
      destruct (qltb (- y) al) eqn:E; [|discriminate]. apply qltb_lt in E.
      exists (key_or "pyd" (CvInt 0) kw), (key_or "alpha" (CvInt 1) kw), y, al. split; [reflexivity|]. split; [reflexivity|]. split; [exact Ey|]. split; [exact Ea|]. lra.
  - change (argv "a" (wenv XGeom kw)) with (key_or "a" (CvInt 1) kw). change (argv "b" (wenv XGeom kw)) with (key_or "b" (CvInt 1) kw). split.
    + intros (_ & va & vb & a & b & <- & <- & -> & -> & H1 & H2).
      assert (allpos [(a, b)] = true) as ->. { unfold allpos. cbn [forallb fst snd]. apply qltb_lt in H1. apply qltb_lt in H2. rewrite H1, H2. reflexivity. } eexists; reflexivity.
    + intros (m & H). split; [reflexivity|]. destruct (num_of (key_or "a" (CvInt 1) kw)) as [a|] eqn:Ea; [|discriminate]. destruct (num_of (key_or "b" (CvInt 1) kw)) as [b|] eqn:Eb; [|discriminate].
      destruct (allpos [(a, b)]) eqn:E; [|discriminate]. unfold allpos in E. cbn [forallb fst snd] in E. rewrite andb_true_r in E. apply andb_prop in E. destruct E as [E1 E2]. apply qltb_lt in E1. apply qltb_lt in E2.
      exists (key_or "a" (CvInt 1) kw), (key_or "b" (CvInt 1) kw), a, b. split; [reflexivity|]. split; [reflexivity|]. split; [exact Ea|]. split; [exact Eb|]. split; assumption.
  - change (argv "p_method" (wenv XBIB kw)) with (key_or "p_method" (CvStr "geometric") kw).
    assert (P : forall m, existsb (String.eqb m) p_methods = true <-> In m p_methods).
    { intros m. rewrite existsb_exists. split; [intros (x & Hx & E); apply String.eqb_eq in E; subst; exact Hx|intros H; exists m; split; [exact H|apply String.eqb_refl]]. }
    split.
    + intros (_ & m & -> & H). apply P in H. rewrite H. eexists; reflexivity.
    + intros (m & H). split; [reflexivity|]. destruct (key_or "p_method" (CvStr "geometric") kw) as [| | | | | |s| | | |] ; try discriminate.
      destruct (existsb (String.eqb s) p_methods) eqn:E; [|discriminate]. exists s. split; [reflexivity|]. apply P. exact E.
Qed.

Lemma weight_attr c kw wm : weight_new c (wenv c kw) = Ok wm -> wo_class wm = c /\
  forall k d, In (k, d) (weight_params c) -> (c = XDirDist -> k <> "alpha") -> In (k, key_or k d kw) (wo_attr wm).
Proof.
  unfold weight_new. destruct (check_rng _) as [[]| |]; try discriminate. destruct c; intros H.
  - destruct (argv "n" (wenv XDirDist kw)) eqn:E; try discriminate. injection H as <-. split; [reflexivity|]. cbn [weight_params In wo_attr]. intros k d [[= <- <-]|[[= <- <-]|[]]] Na.
    + left. rewrite <- E. reflexivity.
    + destruct (Na eq_refl eq_refl).
  - injection H as <-. split; [reflexivity|]. intros k d [[= <- <-]|[]] _. left. reflexivity.
  - destruct (num_of _); try discriminate. destruct (num_of _); try discriminate. destruct (qltb _ _); try discriminate. injection H as <-. split; [reflexivity|].
    intros k d [[= <- <-]|[[= <- <-]|[]]] _; [left|right; left]; reflexivity.
  - destruct (num_of _); try discriminate. destruct (num_of _); try discriminate. destruct (allpos _); try discriminate. injection H as <-. split; [reflexivity|].
    intros k d [[= <- <-]|[[= <- <-]|[]]] _; [left|right; left]; reflexivity.
  - destruct (argv "p_method" (wenv XBIB kw)) eqn:E; try discriminate. destruct (existsb _ _); try discriminate. injection H as <-. split; [reflexivity|]. cbn [wo_attr].
    intros k d [[= <- <-]|[[= <- <-]|[[= <- <-]|[[= <- <-]|[[= <- <-]|[]]]]]] _.
    + left; reflexivity.
    + right; right; right; left; reflexivity.
    + right; left; reflexivity.
    + right; right; left; reflexivity.
    + do 5 right; left. rewrite <- E. reflexivity.
  - injection H as <-. split; [reflexivity|]. intros k d [[= <- <-]|[[= <- <-]|[]]] _; [right; left|left]; reflexivity.
  - injection H as <-. split; [reflexivity|]. intros k d [[= <- <-]|[[= <- <-]|[]]] _; [left|right; left]; reflexivity.
  - injection H as <-. split; [reflexivity|]. intros k d [[= <- <-]|[[= <- <-]|[]]] _; [left|right; left]; reflexivity.
  - injection H as <-. split; [reflexivity|]. intros k d [[= <- <-]|[]] _; left; reflexivity.
  - injection H as <-. split; [reflexivity|]. intros k d [[= <- <-]|[]] _; left; reflexivity.
Qed.

Lemma mix_ok c kw m : mix_new c kw = Ok m <->
  exists wm t b s, known c kw = true /\ weight_new c (wenv c kw) = Ok wm /\
    num_of (key_or "total_iter" (CvInt 1000) kw) = Some t /\ num_of (key_or "burn_in" (CvInt 100) kw) = Some b /\ num_of (key_or "subsample_steps" (CvInt 1) kw) = Some s /\
    qltb b t = true /\ m = MObj wm (own_n c (wenv c kw)) (py_int t) (py_int b) (py_int s) (key_or "mu_prior" CvNone kw) (key_or "lambda_prior" (CvInt 1) kw)
                              (key_or "psi_prior" CvNone kw) (key_or "nu_prior" CvNone kw) (if closed c then CvBool false else key_or "show_progress" (CvBool false) kw) (key_or "rng" CvNone kw).
Proof.
  rewrite mix_nf. unfold nf, finish. split.
  - intros H. destruct (known c kw); [|destruct (closed c); cbn in H; [discriminate|destruct (weight_new c (wenv c kw)); discriminate]].
    rewrite andb_false_r in H. destruct (weight_new c (wenv c kw)) as [wm| |]; try discriminate.
    destruct (num_of (key_or "total_iter" (CvInt 1000) kw)) as [t|]; try discriminate. destruct (num_of (key_or "burn_in" (CvInt 100) kw)) as [b|]; try discriminate.
    destruct (qltb b t) eqn:E; try discriminate. destruct (check_rng (key_or "rng" CvNone kw)); try discriminate.
    destruct (num_of (key_or "subsample_steps" (CvInt 1) kw)) as [s|]; try discriminate. injection H as <-. exists wm, t, b, s. auto 10.
  - intros (wm & t & b & s & -> & W & -> & -> & -> & -> & ->). rewrite andb_false_r, W.
    assert (check_rng (key_or "rng" CvNone kw) = Ok tt) as ->; [|reflexivity].
    unfold weight_new in W. rewrite wenv_rng in W. destruct (check_rng_cases (key_or "rng" CvNone kw)) as [H|(e & H)]; [exact H|]. rewrite H in W. discriminate.
Qed.
Lemma iterations_iff kw t b s : distinct kw -> (iterations kw t b s <->
  num_of (key_or "total_iter" (CvInt 1000) kw) = Some t /\ num_of (key_or "burn_in" (CvInt 100) kw) = Some b /\ num_of (key_or "subsample_steps" (CvInt 1) kw) = Some s).
Proof.
  intros ND. unfold iterations. split.
  - intros (vt & vb & vk & H1 & H2 & H3 & H). apply given_or in H1, H2, H3; try exact ND. subst. exact H.
  - intros H. do 3 eexists. split; [apply given_or; [exact ND|reflexivity]|]. split; [apply given_or; [exact ND|reflexivity]|]. split; [apply given_or; [exact ND|reflexivity]|]. exact H.
Qed.

Lemma constructs_proof c kw : distinct kw ->
  ((exists m, mix_new c kw = Ok m) <-> all_parameters c kw /\ weight_fine c kw /\ exists t b s, iterations kw t b s /\ (b < t)%Q).
Proof.
  intros ND. rewrite <- known_all, (weight_fine_iff c kw ND). split.
  - intros (m & H). apply mix_ok in H. destruct H as (wm & t & b & s & K & W & H1 & H2 & H3 & H4 & _). split; [exact K|]. split; [exists wm; exact W|].
    exists t, b, s. split; [apply iterations_iff; auto|apply qltb_lt; exact H4].
  - intros (K & (wm & W) & t & b & s & I & L). apply iterations_iff in I; [|exact ND]. destruct I as (H1 & H2 & H3). apply qltb_lt in L.
    eexists. apply mix_ok. exists wm, t, b, s. do 6 (split; [eassumption|]). reflexivity.
Qed.
Lemma stores_proof c kw m : distinct kw -> mix_new c kw = Ok m ->
  stores c kw m /\ exists t b s, iterations kw t b s /\ mo_total m = py_int t /\ mo_burn m = py_int b /\ mo_sub m = py_int s.
Proof.
  intros ND H. apply mix_ok in H. destruct H as (wm & t & b & s & K & W & H1 & H2 & H3 & H4 & ->). destruct (weight_attr c kw wm W) as [Wc Wa]. split.
  - unfold stores, attribute. cbn. split; [exact Wc|]. split.
    { intros k d v Hin G Na. apply given_or in G; [|exact ND]. subst v. apply Wa; assumption. }
    do 5 (split; [intros v G; apply given_or in G; [exact G|exact ND]|]).
    intros v G. apply given_or in G; [|exact ND]. destruct (closed c) eqn:Ec; [|exact G].
    assert (N : ~ In "show_progress" (map fst kw)).
    { apply known_all in K. unfold all_parameters in K. rewrite Forall_forall in K. intros Hin. apply in_map_iff in Hin. destruct Hin as (kv & E & Hin). destruct (K kv Hin) as (d & P). rewrite E in P.
      unfold parameter, takes_show_progress in P. destruct c; try discriminate Ec; cbn in P; intuition congruence. }
    apply find_none in N. unfold key_or in G. rewrite N in G. exact G.
  - exists t, b, s. split; [apply iterations_iff; auto|]. auto.
Qed.
Lemma too_short_proof c kw t b s : distinct kw -> all_parameters c kw -> weight_fine c kw -> iterations kw t b s -> (t <= b)%Q -> mix_new c kw = Err AssertionError.
Proof.
  intros ND K W I L. apply known_all in K. apply (weight_fine_iff c kw ND) in W. destruct W as (wm & W). apply iterations_iff in I; [|exact ND]. destruct I as (H1 & H2 & H3).
  rewrite mix_nf. unfold nf, finish. rewrite K, andb_false_r, W, H1, H2. assert (qltb b t = false) as ->; [|reflexivity].
  apply not_true_is_false. intros E. apply qltb_lt in E. lra.
Qed.
Lemma unknown2_proof c kw : distinct kw -> ~ all_parameters c kw -> weight_fine c kw \/ c = XBIB \/ c = XBBin -> mix_new c kw = Err TypeError.
Proof.
  intros ND N H. apply unknown_proof; [exact N|]. destruct H as [H|[->| ->]]; [left; apply weight_fine_iff; assumption|right; reflexivity|right; reflexivity].
Qed.
Lemma bib_fixed_proof kw m : mix_new XBIB kw = Ok m -> attribute m "p" (CvInt 0) /\ attribute m "p_optim_max_steps" (CvInt 10).
Proof.
  intros H. apply mix_ok in H. destruct H as (wm & t & b & s & _ & W & _ & _ & _ & _ & ->). unfold attribute. cbn. unfold weight_new in W. destruct (check_rng _); try discriminate.
  destruct (argv "p_method" (wenv XBIB kw)); try discriminate. destruct (existsb _ _); try discriminate. injection W as <-. cbn. auto 10.
Qed.
Lemma bib_p_proof kw k v : distinct kw -> In (k, v) kw -> k = "p" \/ k = "p_optim_max_steps" \/ k = "show_progress" -> mix_new XBIB kw = Err TypeError.
Proof.
  intros ND Hin Hk. apply unknown2_proof; [exact ND| |right; left; reflexivity]. intros A. unfold all_parameters in A. rewrite Forall_forall in A. destruct (A _ Hin) as (d & P). cbn [fst] in P.
  unfold parameter, takes_show_progress in P. cbn in P. destruct Hk as [->|[->| ->]]; intuition congruence.
Qed.
Lemma dd_number_proof kw m n v q : distinct kw -> mix_new XDirDist kw = Ok m -> given kw "n" (CvInt 1) (CvInt n) -> given kw "alpha" (CvInt 1) v ->
  (exists z, v = CvInt z /\ q = inject_Z z) \/ v = CvFloat q -> exists l, attribute m "alpha" (CvArr l) /\ length l = Z.to_nat n /\ Forall (fun x => x = q) l.
Proof.
  intros ND H Gn Ga Hv. apply mix_ok in H. destruct H as (wm & t & b & s & _ & W & _ & _ & _ & _ & ->). apply given_or in Gn, Ga; try exact ND. unfold attribute. cbn.
  unfold weight_new in W. destruct (check_rng _); try discriminate.
  change (argv "n" (wenv XDirDist kw)) with (key_or "n" (CvInt 1) kw) in W. change (argv "alpha" (wenv XDirDist kw)) with (key_or "alpha" (CvInt 1) kw) in W. rewrite Gn, Ga in W.
  exists (repeat q (Z.to_nat n)). destruct Hv as [(z & -> & ->)| ->]; injection W as <-; cbn; (split; [right; left; reflexivity|]); (split; [apply repeat_length|apply Forall_forall; intros x Hx; apply repeat_spec in Hx; exact Hx]).
Qed.
Lemma dd_list_proof kw m l v : distinct kw -> mix_new XDirDist kw = Ok m -> given kw "alpha" (CvInt 1) v -> v = CvList l \/ v = CvArr l -> attribute m "alpha" (CvArr l).
Proof.
  intros ND H Ga Hv. apply mix_ok in H. destruct H as (wm & t & b & s & _ & W & _ & _ & _ & _ & ->). apply given_or in Ga; try exact ND. unfold attribute. cbn.
  unfold weight_new in W. destruct (check_rng _); try discriminate.
  change (argv "alpha" (wenv XDirDist kw)) with (key_or "alpha" (CvInt 1) kw) in W. rewrite Ga in W.
  destruct (argv "n" (wenv XDirDist kw)); try discriminate. destruct Hv as [-> | ->]; injection W as <-; cbn; auto.
Qed.
Lemma dd_lost_proof kw m v : distinct kw -> mix_new XDirDist kw = Ok m -> given kw "alpha" (CvInt 1) v ->
  (forall l, v <> CvList l) -> (forall l, v <> CvArr l) -> (forall z, v <> CvInt z) -> (forall q, v <> CvFloat q) -> forall u, ~ attribute m "alpha" u.
Proof.
  intros ND H Ga N1 N2 N3 N4 u. apply mix_ok in H. destruct H as (wm & t & b & s & _ & W & _ & _ & _ & _ & ->). apply given_or in Ga; try exact ND. unfold attribute. cbn.
  unfold weight_new in W. destruct (check_rng _); try discriminate.
  change (argv "alpha" (wenv XDirDist kw)) with (key_or "alpha" (CvInt 1) kw) in W. rewrite Ga in W.
  destruct (argv "n" (wenv XDirDist kw)); try discriminate. destruct v; try (exfalso; eauto; fail); try (edestruct N1; reflexivity); try (edestruct N2; reflexivity); try (edestruct N3; reflexivity); try (edestruct N4; reflexivity);
    injection W as <-; cbn; intros [E|[]]; discriminate.
Qed.

(* the call of the examples *)
Definition call : kwargs := [("burn_in", CvFloat (5 # 2)); ("alpha", CvFloat 2); ("total_iter", CvNpInt 4); ("show_progress", CvBool true)].
