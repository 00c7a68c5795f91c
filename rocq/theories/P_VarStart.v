(* The start of a variational fit (C87). *)
From Coq Require Import Lqa.
From Verif Require Import Prelude Numpy Rng M_Weights M_Niw M_Utils M_Mix M_Query S_Oracle S_Niw S_Mix S_Fresh S_Flags S_Sort S_VarFit S_VarStart P_Lists P_Wp P_Mix P_Mix33 P_Map P_Fresh P_Flags P_Sort P_Fail P_VarQ P_Shape.
Open Scope Q_scope.
Open Scope m_scope.

Lemma fit_start E c y k tol meth o s g s' g' : fit_variational E c y k false tol meth o s g = (Ok tt, s', g') ->
  exists s0 s1 g1 es s2 kk b, init_common y o s g = (Ok tt, s0, g) /\ s_y s0 = rows_of y /\ groups_of k (s_n s) = Some kk /\ (b = false <-> k = SNp64 kk) /\
    init_variational E c kk b meth o s0 g = (Ok tt, s1, g1) /\ var_run E c o s1 g1 es s2 g' /\ s_var s' = s_var s2.
Proof.
  unfold fit_variational. intros H. apply bind_ok in H as ([] & s1 & g1 & H1 & H). apply bind_ok in H as ([] & s2 & g2 & H2 & H). apply bind_ok in H as (u & s3 & g3 & H3 & H). injection H3 as <- <- <-.
  apply bind_ok in H as (i & s3 & g3 & H3 & H). destruct (var_loop_ok _ _ _ _ _ _ _ _ _ _ _ _ _ H3) as (es & R0 & _).
  assert (Ng : g1 = g).
  { assert (D := init_common_shape _ _ _ _ _ _ H1). destruct D as (D & _).
    unfold init_common in H1. apply bind_ok in H1 as (? & ? & ? & A1 & H1). destruct y; try discriminate A1; unfold set_obs, upd in A1; injection A1 as <- <- <-;
      unfold bind, get, upd, raise, ret in H1; repeat match type of H1 with context [match ?x with _ => _ end] => destruct x end; try discriminate H1; injection H1 as _ <-; reflexivity. }
  subst g1. pose proof (init_common_shape _ _ _ _ _ _ H1) as (_ & Y & _).
  assert (Kn : s_n s1 = s_n s) by (eapply (keeps_ok s_n); [apply keeps_init_common; reflexivity|exact H1]).
  apply bind_ok in H2 as (u & t & gt & Ht & H2). injection Ht as <- <- <-. rewrite Kn in H2.
  assert (X : exists kk b, groups_of k (s_n s) = Some kk /\ (b = false <-> k = SNp64 kk) /\ init_variational E c kk b meth o s1 g = (Ok tt, s2, g2)).
  { destruct k; cbn [groups_of]; [destruct (s_n s); [|discriminate H2]| | |apply bind_ok in H2 as (? & ? & ? & _ & H2); destruct meth; discriminate H2];
      eexists _, _; (split; [reflexivity|]); (split; [|exact H2]); split; congruence. }
  destruct X as (kk & b & X1 & Xb & X2). exists s1, s2, g2, es, s3, kk, b.
  assert (G : g' = g3 /\ s_var s' = s_var s3).
  { apply bind_ok in H as (? & t & gt & Ht & H). injection Ht as _ <- <-. destruct (_ <? _)%Z; injection H as <- <-; auto. }
  destruct G as [-> Gv]. auto 10.
Qed.
Lemma fvw_ok c k D o s g s' g' : fit_var_weights c k D o s g = (Ok tt, s', g') ->
  g' = g /\ s_y s' = s_y s /\ s_var s' = VST (vk (s_var s)) (vresp (s_var s)) (vtheta (s_var s)) D /\ prior_niw s' = prior_niw s.
Proof.
  unfold fit_var_weights. intros H. apply bind_ok in H as ([] & t & gt & Ht & H). injection H as <- <-.
  unfold onw in Ht. destruct (wm_fit_var c k o (s_wm s) g) as [[q x] gx] eqn:W. injection Ht as -> <- <-.
  assert (G : gx = g).
  { destruct c; cbn -[Z.eqb] in W; try discriminate W; try (injection W as _ <-; reflexivity).
    - destruct (k =? n)%Z; [destruct (_ || _ || _)%bool|]; try discriminate W. injection W as _ <-; reflexivity.
    - destruct (k =? 0)%Z; try discriminate W. injection W as _ <-; reflexivity. }
  subst gx. auto.
Qed.
Lemma hot_rows k l : k_rows k (length l) (one_hot k l) (fun j i => if Nat.eqb (nth i l 0%nat) j then 1 else 0).
Proof.
  unfold one_hot. split; [rewrite map_length; apply seq_length|]. split.
  - apply Forall_forall. intros r Hr. apply in_map_iff in Hr as (j & <- & _). apply map_length.
  - intros j i Hj Hi. rewrite (nth_indep _ [] (map (fun b => if Nat.eqb b 0 then 1 else 0) l)) by (rewrite map_length, seq_length; exact Hj).
    rewrite (map_nth (fun j => map (fun b => if Nat.eqb b j then 1 else 0) l)), seq_nth by exact Hj. cbn [plus].
    rewrite (nth_indep _ 0 (if Nat.eqb 0 j then 1 else 0)) by (rewrite map_length; exact Hi). rewrite (map_nth (fun b => if Nat.eqb b j then 1 else 0)). reflexivity.
Qed.
Lemma flat_rows k n q : k_rows k n (repeat (repeat q n) k) (fun _ _ => q).
Proof.
  split; [apply repeat_length|]. split.
  - apply Forall_forall. intros r Hr. apply repeat_spec in Hr. subst. apply repeat_length.
  - intros j i Hj Hi. assert (X : forall {A} (a d : A) m x, (x < m)%nat -> nth x (repeat a m) d = a).
    { intros A a d m. induction m as [|m IH]; intros [|x] Hx; simpl; try lia; auto. apply IH. lia. }
    rewrite X by exact Hj. rewrite X by exact Hi. reflexivity.
Qed.

Lemma c87_kmeans_proof E c y k tol o s g s' g' : argsorts (e_argsort E) -> fit_variational E c y k false tol IKmeans o s g = (Ok tt, s', g') ->
  exists s1 es s2 n l H0 h T D, groups_of k (s_n s) = Some n /\ (1 <= n <= Z.of_nat (length (rows_of y)))%Z /\
    (let l0 := o_kmeans o g (rows_of y) (Z.to_nat n) in same_partition l0 l /\ contiguous (distinct l0) l /\ by_size (distinct l0) l) /\
    k_rows (Z.to_nat n) (length l) H0 (fun j i => if Nat.eqb (nth i l 0%nat) j then 1 else 0) /\
    prior_niw s1 = Ok h /\ s_y s1 = rows_of y /\ e_vtheta E (rows_of y) h H0 = Ok T /\
    e_vd E (rows_of y) (VST (Some n) H0 T (repeat [] (Z.to_nat n))) = Ok D /\ s_var s1 = VST (Some n) D T D /\
    var_run E c o s1 (g ++ [RKMeans (rows_of y) (Z.to_nat n)]) es s2 g' /\ s_var s' = s_var s2.
Proof.
  intros Ha H. destruct (fit_start _ _ _ _ _ _ _ _ _ _ _ H) as (s0 & s1 & g1 & es & s2 & n & b & I0 & Y & Gk & _ & I & R & V). clear H.
  unfold init_variational in I. apply bind_ok in I as ([] & a1 & h1 & A1 & I). injection A1 as <- <-.
  apply bind_ok in I as ([] & a2 & h2 & A2 & I). apply bind_ok in I as (u & a3 & h3 & A3 & I). injection A3 as <- <- <-.
  apply bind_ok in A2 as (u & a3 & h3 & A3 & A2). injection A3 as <- <- <-.
  apply bind_ok in A2 as ([] & a4 & h4 & A4 & A2). destruct (s_1d _) eqn:D1 in A4; [discriminate A4|]. injection A4 as <- <-.
  apply bind_ok in A2 as (l & a5 & h5 & A5 & A2).
  assert (Hn : (1 <= n <= Z.of_nat (length (rows_of y)))%Z).
  { rewrite <- Y. destruct (Z.le_gt_cases 1 n) as [N1|N1]; [destruct (Z.le_gt_cases n (Z.of_nat (length (s_y s0)))) as [N2|N2]; [auto|]|].
    - unfold vec in *. exfalso. rewrite c45_bad_k_proof in A5 by (right; exact N2). discriminate A5.
    - exfalso. rewrite c45_bad_k_proof in A5 by lia. discriminate A5. }
  cbn [s_y upd_var] in A5. rewrite Y in A5.
  destruct (c45_relabel_proof (e_argsort E) ms (upd_var (VST (Some n) (vresp (s_var s0)) [] (vwd (s_var s0))) s0) (rows_of y) n o g Ha Hn) as (l' & K1 & K2).
  cbv zeta in A5. rewrite K1 in A5. injection A5 as -> <- <-.
  apply bind_ok in A2 as ([] & a6 & h6 & A6 & A2). injection A6 as <- <-. apply bind_ok in A2 as ([] & a7 & h7 & A7 & A2). apply fvw_ok in A7 as (-> & Y7 & V7 & P7).
  apply bind_ok in A2 as ([] & a8 & h8 & A8 & A2). unfold update_var_theta in A8. apply bind_ok in A8 as (u & t & gt & Ht & A8). injection Ht as <- <- <-.
  apply bind_ok in A8 as (h & t & gt & Ht & A8). unfold of_res in Ht. injection Ht as Hp <- <-. apply bind_ok in A8 as (T & t & gt & Ht & A8). unfold of_res in Ht. injection Ht as HT <- <-. injection A8 as <- <-.
  unfold update_var_d in A2. apply bind_ok in A2 as (u & t & gt & Ht & A2). injection Ht as <- <- <-. destruct (s_1d _) eqn:D2 in A2; [discriminate A2|].
  cbn [s_var upd_var vk vresp vwd] in *. rewrite V7 in *. cbn [vk vresp vtheta vwd] in *. destruct (n <? 0)%Z; [discriminate A2|]. destruct (negb (supports_var c)); [discriminate A2|].
  apply bind_ok in A2 as (D & t & gt & Ht & A2). unfold of_res in Ht. injection Ht as HD <- <-. injection A2 as <- <-.
  apply fvw_ok in I as (-> & Y9 & V9 & P9). cbn [s_y s_var upd_var vk vresp vtheta vwd] in *.
  rewrite Y7, Y in *. exists s1, es, s2, n, l, (one_hot (Z.to_nat n) l), h, T, D.
  split; [exact Gk|]. split; [exact Hn|]. split; [exact K2|]. split; [apply hot_rows|].
  split; [rewrite P9; exact Hp|]. split; [rewrite Y9; reflexivity|]. split; [exact HT|]. split; [exact HD|]. split; [exact V9|]. split; [exact R|exact V].
Qed.

Lemma draws_ok E h : forall n o s g l s' g', prior_niw s = Ok h -> prior_vatoms E n o s g = (Ok l, s', g') ->
  exists T, prior_draws E o h n g T g' /\ s_y s' = s_y s /\ prior_niw s' = prior_niw s /\ s_1d s' = s_1d s /\
    s_var s' = VST (vk (s_var s)) (vresp (s_var s)) (vtheta (s_var s) ++ T) (vwd (s_var s)).
Proof.
  induction n as [|n IH]; intros o s g l s' g' Hp H; simpl in H.
  - injection H as _ <- <-. exists []. split; [constructor|]. rewrite app_nil_r. destruct (s_var s); auto.
  - apply bind_ok in H as (a & s1 & g1 & H1 & H). apply bind_ok in H as (? & t & gt & Ht & H). injection Ht as <- <- <-.
    unfold prior_atom in H1. apply bind_ok in H1 as (? & t & gt & Ht & H1). injection Ht as <- <- <-. apply bind_ok in H1 as (h' & t & gt & Ht & H1). unfold of_res in Ht. rewrite Hp in Ht. injection Ht as <- <- <-.
    unfold draw_niw in H1. apply bind_ok in H1 as (sg & t & gt & Ht & H1). unfold invw1 in Ht. cbv zeta in Ht.
    destruct (o_invw o g (Qred (n_nu h)) (map (map Qred) (n_psi h))) as [x|] eqn:OI; [|discriminate Ht]. injection Ht as -> <- <-.
    apply bind_ok in H1 as (? & t & gt & Ht & H1). destruct (Qeq_bool (n_lam h) 0); [discriminate Ht|]. injection Ht as _ <- <-.
    apply bind_ok in H1 as (mu & t & gt & Ht & H1). unfold mvn1 in Ht. cbv zeta in Ht. rewrite map_map in Ht.
    rewrite (map_ext (fun x => map Qred (map (fun x0 => x0 / n_lam h) x)) (map (fun x => Qred (x / n_lam h)))) in Ht by (intros; apply map_map).
    destruct (o_mvn _ _ _ _) as [z|] eqn:OM in Ht; [|discriminate Ht]. injection Ht as -> <- <-. injection H1 as <- <- <-.
    apply bind_ok in H as (p & t & gt & Ht & H). unfold of_res in Ht. injection Ht as Hi <- <-. cbn [fst snd] in *.
    apply bind_ok in H as (h' & t & gt & Ht & H). unfold of_res in Ht. rewrite Hp in Ht. injection Ht as <- <- <-.
    apply bind_ok in H as (? & t & gt & Ht & H). injection Ht as _ <- <-.
    apply IH in H as (T & P & Y & Pn & D & V); [|exact Hp]. exists ((mu, n_lam h, p, n_nu h) :: T).
    split; [eapply pdr_cons; eassumption|]. split; [exact Y|]. split; [exact Pn|]. split; [exact D|]. rewrite V. simpl. rewrite <- app_assoc. reflexivity.
Qed.
Lemma c87_random_proof E c y k tol o s g s' g' : fit_variational E c y k false tol IRandom o s g = (Ok tt, s', g') ->
  exists s1 g1 es s2 n T D, groups_of k (s_n s) = Some n /\ (0 <= n)%Z /\
    k_rows (Z.to_nat n) (length (rows_of y)) D (fun _ _ => 1 / zq n) /\
    (n = 0%Z \/ exists h, prior_niw s1 = Ok h /\ prior_draws E o h (Z.to_nat n) g T g1) /\
    s_y s1 = rows_of y /\ s_var s1 = VST (Some n) D T D /\ var_run E c o s1 g1 es s2 g' /\ s_var s' = s_var s2.
Proof.
  intros H. destruct (fit_start _ _ _ _ _ _ _ _ _ _ _ H) as (s0 & s1 & g1 & es & s2 & n & b & I0 & Y & Gk & _ & I & R & V). clear H.
  unfold init_variational in I. apply bind_ok in I as ([] & a1 & h1 & A1 & I). injection A1 as <- <-.
  apply bind_ok in I as ([] & a2 & h2 & A2 & I). apply bind_ok in I as (u & a3 & h3 & A3 & I). injection A3 as <- <- <-.
  apply bind_ok in A2 as (u & a4 & h4 & A4 & A2). apply bind_ok in A2 as (u' & a5 & h5 & A5 & A2). injection A5 as <- <- <-.
  assert (N0 : (0 <= n)%Z).
  { destruct ((n =? 0)%Z && b); [discriminate A2|]. destruct (Z.ltb_spec n 0); [discriminate A2|assumption]. }
  assert (A3 : a2 = (let x := s_var a4 in upd_var (VST (vk x) (repeat (repeat (1 / zq n) (length (s_y a4))) (Z.to_nat n)) (vtheta x) (vwd x)) a4) /\ h2 = h4).
  { destruct ((n =? 0)%Z && b); [discriminate A2|]. destruct (Z.ltb_spec n 0); [discriminate A2|]. injection A2 as <- <-. auto. }
  destruct A3 as [-> ->]. clear A2. apply fvw_ok in I as (-> & Y9 & V9 & P9). cbn [s_y s_var upd_var vk vresp vtheta vwd] in *.
  assert (X : exists T, (n = 0%Z \/ exists h, prior_niw a4 = Ok h /\ prior_draws E o h (Z.to_nat n) g T h4) /\ s_y a4 = s_y s0 /\ s_var a4 = VST (Some n) (vresp (s_var s0)) T (vwd (s_var s0))).
  { destruct (Z.eq_dec n 0) as [->|Nz].
    - simpl in A4. injection A4 as _ <- <-. exists []. auto.
    - destruct (prior_niw (upd_var (VST (Some n) (vresp (s_var s0)) [] (vwd (s_var s0))) s0)) as [h|e|] eqn:Hp.
      + destruct (draws_ok E h _ _ _ _ _ _ _ Hp A4) as (T & P & Yq & Pn & _ & Vq). exists T. split; [right; exists h; split; [rewrite Pn; exact Hp|exact P]|]. split; [exact Yq|exact Vq].
      + exfalso. destruct (Z.to_nat n) as [|m] eqn:Em; [lia|]. simpl in A4. unfold prior_atom, bind, get, of_res in A4. rewrite Hp in A4. discriminate A4.
      + exfalso. destruct (Z.to_nat n) as [|m] eqn:Em; [lia|]. simpl in A4. unfold prior_atom, bind, get, of_res in A4. rewrite Hp in A4. discriminate A4. }
  destruct X as (T & X1 & X2 & X3). rewrite X3 in V9. cbn [vk vresp vtheta vwd] in V9. rewrite X2, Y in *.
  exists s1, h4, es, s2, n, T, (repeat (repeat (1 / zq n) (length (rows_of y))) (Z.to_nat n)).
  split; [exact Gk|]. split; [exact N0|]. split; [apply flat_rows|].
  split; [destruct X1 as [X1|(h & Xh & Xd)]; [left; exact X1|right; exists h; split; [rewrite P9; exact Xh|exact Xd]]|].
  split; [rewrite Y9; reflexivity|]. split; [exact V9|]. split; [exact R|exact V].
Qed.

(* what the number of groups must be *)
Definition vflags (s : ms) := (s_gfit s, s_vfit s, s_vconv s, s_sims s).
Lemma c87_arguments_proof E c y k tol meth o s g : is_data y = true -> has_nu s y -> (k = SOther \/ exists n, groups_of k (s_n s) = Some n) ->
  (k = SOther \/ meth = IOther \/ meth = IVariational) ->
  exists s', fit_variational E c y k false tol meth o s g = (Err (match meth with IKmeans | IRandom => TypeError | _ => AttributeError end), s', g) /\
    vtheta (s_var s') = [] /\ s_y s' = rows_of y /\ s_vfit s' = s_vfit s /\ s_gfit s' = s_gfit s /\ s_sims s' = s_sims s.
Proof.
  intros D N Hk Hm. destruct (init_common_ok y o s g D N) as (s1 & I). pose proof (init_common_shape _ _ _ _ _ _ I) as (_ & Y & _).
  assert (K : (s_n s1, vflags s1) = (s_n s, vflags s)) by (eapply (keeps_ok (fun s => (s_n s, vflags s))); [apply (keeps_init_common (fun s => (s_n s, vflags s))); reflexivity|exact I]).
  unfold vflags in K. injection K as K1 K2 K3 K4 K5.
  assert (U : forall kk b, meth = IOther \/ meth = IVariational -> init_variational E c kk b meth o s1 g = (Err AttributeError, upd_var (VST (Some kk) (vresp (s_var s1)) [] (vwd (s_var s1))) s1, g)).
  { intros kk b [->| ->]; reflexivity. }
  assert (X : forall kk b, meth = IOther \/ meth = IVariational -> exists s', (init_variational E c kk b meth ;; ss <- get ;; i <- var_loop E c tol (Z.to_nat (s_total ss)) LNeg LPos 0 ;;
      upd (fun s => upd_flags (s_gfit s) true (s_vconv s) s) ;; (if (Z.of_nat i <? s_total ss)%Z then upd (fun s => upd_flags (s_gfit s) (s_vfit s) true s) else ret tt)) o s1 g = (Err AttributeError, s', g) /\
    vtheta (s_var s') = [] /\ s_y s' = rows_of y /\ s_vfit s' = s_vfit s /\ s_gfit s' = s_gfit s /\ s_sims s' = s_sims s).
  { intros kk b M0. unfold bind at 1. rewrite (U kk b M0). eexists. split; [reflexivity|]. simpl. auto. }
  unfold fit_variational. rewrite (ok_bind _ _ _ _ _ _ _ _ I).
  assert (Ze : meth = IOther \/ meth = IVariational -> match meth with IKmeans | IRandom => TypeError | _ => AttributeError end = AttributeError) by (intros [->| ->]; reflexivity).
  assert (HM : k <> SOther -> meth = IOther \/ meth = IVariational) by (intros NE; destruct Hm as [Hm|Hm]; [contradiction|exact Hm]).
  destruct k.
  - destruct Hk as [Hk|(n & Hn)]; [discriminate Hk|]. simpl in Hn. specialize (HM ltac:(discriminate)). rewrite (Ze HM).
    unfold bind at 1 2, get at 1. rewrite K1, Hn. apply (X n true HM).
  - specialize (HM ltac:(discriminate)). rewrite (Ze HM). apply (X z true HM).
  - specialize (HM ltac:(discriminate)). rewrite (Ze HM). apply (X z false HM).
  - eexists. unfold bind, get, upd. destruct meth; (split; [reflexivity|]); simpl; auto.
Qed.
Lemma c87_count_proof E c y n tol meth o s g s' g' : fit_variational E c y (SInt n) false tol meth o s g = (Ok tt, s', g') ->
  (1 <= n)%Z /\ (meth = IKmeans \/ meth = IRandom) /\ (meth = IKmeans -> (n <= Z.of_nat (length (rows_of y)))%Z).
Proof.
  intros H. destruct (fit_start _ _ _ _ _ _ _ _ _ _ _ H) as (s0 & s1 & g1 & es & s2 & kk & b & I0 & Y & Gk & Gb & I & _). injection Gk as <-.
  assert (B : b = true) by (destruct b; [reflexivity|]; destruct Gb as [Gb _]; specialize (Gb eq_refl); discriminate Gb). subst b.
  unfold init_variational in I. apply bind_ok in I as ([] & a1 & h1 & A1 & I). injection A1 as <- <-.
  apply bind_ok in I as ([] & a2 & h2 & A2 & I). destruct meth; try discriminate A2.
  - apply bind_ok in A2 as (u & a3 & h3 & A3 & A2). injection A3 as <- <- <-.
    apply bind_ok in A2 as ([] & a4 & h4 & A4 & A2). destruct (s_1d _) eqn:D1 in A4; [discriminate A4|]. injection A4 as <- <-.
    apply bind_ok in A2 as (l & a5 & h5 & A5 & A2). cbn [s_y upd_var] in A5. rewrite Y in A5. clear Y.
    destruct (Z.le_gt_cases 1 n) as [N1|N1]; [destruct (Z.le_gt_cases n (Z.of_nat (length (rows_of y)))) as [N2|N2]; [auto|]|].
    + unfold vec in *. exfalso. rewrite c45_bad_k_proof in A5 by (right; exact N2). discriminate A5.
    + exfalso. rewrite c45_bad_k_proof in A5 by lia. discriminate A5.
  - apply bind_ok in A2 as (u & a4 & h4 & A4 & A2). apply bind_ok in A2 as (u' & a5 & h5 & A5 & A2). injection A5 as <- <- <-.
    destruct (Z.eqb_spec n 0); [discriminate A2|]. cbn [andb] in A2. destruct (Z.ltb_spec n 0); [discriminate A2|]. split; [lia|]. split; [auto|discriminate].
Qed.
Lemma c87_zero_proof E c y n tol o s g : is_data y = true -> has_nu s y -> (n <= 0)%Z ->
  exists s', fit_variational E c y (SInt n) false tol IRandom o s g = (Err (if (n =? 0)%Z then ZeroDivisionError else ValueError), s', g).
Proof.
  intros D N Hn. destruct (init_common_ok y o s g D N) as (s1 & I). unfold fit_variational. rewrite (ok_bind _ _ _ _ _ _ _ _ I).
  eexists. unfold bind at 1 2, get at 1. cbv iota. unfold init_variational, bind, upd, get. replace (Z.to_nat n) with 0%nat by lia. cbn [prior_vatoms]. unfold ret.
  destruct (Z.eqb_spec n 0) as [->|Nz]; cbn [andb]; [reflexivity|]. destruct (Z.ltb_spec n 0); [reflexivity|lia].
Qed.
