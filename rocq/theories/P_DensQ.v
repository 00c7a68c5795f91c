(* Variational density queries that cannot succeed, and marginals (C53). *)
From Coq Require Import Lqa.
From Verif Require Import Prelude Numpy Rng M_Weights M_Niw M_Utils M_Mix M_Query S_Niw S_DensQ P_Niw P_Dens.
Open Scope Q_scope.

Lemma v_sum_first f acc x t : (forall r, f x <> Ok r) -> forall r, v_sum f acc (x :: t) <> Ok r.
Proof. intros H r. simpl. destruct (f x) eqn:E; try discriminate. exfalso. eapply H. reflexivity. Qed.
Lemma v_sub_int i a r : v_sub (DInt i) a <> Ok r.
Proof. destruct a as [[[mu lam] prec] sc]. simpl. destruct (py_nth mu i); discriminate. Qed.
Lemma v_iter_nonempty s comp l : vtheta (s_var s) <> [] -> v_iter s comp = Ok l -> l <> [].
Proof.
  intros NE. unfold v_iter, get_vtheta. destruct (vk (s_var s)); [|discriminate]. simpl. destruct comp as [j|].
  - destruct (py_nth _ j); simpl; try discriminate. intros [= <-]. discriminate.
  - intros [= <-]. destruct (vtheta (s_var s)); [congruence|discriminate].
Qed.
Lemma c53_map_default_proof : forall QE s y comp, s_vfit s = true ->
  (forall r, var_map_density QE s y DNone comp <> Ok r) /\
  (forall x, cast_obs s y = Ok x -> var_map_density QE s y DNone comp = Err TypeError).
Proof.
  intros QE s y comp F. unfold var_map_density. rewrite F. simpl. destruct (cast_obs s y); simpl; split; intros; congruence.
Qed.
Lemma c53_int_dim_proof : forall QE s y i comp, vtheta (s_var s) <> [] ->
  (forall r, var_map_density QE s y (DInt i) comp <> Ok r) /\ (forall r, var_eap_density QE s y (DInt i) comp <> Ok r).
Proof.
  intros QE s y i comp NE. unfold var_map_density, var_eap_density. destruct (negb (s_vfit s)); [split; discriminate|]. destruct (cast_obs s y) as [x| |]; simpl; try (split; discriminate).
  pose proof (v_iter_nonempty s comp) as N. destruct (v_iter s comp) as [l| |]; simpl; try (split; discriminate). specialize (N l NE eq_refl).
  destruct l as [|a l]; [congruence|]. split; apply v_sum_first; intros r; destruct (v_sub (DInt i) (snd a)) eqn:E; simpl; try discriminate; exfalso; eapply v_sub_int; exact E.
Qed.
(* the marginal of the first of two coordinates *)
Lemma c53_marginal_proof : forall m0 m1 lam a b c sc C, inverse_of 2 [[a; b]; [b; c]] C ->
  v_sub (DList [0%Z]) ([m0; m1], lam, [[a; b]; [b; c]], sc) = Ok ([m0], [[a]]) /\ (a * entry C 0 0 == 1 <-> b == 0).
Proof.
  intros m0 m1 lam a b c sc C H. split; [reflexivity|]. pose proof (H 0%nat 0%nat ltac:(lia) ltac:(lia)) as H00. pose proof (H 0%nat 1%nat ltac:(lia) ltac:(lia)) as H01. pose proof (H 1%nat 0%nat ltac:(lia) ltac:(lia)) as H10. pose proof (H 1%nat 1%nat ltac:(lia) ltac:(lia)) as H11.
  unfold entry in *. simpl in *. set (p := nth 0 (nth 0 C []) 0) in *. set (q := nth 1 (nth 0 C []) 0) in *. set (r := nth 0 (nth 1 C []) 0) in *. set (t := nth 1 (nth 1 C []) 0) in *.
  split; intros E.
  - assert (B : b * r == 0) by lra. destruct (Qeq_dec b 0) as [Z|Z]; [exact Z|exfalso].
    assert (R : r == 0) by (destruct (Qmult_integral _ _ B); [contradiction|assumption]). rewrite R in *. assert (P : b * p == 0) by lra.
    assert (P0 : p == 0) by (destruct (Qmult_integral _ _ P); [contradiction|assumption]). rewrite P0 in *. lra.
  - rewrite E in H00. lra.
Qed.
(* the sum over the components *)
Lemma add_rows_nth a b i : length a = length b -> (i < length a)%nat -> nth i (add_rows a b) 0 == nth i a 0 + nth i b 0.
Proof.
  revert b i. induction a as [|x a IH]; intros [|y b] i L Hi; try discriminate L; [simpl in Hi; lia|]. destruct i as [|i]; simpl; [reflexivity|]. apply IH; simpl in *; lia.
Qed.
Lemma add_rows_len a b : length a = length b -> length (add_rows a b) = length a.
Proof. intros L. unfold add_rows. rewrite map_length, combine_length. lia. Qed.
Lemma v_sum_spec n (f : Z * vatom -> res (list Q)) (dens : vatom -> res (list Q)) (wt : Z -> res Q) :
  (forall ja r, f ja = Ok r -> exists l q, dens (snd ja) = Ok l /\ wt (fst ja) = Ok q /\ r = map (fun v => v * q) l /\ length l = n) ->
  forall l acc v, length acc = n -> v_sum f acc l = Ok v ->
  exists ws ls, length ws = length l /\ length ls = length l /\ Forall (fun l => length l = n) ls /\
   (forall j, (j < length l)%nat -> exists za, nth_error l j = Some za /\ dens (snd za) = Ok (nth j ls []) /\ wt (fst za) = Ok (nth j ws 0)) /\
   length v = n /\ forall i, (i < n)%nat -> nth i v 0 == nth i acc 0 + sum_over (fun j => nth j ws 0 * nth i (nth j ls []) 0) (seq 0 (length l)).
Proof.
  intros Hf. induction l as [|ja l IH]; intros acc v La H; simpl in H.
  - injection H as <-. exists [], []. split; [reflexivity|]. split; [reflexivity|]. split; [constructor|]. split; [intros; simpl in *; lia|]. split; [exact La|]. intros i Hi. simpl. ring.
  - destruct (f ja) as [r| |] eqn:Ef; try discriminate H. destruct (Hf ja r Ef) as (d & q & Ed & Eq & -> & Ld).
    assert (Lr : length (map (fun v => v * q) d) = n) by (rewrite map_length; exact Ld). destruct (IH _ _ (eq_trans (add_rows_len acc _ (eq_trans La (eq_sym Lr))) La) H) as (ws & ls & W1 & W2 & W3 & W4 & W5 & W6).
    exists (q :: ws), (d :: ls). split; [simpl; lia|]. split; [simpl; lia|]. split; [constructor; assumption|]. split; [|split; [exact W5|]].
    + intros [|j] Hj; [exists ja; auto|]. simpl. apply W4. simpl in Hj. lia.
    + intros i Hi. rewrite (W6 i Hi). rewrite add_rows_nth by lia. simpl length. cbn [seq sum_over nth]. rewrite <- seq_shift.
      assert (M : forall g : nat -> Q, forall z, sum_over g (map S z) == sum_over (fun j => g (S j)) z) by (intros g; induction z as [|a z IHz]; [reflexivity|]; simpl; rewrite IHz; reflexivity). rewrite M. cbn [nth].
      assert (X : nth i (map (fun v => v * q) d) 0 = nth i d 0 * q) by (rewrite (nth_indep _ 0 (0 * q)) by lia; apply (map_nth (fun v => v * q))). rewrite X. ring.
Qed.
Lemma iter_all s l : v_iter s None = Ok l -> l = combine (map Z.of_nat (seq 0 (length (vtheta (s_var s))))) (vtheta (s_var s)).
Proof. unfold v_iter, get_vtheta. destruct (vk (s_var s)); simpl; [|discriminate]. intros [= <-]. reflexivity. Qed.
Lemma iter_nth (t : list vatom) j za : nth_error (combine (map Z.of_nat (seq 0 (length t))) t) j = Some za -> fst za = Z.of_nat j /\ nth_error t j = Some (snd za).
Proof.
  assert (G : forall t m j, nth_error (combine (map Z.of_nat (seq m (length t))) t) j = Some za -> fst za = Z.of_nat (m + j) /\ nth_error t j = Some (snd za)).
  { clear t j. induction t as [|a t IH]; intros m j H; [destruct j; discriminate|]. destruct j as [|j]; simpl in *; [injection H as <-; rewrite Nat.add_0_r; auto|]. apply IH in H as [A B]. split; [rewrite A; f_equal; lia|exact B]. }
  intros H. apply G in H. exact H.
Qed.
Lemma c53_map_sum_proof : forall QE s y idx v x, per_row (q_normal QE) -> cast_obs s y = Ok x -> var_map_density QE s y (DList idx) None = Ok v ->
  exists ws ls, weighted_sum_of (length (fst x)) ws ls v /\ length ls = length (vtheta (s_var s)) /\
  forall j mu lam prec scale, nth_error (vtheta (s_var s)) j = Some (mu, lam, prec, scale) ->
    exists m p, sub_vec idx mu = Ok m /\ sub_mat idx prec = Ok p /\
      q_normal QE (fst x) m (map (map (fun z => z * (scale - nq (length idx)))) p) = Ok (nth j ls []) /\ q_mode_w QE (s_var s) (s_wm s) (Z.of_nat j) = Ok (nth j ws 0).
Proof.
  intros QE s y idx v x PR C H. unfold var_map_density in H. destruct (negb (s_vfit s)); [discriminate|]. rewrite C in H. simpl in H. destruct (v_iter s None) as [l| |] eqn:I; try discriminate H. simpl in H. apply iter_all in I.
  apply v_sum_spec with (n := length (fst x)) (wt := q_mode_w QE (s_var s) (s_wm s)) (dens := fun a => p <~ v_sub (DList idx) a ;; match a with (_, _, _, scale) => q_normal QE (fst x) (fst p) (scale_mat (scale - nq (length idx)) (snd p)) end) in H.
  - destruct H as (ws & ls & W1 & W2 & W3 & W4 & W5 & W6). assert (Ll : length l = length (vtheta (s_var s))) by (rewrite I, combine_length, map_length, seq_length; lia).
    exists ws, ls. split; [split; [lia|]; split; [exact W3|]; split; [exact W5|]|].
    + intros i Hi. rewrite (W6 i Hi), W2. assert (Z : nth i (repeat 0 (length (fst x))) 0 = 0) by apply nth_repeat. rewrite Z. ring.
    + split; [lia|]. intros j mu lam prec scale Hj. assert (Hl : (j < length l)%nat) by (rewrite Ll; apply nth_error_Some; congruence). destruct (W4 j Hl) as (za & E & D & W). rewrite I in E. apply iter_nth in E as [E1 E2]. rewrite E2 in Hj. injection Hj as Hj. rewrite Hj in D. rewrite E1 in W.
      unfold v_sub in D. destruct (sub_vec idx mu) as [m| |]; try discriminate D. simpl in D. destruct (sub_mat idx prec) as [p| |]; try discriminate D. simpl in D. exists m, p. split; [reflexivity|]. split; [reflexivity|]. split; [exact D|exact W].
  - intros [z a] r Hr. simpl in Hr. destruct (v_sub (DList idx) a) as [p| |] eqn:V; try discriminate Hr. simpl in Hr. destruct a as [[[mu lam] prec] scale]. destruct (q_normal QE _ _ _) as [d| |] eqn:N; try discriminate Hr. simpl in Hr.
    destruct (q_mode_w QE (s_var s) (s_wm s) z) as [q| |] eqn:W; try discriminate Hr. simpl in Hr. injection Hr as <-. exists d, q. cbn [fst snd]. rewrite V. simpl. split; [exact N|]. split; [exact W|]. split; [reflexivity|]. apply (PR _ _ _ _ N).
  - apply repeat_length.
Qed.
Lemma c53_eap_sum_proof : forall QE s y idx v x, (forall nu, per_row (fun x m p => q_student QE x m p nu)) -> cast_obs s y = Ok x -> var_eap_density QE s y (DList idx) None = Ok v ->
  exists ws ls, weighted_sum_of (length (fst x)) ws ls v /\ length ls = length (vtheta (s_var s)) /\
  forall j mu lam prec scale, nth_error (vtheta (s_var s)) j = Some (mu, lam, prec, scale) ->
    let df := scale + 1 - nq (length idx) in
    exists m p, sub_vec idx mu = Ok m /\ sub_mat idx prec = Ok p /\
      q_student QE (fst x) m (map (map (fun z => z * (df * lam / (1 + lam)))) p) df = Ok (nth j ls []) /\ q_mean_w QE (s_var s) (s_wm s) (Z.of_nat j) = Ok (nth j ws 0).
Proof.
  intros QE s y idx v x PR C H. unfold var_eap_density in H. destruct (negb (s_vfit s)); [discriminate|]. rewrite C in H. simpl in H. destruct (v_iter s None) as [l| |] eqn:I; try discriminate H. simpl in H. apply iter_all in I.
  apply v_sum_spec with (n := length (fst x)) (wt := q_mean_w QE (s_var s) (s_wm s)) (dens := fun a => p <~ v_sub (DList idx) a ;; match a with (_, lam, _, scale) => q_student QE (fst x) (fst p) (scale_mat ((scale + 1 - nq (length idx)) * lam / (1 + lam)) (snd p)) (scale + 1 - nq (length idx)) end) in H.
  - destruct H as (ws & ls & W1 & W2 & W3 & W4 & W5 & W6). assert (Ll : length l = length (vtheta (s_var s))) by (rewrite I, combine_length, map_length, seq_length; lia).
    exists ws, ls. split; [split; [lia|]; split; [exact W3|]; split; [exact W5|]|].
    + intros i Hi. rewrite (W6 i Hi), W2. assert (Z : nth i (repeat 0 (length (fst x))) 0 = 0) by apply nth_repeat. rewrite Z. ring.
    + split; [lia|]. intros j mu lam prec scale Hj. assert (Hl : (j < length l)%nat) by (rewrite Ll; apply nth_error_Some; congruence). destruct (W4 j Hl) as (za & E & D & W). rewrite I in E. apply iter_nth in E as [E1 E2]. rewrite E2 in Hj. injection Hj as Hj. rewrite Hj in D. rewrite E1 in W.
      unfold v_sub in D. destruct (sub_vec idx mu) as [m| |]; try discriminate D. simpl in D. destruct (sub_mat idx prec) as [p| |]; try discriminate D. simpl in D. exists m, p. split; [reflexivity|]. split; [reflexivity|]. split; [exact D|exact W].
  - intros [z a] r Hr. simpl in Hr. destruct (v_sub (DList idx) a) as [p| |] eqn:V; try discriminate Hr. simpl in Hr. destruct a as [[[mu lam] prec] scale]. destruct (q_student QE _ _ _ _) as [d| |] eqn:N; try discriminate Hr. simpl in Hr.
    destruct (q_mean_w QE (s_var s) (s_wm s) z) as [q| |] eqn:W; try discriminate Hr. simpl in Hr. injection Hr as <-. exists d, q. cbn [fst snd]. rewrite V. simpl. split; [exact N|]. split; [exact W|]. split; [reflexivity|]. apply (PR (scale + 1 - nq (length idx)) _ _ _ _ N).
  - apply repeat_length.
Qed.
Lemma c53_eap_default_proof : forall QE s y comp x, cast_obs s (Some y) = Ok (x, false) ->
  var_eap_density QE s (Some y) DNone comp = var_eap_density QE s (Some y) (DList (map Z.of_nat (seq 0 (match y with YFrame _ k | YList2 _ k | YArr2 _ k => k | _ => 1%nat end)))) comp.
Proof. intros QE s y comp x C. unfold var_eap_density. rewrite C. simpl. destruct y; reflexivity. Qed.
Lemma map_nth_lt {A B} (f : A -> B) l d e i : (i < length l)%nat -> nth i (map f l) d = f (nth i l e).
Proof. intros H. rewrite (nth_indep _ d (f e)) by (rewrite map_length; exact H). apply map_nth. Qed.
Lemma c53_block_proof : forall k idx mu lam prec sc, length mu = k -> square k prec -> Forall (fun i => (i < k)%nat) idx ->
  exists m p, v_sub (DList (map Z.of_nat idx)) (mu, lam, prec, sc) = Ok (m, p) /\ part_of idx mu m /\ block_of idx prec p.
Proof.
  intros k idx mu lam prec sc L [S1 S2] F. rewrite Forall_forall in F.
  assert (SV : forall x, length x = k -> sub_vec (map Z.of_nat idx) x = Ok (map (fun i => nth i x 0) idx)).
  { intros x Hx. unfold sub_vec. rewrite (rmap_all _ (fun z => nth (Z.to_nat z) x 0)).
    - rewrite map_map. f_equal. apply map_ext. intros. rewrite Nat2Z.id. reflexivity.
    - intros z Hz. apply in_map_iff in Hz as (i & <- & Hi). rewrite Nat2Z.id. apply py_nth_nat. rewrite Hx. apply F, Hi. }
  assert (SM : sub_mat (map Z.of_nat idx) prec = Ok (map (fun i => map (fun j => nth j (nth i prec []) 0) idx) idx)).
  { unfold sub_mat. rewrite (rmap_all _ (fun r => map (fun i => nth i r 0) idx)).
    - simpl. rewrite (rmap_all _ (fun z => map (fun j => nth j (nth (Z.to_nat z) prec []) 0) idx)).
      + rewrite map_map. f_equal. apply map_ext. intros. rewrite Nat2Z.id. reflexivity.
      + intros z Hz. apply in_map_iff in Hz as (i & <- & Hi). rewrite Nat2Z.id. etransitivity; [apply (py_nth_nat _ i []); rewrite map_length, S1; apply F, Hi|].
        f_equal. rewrite (map_nth_lt _ _ _ []) by (rewrite S1; apply F, Hi). reflexivity.
    - intros r Hr. apply SV. apply In_nth with (d := []) in Hr as (i & Hi & <-). apply S2. lia. }
  eexists _, _. unfold v_sub. rewrite (SV mu L). simpl. rewrite SM. simpl. split; [reflexivity|]. split.
  - split; [apply map_length|]. intros i Hi. unfold coord. rewrite (map_nth_lt _ _ _ 0%nat) by exact Hi. reflexivity.
  - split; [split; [apply map_length|]|]; intros i; [intros Hi|intros j Hi Hj]; unfold entry; rewrite (map_nth_lt _ _ _ 0%nat) by exact Hi; [apply map_length|].
    rewrite (map_nth_lt _ _ _ 0%nat) by exact Hj. reflexivity.
Qed.
