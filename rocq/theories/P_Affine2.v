From Coq Require Import Reals Lra Permutation.
From Verif Require Import Prelude Numpy Rng M_Weights M_Ext M_Var M_VarNum M_VarLoop S_VarNum S_Affine P_Affine.
Open Scope R_scope.
Notation sh k e := (ext_add e (EF k)).

Definition omap {A B} (f : A -> B) (x : outcome A) : outcome B := obind x (fun a => Fin (f a)).
Definition moveD (sg : list nat) (D : mat) : mat := Mat (map (reorder 0 sg) (rows D)) (cols D).
Definition moveW (sg : list nat) (w : vs) : vs := VS (option_map (moveD sg) (vd w)) (vk w) (vpar w) (vn w).
Definition moveS (a : R) (t : list R) (sg : list nat) (s : vfit) : vfit := VF (moveD sg (f_d s)) (moveW sg (f_w s)) (map (moved_atom a t) (f_theta s)).

Lemma moveS_fit a t sg s : moved_fit a t sg s (moveS a t sg s).
Proof.
  split; [split; reflexivity|]. split; [|reflexivity]. split; [reflexivity|]. split; [reflexivity|]. split; [reflexivity|].
  simpl. destruct (vd (f_w s)); [split; reflexivity|exact I].
Qed.
Lemma collect_omap {A B} (g : A -> B) l : collect (map (omap g) l) = omap (map g) (collect l).
Proof.
  induction l as [|x l IH]; [reflexivity|]. destruct x as [u|e|]; simpl; try reflexivity; rewrite IH; destruct (collect l); reflexivity.
Qed.
Lemma collect_len {A} (l : list (outcome A)) r : collect l = Fin r -> length r = length l.
Proof.
  revert r. induction l as [|x l IH]; intros r H; [injection H as <-; reflexivity|].
  destruct x; simpl in H; try discriminate; destruct (collect l); try discriminate. injection H as <-. simpl. f_equal. apply IH. reflexivity.
Qed.
Lemma collect_in {A} (l : list (outcome A)) r : collect l = Fin r -> forall x, In x l -> exists u, x = Fin u /\ In u r.
Proof.
  revert r. induction l as [|x l IH]; intros r H z Hz; [contradiction|].
  destruct x; simpl in H; try discriminate; destruct (collect l) as [q| |]; try discriminate. injection H as <-.
  destruct Hz as [<-|Hz]; [exists a; split; [reflexivity|left; reflexivity]|]. destruct (IH q eq_refl z Hz) as [u [E Hu]]. exists u. split; [exact E|right; exact Hu].
Qed.
Lemma collect_out {A} (l : list (outcome A)) r : collect l = Fin r -> forall u, In u r -> In (Fin u) l.
Proof.
  revert r. induction l as [|x l IH]; intros r H z Hz; [injection H as <-; contradiction|].
  destruct x; simpl in H; try discriminate; destruct (collect l) as [q| |]; try discriminate. injection H as <-.
  destruct Hz as [<-|Hz]; [left; reflexivity|right; apply (IH q); [reflexivity|exact Hz]].
Qed.

(* ---- the weight model sees the row sums only ---- *)
Definition dr (D D' : mat) : Prop := row_sums D' = row_sums D /\ cols D' = cols D.
Definition wr (w w' : vs) : Prop :=
  vk w' = vk w /\ vpar w' = vpar w /\ vn w' = vn w /\
  match vd w, vd w' with Some D, Some D' => dr D D' | None, None => True | _, _ => False end.
Lemma wr_refl w : wr w w.
Proof. repeat split. destruct (vd w); [split; reflexivity|exact I]. Qed.
Lemma dr_len D D' : dr D D' -> length (rows D') = length (rows D).
Proof. intros [H _]. rewrite <- (map_length rsum (rows D')), <- (map_length rsum (rows D)). f_equal. exact H. Qed.
Definition wide (n : nat) (D : mat) : Prop := Forall (fun r => length r = n) (rows D).
Lemma dr_move sg n D : Permutation sg (seq 0 n) -> wide n D -> dr D (moveD sg D).
Proof.
  intros P W. split; [|reflexivity]. unfold row_sums, moveD. simpl. rewrite map_map. apply map_ext_in. intros r Hr.
  apply rsum_reorder. unfold wide in W. rewrite Forall_forall in W. rewrite (W r Hr). exact P.
Qed.
Lemma wr_move sg n w : Permutation sg (seq 0 n) -> (forall D, vd w = Some D -> wide n D) -> wr w (moveW sg w).
Proof.
  intros P W. split; [reflexivity|]. split; [reflexivity|]. split; [reflexivity|]. unfold moveW. simpl. destruct (vd w) as [D|]; simpl; [|exact I].
  apply (dr_move sg n); [exact P|]. apply W. reflexivity.
Qed.

Lemma fit_var_move c sg n D w w' : Permutation sg (seq 0 n) -> wide n D -> wr w w' -> new_w c (moveD sg D) w' = omap (moveW sg) (new_w c D w).
Proof.
  intros P W (K & V & N & _). destruct (dr_move sg n D P W) as [S C].
  assert (L : length (rows (moveD sg D)) = length (rows D)) by (simpl; apply map_length).
  unfold new_w, fit_var. cbv zeta. rewrite S, C, L, V, N.
  destruct c; try reflexivity.
  - destruct (Z.of_nat (length (rows D)) =? n0)%Z; [|reflexivity]. destruct (radd2 (map Q2R alpha) (row_sums D)); reflexivity.
  - destruct D as [[|r rs] q]; reflexivity.
Qed.
Lemma log_rest_same dg w w' j : vpar w' = vpar w -> log_rest dg w' j = log_rest dg w j.
Proof. intro H. induction j as [|j IH]; [reflexivity|]. simpl. rewrite IH. unfold beta_at. rewrite H. reflexivity. Qed.
Lemma mlw_same dg c j w w' : wr w w' -> mean_log_w dg c j w' = mean_log_w dg c j w.
Proof.
  intros (K & V & N & HD). unfold mean_log_w. rewrite K, V, N, (log_rest_same dg w w' j V). unfold beta_at. rewrite V.
  destruct c; try reflexivity; destruct (vd w) as [D|], (vd w') as [D'|]; try contradiction; try reflexivity.
  destruct HD as [S C]. unfold mat_sum. rewrite S, C. reflexivity.
Qed.
Lemma weigh_ext f g j l acc : (forall i, f i = g i) -> weigh_logs f j l acc = weigh_logs g j l acc.
Proof. intro H. revert j acc. induction l as [|x l IH]; intros j acc; [reflexivity|]. simpl. rewrite H. destruct (g j); try reflexivity. apply IH. Qed.
Lemma pd_move dg c sg n D w : Permutation sg (seq 0 n) -> wide n D -> (forall B, vd w = Some B -> wide n B) ->
  mean_log_pd dg c (Some (moveD sg D)) (moveW sg w) = (fst (mean_log_pd dg c (Some D) w), moveW sg (snd (mean_log_pd dg c (Some D) w))).
Proof.
  intros P W WW. destruct (dr_move sg n D P W) as [S C]. pose proof (wr_move sg n w P WW) as Hw.
  unfold mean_log_pd. cbv zeta. rewrite S, C.
  destruct c; unfold fst, snd; try reflexivity.
  1, 2, 3: f_equal; apply weigh_ext; intro i; apply mlw_same; exact Hw.
  - change (vpar (moveW sg w)) with (vpar w). destruct (vpar w); try reflexivity. destruct D as [[|r rs] q]; reflexivity.
  - unfold mat_sum. rewrite S. reflexivity.
Qed.
Lemma p_move dg lg c sg w : mean_log_p dg lg c (moveW sg w) = mean_log_p dg lg c w.
Proof. unfold mean_log_p, moveW. simpl. destruct c, (vd w); reflexivity. Qed.

(* ---- weighted sums ---- *)
Lemma wsum_map vd f g y : wsum vd f (map g y) = wsum vd (fun x => f (g x)) y.
Proof.
  unfold wsum. f_equal. revert y. induction vd as [|v vd IH]; intros [|x y]; try reflexivity. simpl. f_equal. apply IH.
Qed.
Lemma wsum_ext vd f g y : (forall x, In x y -> f x = g x) -> wsum vd f y = wsum vd g y.
Proof.
  intro H. unfold wsum. apply rsum_ext. intros [r x] Hi. simpl. rewrite H; [reflexivity|]. eapply in_combine_r. exact Hi.
Qed.
Lemma wsum_mult vd f b y : wsum vd (fun x => b * f x) y = b * wsum vd f y.
Proof. unfold wsum. rewrite <- rsum_mult. apply rsum_ext. intros; lra. Qed.
Lemma wsum_plus vd f g y : wsum vd (fun x => f x + g x) y = wsum vd f y + wsum vd g y.
Proof. unfold wsum. rewrite <- rsum_add. apply rsum_ext. intros; lra. Qed.
Lemma wsum_const vd b y : length vd = length y -> wsum vd (fun _ => b) y = b * rsum vd.
Proof.
  unfold wsum. revert y. induction vd as [|v vd IH]; intros [|x y] H; try discriminate; [simpl; lra|]. simpl. rewrite IH by (simpl in H; lia). lra.
Qed.
Lemma rsum_share vd : rsum vd <> 0 -> rsum (map (fun r => r / rsum vd) vd) = 1.
Proof.
  intro H. rewrite (rsum_ext _ (fun r => / rsum vd * r)) by (intros; unfold Rdiv; lra).
  change (map (fun r => / rsum vd * r) vd) with (map (Rmult (/ rsum vd)) vd). rewrite rsum_scale. field. exact H.
Qed.

(* the inverse of (a^2 m) is (inverse of m) / a^2 *)
Definition inversion_scales (d : nat) (a : R) (inv : list (list R) -> option (list (list R))) : Prop :=
  (forall m, square_mat d m -> inv (scaled (a * a) m) = option_map (scaled (/ (a * a))) (inv m)) /\
  (forall m p, square_mat d m -> inv m = Some p -> length p = d).
Lemma square_scaled d b m : square_mat d m -> square_mat d (scaled b m).
Proof.
  intros [H1 H2]. split; [rewrite scaled_len; exact H1|]. unfold scaled. rewrite Forall_forall in *. intros r Hr. apply in_map_iff in Hr. destruct Hr as [r0 [<- Hr]].
  rewrite map_length. apply H2. exact Hr.
Qed.
Lemma scaled_scaled b e m : b * e = 1 -> scaled b (scaled e m) = m.
Proof.
  intro H. unfold scaled. rewrite map_map. rewrite <- (map_id m) at 2. apply map_ext. intro r. rewrite map_map. rewrite <- (map_id r) at 2. apply map_ext. intro x.
  rewrite <- Rmult_assoc, H. lra.
Qed.
Lemma product_scaled k b e m p : b * e = 1 -> product_is_one k m p -> product_is_one k (scaled b m) (scaled e p).
Proof.
  intros H Q i j Li Lj. rewrite <- (Q i j Li Lj). apply rsum_ext. intros l _.
  change (mentry (scaled b m) i l * mentry (scaled e p) l j = mentry m i l * mentry p l j). rewrite !mentry_scaled.
  transitivity (b * e * (mentry m i l * mentry p l j)); [ring|rewrite H; ring].
Qed.
Lemma inverts_scales d a inv : a <> 0 -> inverts d inv -> inversion_scales d a inv.
Proof.
  intros Ha H. pose proof (aa_pos a Ha) as P. assert (B : a * a * / (a * a) = 1) by (field; exact Ha). assert (B2 : / (a * a) * (a * a) = 1) by (field; exact Ha). split.
  - intros m Sm. destruct (inv m) as [p|] eqn:E; simpl.
    + apply (H m p Sm) in E. destruct E as (S1 & P1 & P2). apply H; [apply square_scaled; exact Sm|]. split; [apply square_scaled; exact S1|].
      split; apply product_scaled; assumption.
    + destruct (inv (scaled (a * a) m)) as [q|] eqn:F; [|reflexivity]. apply H in F; [|apply square_scaled; exact Sm]. destruct F as (S1 & P1 & P2).
      assert (inv m = Some (scaled (a * a) q)) as X; [|rewrite E in X; discriminate].
      apply H; [exact Sm|]. split; [apply square_scaled; exact S1|]. rewrite <- (scaled_scaled (/ (a * a)) (a * a) m B2). split; apply product_scaled; assumption.
  - intros m p Sm E. apply (H m p Sm) in E. apply E.
Qed.
Lemma square_theta d y h vd : length (p_mu h) = d -> square_mat d (theta_matrix y h vd).
Proof.
  intro H. unfold theta_matrix. rewrite H. cbv zeta. split; [rewrite map_length; apply seq_length|]. rewrite Forall_forall. intros r Hr. apply in_map_iff in Hr. destruct Hr as [i [<- _]].
  rewrite map_length. apply seq_length.
Qed.

Section B.
Variables (dg lg : R -> R) (eps ovf : R) (inv : list (list R) -> option (list (list R))) (c : cls).
Variables (a : R) (t : list R) (sg : list nat) (d : nat) (y : list (list R)) (h : vprior).
Hypothesis Ha : a <> 0.
Hypothesis Hp : Permutation sg (seq 0 (length y)).
Hypothesis Hy : data_shape d y.
Hypothesis Ht : length t = d.
Hypothesis Hm : length (p_mu h) = d.
Hypothesis Hpsi : square_mat d (p_psi h).
Hypothesis Hi : inversion_scales d a inv.
Notation y' := (moved_data a t sg y).
Notation h' := (moved_prior a t h).
Notation n := (length y).

Lemma y_len x : In x y -> length x = length t.
Proof. intro Hx. unfold data_shape in Hy. rewrite Forall_forall in Hy. rewrite Ht. apply Hy; exact Hx. Qed.
Lemma sg_map {A B} (z : A) (z' : B) (f : A -> B) l : length l = n -> reorder z' sg (map f l) = map f (reorder z sg l).
Proof. intro L. apply reorder_map. intros i Hi'. rewrite L. eapply perm_lt; [exact Hp|exact Hi']. Qed.

Lemma wsum_moved vd f g : length vd = n -> (forall x, In x y -> f (moved a t x) = g x) -> wsum (reorder 0 sg vd) f y' = wsum vd g y.
Proof.
  intros L H. unfold moved_data. rewrite wsum_reorder; [|rewrite map_length; exact L|rewrite map_length; exact Hp]. rewrite wsum_map. apply wsum_ext. exact H.
Qed.
Lemma share_moved vd : length vd = n -> map (fun r => r / rsum (reorder 0 sg vd)) (reorder 0 sg vd) = reorder 0 sg (map (fun r => r / rsum vd) vd).
Proof.
  intro L. rewrite rsum_reorder by (rewrite L; exact Hp). symmetry. apply reorder_map0. unfold Rdiv. lra.
Qed.
Lemma xbar_moved vd i : length vd = n -> rsum vd <> 0 -> xbar (reorder 0 sg vd) y' i = a * xbar vd y i + nth i t 0.
Proof.
  intros L N. unfold xbar. rewrite share_moved by exact L.
  rewrite (wsum_moved _ _ (fun x => a * nth i x 0 + nth i t 0)) by (try (rewrite map_length; exact L); intros x Hx; apply moved_nth, y_len; exact Hx).
  rewrite wsum_plus, wsum_mult, wsum_const by (rewrite map_length; exact L). rewrite rsum_share by exact N. lra.
Qed.
Lemma s_mat_moved vd i j : length vd = n -> rsum vd <> 0 -> s_mat (reorder 0 sg vd) y' i j = a * a * s_mat vd y i j.
Proof.
  intros L N. unfold s_mat. rewrite share_moved by exact L. rewrite <- wsum_mult. apply wsum_moved; [rewrite map_length; exact L|].
  intros x Hx. rewrite !xbar_moved by assumption. rewrite !moved_nth by (apply y_len; exact Hx). lra.
Qed.
Lemma hm_nth i : nth i (p_mu h') 0 = a * nth i (p_mu h) 0 + nth i t 0.
Proof. simpl. apply moved_nth. rewrite Hm, Ht. reflexivity. Qed.
Lemma hm_len : length (p_mu h') = length (p_mu h).
Proof. simpl. apply moved_len. rewrite Hm, Ht. reflexivity. Qed.
Lemma matrix_moved vd : length vd = n -> rsum vd <> 0 -> theta_matrix y' h' (reorder 0 sg vd) = scaled (a * a) (theta_matrix y h vd).
Proof.
  intros L N. unfold theta_matrix. rewrite hm_len. cbv zeta. rewrite rsum_reorder by (rewrite L; exact Hp). unfold scaled at 1. rewrite map_map.
  apply map_ext. intro i. rewrite map_map. apply map_ext. intro j.
  simpl p_psi. rewrite mentry_scaled. simpl p_lam.
  rewrite (wsum_moved vd _ (fun x => a * a * ((nth i x 0 - xbar vd y i) * (nth j x 0 - xbar vd y j)))); [|exact L|].
  2:{ intros x Hx. rewrite !xbar_moved by assumption. rewrite !moved_nth by (apply y_len; exact Hx). lra. }
  rewrite wsum_mult.
  rewrite (rsum_ext _ (fun l => a * a * (p_lam h * rsum vd / (p_lam h + rsum vd) * (xbar vd y l - nth l (p_mu h) 0) * (xbar vd y l - nth l (p_mu h) 0)))).
  2:{ intros l _. rewrite xbar_moved by assumption. change (moved a t (p_mu h)) with (p_mu h'). rewrite hm_nth. unfold Rdiv. ring. }
  rewrite rsum_mult. unfold Rdiv. ring.
Qed.
Lemma moved_tab g : moved a t (map g (seq 0 d)) = map (fun i => a * g i + nth i t 0) (seq 0 d).
Proof.
  apply (nth_ext _ _ 0 0).
  - rewrite moved_len by (rewrite map_length, seq_length, Ht; reflexivity). rewrite !map_length. reflexivity.
  - intros i H. rewrite moved_len in H by (rewrite map_length, seq_length, Ht; reflexivity). rewrite map_length, seq_length in H.
    rewrite moved_nth by (rewrite map_length, seq_length, Ht; reflexivity).
    assert (T : forall f : nat -> R, nth i (map f (seq 0 d)) 0 = f i).
    { intro f. rewrite (nth_indep _ 0 (f 0%nat)) by (rewrite map_length, seq_length; exact H). rewrite map_nth, seq_nth by exact H. reflexivity. }
    rewrite !T. reflexivity.
Qed.
Lemma row_moved vd : length vd = n -> theta_row inv y' h' (reorder 0 sg vd) = omap (moved_atom a t) (theta_row inv y h vd).
Proof.
  intro L. unfold theta_row. rewrite hm_len. cbv zeta. rewrite rsum_reorder by (rewrite L; exact Hp). simpl p_lam. simpl p_nu.
  destruct (reqb (rsum vd) 0) eqn:E0; [reflexivity|]. destruct (reqb (p_lam h + rsum vd) 0) eqn:E1; [reflexivity|]. simpl.
  assert (N : rsum vd <> 0) by (unfold reqb in E0; destruct (Req_EM_T (rsum vd) 0); [discriminate|assumption]).
  assert (N1 : p_lam h + rsum vd <> 0) by (unfold reqb in E1; destruct (Req_EM_T (p_lam h + rsum vd) 0); [discriminate|assumption]).
  rewrite matrix_moved by assumption. destruct Hi as [I1 _]. rewrite I1 by (apply square_theta; exact Hm). destruct (inv (theta_matrix y h vd)) as [p|]; [|reflexivity].
  simpl. unfold moved_atom. simpl. do 2 f_equal. rewrite Hm, moved_tab. apply map_ext. intro i.
  change (moved a t (p_mu h)) with (p_mu h'). rewrite hm_nth, xbar_moved by assumption. field. exact N1.
Qed.
Lemma theta_moved D : wide n D -> new_theta inv y' h' (moveD sg D) = omap (map (moved_atom a t)) (new_theta inv y h D).
Proof.
  intro W. unfold new_theta. rewrite <- collect_omap. f_equal. simpl. rewrite !map_map. apply map_ext_in. intros vd Hv.
  apply row_moved. unfold wide in W. rewrite Forall_forall in W. apply W. exact Hv.
Qed.

(* responsibilities *)
Lemma finite_cols_in cs r : finite_cols cs = Some r -> length r = length cs /\ forall i, (i < length cs)%nat -> finite (nth i cs []) = Some (nth i r []).
Proof.
  revert r. induction cs as [|x cs IH]; intros r H; simpl in H.
  - injection H as <-. split; [reflexivity|]. intros i Hl. simpl in Hl. lia.
  - destruct (finite x) eqn:F; [|discriminate]. destruct (finite_cols cs) as [q|] eqn:G; [|discriminate]. injection H as <-.
    destruct (IH q eq_refl) as [L N]. split; [simpl; rewrite L; reflexivity|]. intros [|i] Hl; [exact F|]. simpl. apply N. simpl in Hl. lia.
Qed.
Lemma finite_cols_none cs : finite_cols cs = None -> exists x, In x cs /\ finite x = None.
Proof.
  induction cs as [|x cs IH]; intro H; simpl in H; [discriminate|]. destruct (finite x) eqn:F.
  - destruct (finite_cols cs); [discriminate|]. destruct (IH eq_refl) as [z [Z1 Z2]]. exists z. split; [right; exact Z1|exact Z2].
  - exists x. split; [left; reflexivity|exact F].
Qed.
Lemma finite_cols_all cs : (forall x, In x cs -> finite x <> None) -> exists r, finite_cols cs = Some r.
Proof.
  intro H. destruct (finite_cols cs) as [r|] eqn:E; [exists r; reflexivity|]. destruct (finite_cols_none cs E) as [x [X1 X2]]. exfalso. apply (H x X1 X2).
Qed.
Lemma finite_cols_reorder cs : length cs = n -> finite_cols (reorder [] sg cs) = option_map (reorder [] sg) (finite_cols cs).
Proof.
  intro L. assert (Pm : Permutation (reorder [] sg cs) cs) by (apply reorder_perm; rewrite L; exact Hp).
  destruct (finite_cols cs) as [r|] eqn:E.
  - destruct (finite_cols_in cs r E) as [L1 N]. unfold reorder. simpl.
    assert (B : forall i, In i sg -> (i < length cs)%nat) by (intros i Hs; rewrite L; eapply perm_lt; [exact Hp|exact Hs]).
    clear Pm. revert B. generalize sg. intro q. induction q as [|i q IH]; intro B; [reflexivity|]. simpl. rewrite (N i) by (apply B; left; reflexivity).
    rewrite IH by (intros; apply B; right; assumption). reflexivity.
  - destruct (finite_cols_none cs E) as [x [X1 X2]]. destruct (finite_cols (reorder [] sg cs)) as [q|] eqn:F; [exfalso|reflexivity].
    apply (Permutation_in _ (Permutation_sym Pm)) in X1. destruct (In_nth _ _ [] X1) as [i [Hl Hx]].
    destruct (finite_cols_in _ _ F) as [_ N]. specialize (N i Hl). rewrite Hx, X2 in N. discriminate.
Qed.
Lemma update_moved mlw theta : Forall (fun r => length (ra_mu r) = d) theta ->
  update_d dg eps ovf mlw (map (moved_atom a t) theta) y' = reorder [] sg (update_d dg eps ovf mlw theta y).
Proof.
  intro W. unfold update_d, moved_data. rewrite sg_map with (z := []) by reflexivity.
  rewrite sg_map with (z := []) by reflexivity. rewrite map_map. apply map_ext_in. intros x Hx.
  assert (Hx' : In x y). { eapply Permutation_in; [apply reorder_perm; exact Hp|exact Hx]. }
  symmetry. rewrite <- (resp_col_sh eps ovf (- ln (a * a) / 2)). symmetry. f_equal. rewrite map_map.
  clear Hx. revert mlw. induction theta as [|r theta IH]; intros [|m mlw]; try reflexivity. simpl.
  pose proof (Forall_inv W) as W1. pose proof (Forall_inv_tail W) as W2.
  f_equal; [|apply IH; exact W2]. apply score_moved; [exact Ha|apply y_len; exact Hx'|simpl in W1; rewrite W1, Ht; reflexivity].
Qed.
Lemma update_len mlw theta : length (update_d dg eps ovf mlw theta y) = n.
Proof. apply map_length. Qed.
Lemma of_cols_reorder k cs : length cs = n -> of_cols k (reorder [] sg cs) = moveD sg (of_cols k cs).
Proof.
  intro L. unfold of_cols, moveD. simpl. f_equal.
  - rewrite map_map. apply map_ext. intro j. symmetry. apply reorder_map0. destruct j; reflexivity.
  - rewrite reorder_len, L. rewrite <- (seq_length n 0). apply Permutation_length. exact Hp.
Qed.
Lemma of_cols_wide k cs : length cs = n -> wide n (of_cols k cs).
Proof. intro L. unfold wide, of_cols. simpl. rewrite Forall_forall. intros r Hr. apply in_map_iff in Hr. destruct Hr as [j [<- _]]. rewrite map_length. exact L. Qed.
Lemma d_moved w w' theta : wr w w' -> Forall (fun r => length (ra_mu r) = d) theta ->
  new_d dg eps ovf c y' w' (map (moved_atom a t) theta) = omap (moveD sg) (new_d dg eps ovf c y w theta).
Proof.
  intros Hw W. unfold new_d. rewrite map_length.
  rewrite (map_ext _ (fun j => of_result (mean_log_w dg c j w))) by (intro j; rewrite (mlw_same dg c j w w' Hw); reflexivity).
  destruct (collect (map (fun j => of_result (mean_log_w dg c j w)) (seq 0 (length theta)))) as [mlw| |]; try reflexivity. simpl.
  rewrite update_moved by exact W. rewrite finite_cols_reorder by apply update_len.
  destruct (finite_cols (update_d dg eps ovf mlw theta y)) as [cs|] eqn:E; [|reflexivity]. simpl.
  rewrite of_cols_reorder; [reflexivity|]. destruct (finite_cols_in _ _ E) as [L _]. rewrite L. apply update_len.
Qed.
Lemma new_d_wide w theta D : new_d dg eps ovf c y w theta = Fin D -> wide n D /\ length (rows D) = length theta.
Proof.
  unfold new_d. destruct (collect _) as [mlw| |]; try discriminate. simpl. destruct (finite_cols _) as [cs|] eqn:E; [|discriminate]. intro H. injection H as <-.
  destruct (finite_cols_in _ _ E) as [L _]. split; [apply of_cols_wide; rewrite L; apply update_len|]. simpl. rewrite map_length, seq_length. reflexivity.
Qed.
Lemma new_w_vd D w w1 : new_w c D w = Fin w1 -> vd w1 = Some D.
Proof.
  unfold new_w, fit_var. cbv zeta. destruct c; simpl; try (intro H; injection H as <-; reflexivity); try discriminate.
  - destruct (Z.of_nat (length (rows D)) =? _)%Z; [|discriminate]. destruct (radd2 (map Q2R alpha) (row_sums D)); [|discriminate]. intro H. injection H as <-. reflexivity.
  - destruct (rows D); intro H; [discriminate|]. injection H as <-. reflexivity.
Qed.
Lemma new_theta_ok D th : new_theta inv y h D = Fin th ->
  length th = length (rows D) /\ Forall (fun r => length (ra_mu r) = d /\ length (ra_prec r) = d) th /\ Forall (fun v => rsum v <> 0) (rows D).
Proof.
  intro H. unfold new_theta in H. split; [rewrite (collect_len _ _ H); apply map_length|]. split.
  - rewrite Forall_forall. intros r Hr. apply (collect_out _ _ H) in Hr. apply in_map_iff in Hr. destruct Hr as [v [E _]]. unfold theta_row in E. cbv zeta in E.
    destruct (reqb (rsum v) 0 || reqb (p_lam h + rsum v) 0); [discriminate|]. destruct (inv (theta_matrix y h v)) as [p|] eqn:I; [|discriminate]. injection E as <-. simpl.
    split; [rewrite map_length, seq_length; exact Hm|]. destruct Hi as [_ I2]. apply (I2 _ _ (square_theta d y h v Hm) I).
  - rewrite Forall_forall. intros v Hv. destruct (collect_in _ _ H (theta_row inv y h v)) as [u [E _]]; [apply in_map; exact Hv|]. unfold theta_row in E. cbv zeta in E.
    destruct (reqb (rsum v) 0) eqn:Z; [discriminate|]. unfold reqb in Z. destruct (Req_EM_T (rsum v) 0); [discriminate|assumption].
Qed.

(* states that occur *)
Definition good (s : vfit) : Prop :=
  wide n (f_d s) /\ (forall D, vd (f_w s) = Some D -> wide n D) /\ Forall (fun r => length (ra_mu r) = d) (f_theta s) /\ length (rows (f_d s)) = length (f_theta s).
Definition full (s : vfit) : Prop :=
  good s /\ Forall (fun r => length (ra_prec r) = d) (f_theta s) /\ Forall (fun v => rsum v <> 0) (rows (f_d s)).
Lemma maximize_moved s : good s -> maximize dg eps ovf inv c y' h' (moveS a t sg s) = omap (moveS a t sg) (maximize dg eps ovf inv c y h s).
Proof.
  intros (G1 & G2 & G3 & G4). unfold maximize. simpl f_w. simpl f_theta. pose proof (wr_move sg n (f_w s) Hp G2) as Hw.
  rewrite (d_moved _ _ _ Hw G3). destruct (new_d dg eps ovf c y (f_w s) (f_theta s)) as [D| |] eqn:E; try reflexivity. simpl.
  destruct (new_d_wide _ _ _ E) as [W _]. rewrite (fit_var_move c sg n D _ _ Hp W Hw). destruct (new_w c D (f_w s)) as [w| |]; try reflexivity. simpl.
  rewrite theta_moved by exact W. destruct (new_theta inv y h D); reflexivity.
Qed.
Lemma maximize_full s s1 : maximize dg eps ovf inv c y h s = Fin s1 -> full s1 /\ length (f_theta s1) = length (f_theta s).
Proof.
  unfold maximize. destruct (new_d dg eps ovf c y (f_w s) (f_theta s)) as [D| |] eqn:E; try discriminate. simpl.
  destruct (new_w c D (f_w s)) as [w| |] eqn:E2; try discriminate. simpl. destruct (new_theta inv y h D) as [th| |] eqn:E3; try discriminate. intro H. injection H as <-.
  destruct (new_d_wide _ _ _ E) as [W L]. destruct (new_theta_ok _ _ E3) as (T1 & T2 & T3). pose proof (new_w_vd _ _ _ E2) as V. simpl.
  split; [|rewrite T1, L; reflexivity]. split.
  - split; [exact W|]. split; [simpl; intros B HB; rewrite V in HB; injection HB as <-; exact W|]. split; [|simpl; congruence].
    simpl. eapply Forall_impl; [|exact T2]. intros r Hr. apply Hr.
  - split; [|exact T3]. simpl. eapply Forall_impl; [|exact T2]. intros r Hr. apply Hr.
Qed.

(* the lower bound *)
Notation L := (ln (a * a)).
Notation ma := (moved_atom a t).
Lemma lwn_moved p sc : log_wishart_norm lg (scaled (/ (a * a)) p) sc = sh (sc / 2 * L) (log_wishart_norm lg p sc).
Proof.
  unfold log_wishart_norm. rewrite (log_frob a Ha), sh_scale, scaled_len, sh_fin. apply sh_eq. lra.
Qed.
Lemma entropy_moved p sc : length p = d -> entropy_wishart dg lg (scaled (/ (a * a)) p) sc = sh (- ((INR d + 1) / 2) * L) (entropy_wishart dg lg p sc).
Proof.
  intro Lp. unfold entropy_wishart. rewrite lwn_moved, (elnw dg a Ha), sh_opp, sh_scale, scaled_len, sh_add, sh_fin, Lp. apply sh_eq. lra.
Qed.
Lemma trace_moved f g p : (forall i j, g i j = a * a * f i j) -> trace_prod d g (scaled (/ (a * a)) p) = trace_prod d f p.
Proof.
  intro H. pose proof (aa_pos a Ha) as P. unfold trace_prod. apply rsum_ext. intros i _. apply rsum_ext. intros j _. rewrite H, mentry_scaled. field. lra.
Qed.
Lemma ma_nth r i : length (ra_mu r) = d -> nth i (ra_mu (ma r)) 0 = a * nth i (ra_mu r) 0 + nth i t 0.
Proof. intro H. simpl. apply moved_nth. rewrite H, Ht. reflexivity. Qed.
Lemma px_moved vd r : length vd = n -> rsum vd <> 0 -> length (ra_mu r) = d ->
  px_term dg d y' (reorder 0 sg vd, ma r) = sh (- L) (px_term dg d y (vd, r)).
Proof.
  intros Lv N Lm. unfold px_term. simpl ra_prec. simpl ra_scale. simpl ra_lam. rewrite (elnw dg a Ha), sh_fin.
  rewrite (trace_moved (s_mat vd y)) by (intros; apply s_mat_moved; assumption).
  rewrite (qform_scaled a Ha _ (fun i => xbar vd y i - nth i (ra_mu r) 0)); [reflexivity|].
  intro i. rewrite xbar_moved by assumption. rewrite ma_nth by exact Lm. lra.
Qed.
Lemma combine_map2 {A B A' B'} (f : A -> A') (g : B -> B') l l' : combine (map f l) (map g l') = map (fun p => (f (fst p), g (snd p))) (combine l l').
Proof. revert l'. induction l as [|x l IH]; intros [|z l']; try reflexivity. simpl. f_equal. apply IH. Qed.
Definition el_ok (D : list (list R)) (th : list ratom) : Prop :=
  length D = length th /\ Forall (fun v => length v = n /\ rsum v <> 0) D /\ Forall (fun r => length (ra_mu r) = d /\ length (ra_prec r) = d) th.
Lemma eqpx_moved D th k : el_ok D th -> length th = k ->
  e_q_log_p_x dg d y' (map (reorder 0 sg) D) (map ma th) k = sh (- (INR k * L / 2)) (e_q_log_p_x dg d y D th k).
Proof.
  intros (E1 & E2 & E3) Ek. unfold e_q_log_p_x. rewrite combine_map2, map_map. rewrite Forall_forall in E2, E3.
  rewrite (sh_sum (px_term dg d y) _ (- L)).
  - rewrite combine_length, E1, Nat.min_id, Ek, sh_fin, sh_scale. apply sh_eq. lra.
  - intros [v r] Hvr. simpl fst. simpl snd. pose proof (in_combine_l _ _ _ _ Hvr) as H1. pose proof (in_combine_r _ _ _ _ Hvr) as H2.
    destruct (E2 _ H1). destruct (E3 _ H2). apply px_moved; assumption.
Qed.
Notation rp pi := (RP (p_mu h) (p_lam h) (p_psi h) pi (p_nu h)).
Notation rp' pi := (RP (p_mu h') (p_lam h') (p_psi h') pi (p_nu h')).
Lemma ptheta_moved pi pi2 r : length (ra_mu r) = d -> ptheta_term dg d (rp' pi2) (ma r) = sh (- ((p_nu h - INR d) * L)) (ptheta_term dg d (rp pi) r).
Proof.
  intro Lm. unfold ptheta_term. simpl rp_nu. simpl rp_lam. simpl rp_psi. simpl ra_prec. simpl ra_scale. simpl ra_lam. rewrite (elnw dg a Ha), sh_scale, sh_fin.
  rewrite (trace_moved (mentry (p_psi h))) by (intros; apply mentry_scaled).
  rewrite (qform_scaled a Ha _ (fun i => nth i (ra_mu r) 0 - nth i (rp_mu (rp pi)) 0)).
  - apply sh_eq. lra.
  - intro i. change (moved a t (ra_mu r)) with (ra_mu (ma r)). rewrite ma_nth by exact Lm. change (rp_mu (rp' pi2)) with (p_mu h'). rewrite hm_nth. simpl rp_mu. lra.
Qed.
Lemma eptheta_moved pi D th k : el_ok D th -> length th = k ->
  e_log_p_theta dg lg d (rp' (scaled (/ (a * a)) pi)) (map ma th) k = sh (INR k * INR d / 2 * L) (e_log_p_theta dg lg d (rp pi) th k).
Proof.
  intros (_ & _ & E3) Ek. unfold e_log_p_theta. rewrite map_map. rewrite Forall_forall in E3.
  rewrite (sh_sum (ptheta_term dg d (rp pi)) _ (- ((p_nu h - INR d) * L))) by (intros r Hr; apply ptheta_moved, E3; exact Hr).
  simpl rp_lam. simpl rp_nu. simpl rp_inv. rewrite lwn_moved, sh_fin, (sh_scale (1 / 2)), (sh_scale (INR k)), sh_add, Ek. apply sh_eq. lra.
Qed.
Lemma qtheta_moved r : length (ra_prec r) = d -> qtheta_term dg lg d (ma r) = sh ((INR d - 1) / 2 * L) (qtheta_term dg lg d r).
Proof.
  intro Lp. unfold qtheta_term. simpl ra_prec. simpl ra_scale. simpl ra_lam. rewrite (elnw dg a Ha), entropy_moved by exact Lp. rewrite sh_fin, sh_opp, sh_add. apply sh_eq. lra.
Qed.
Lemma eqtheta_moved D th k : el_ok D th -> length th = k -> e_log_q_theta dg lg d (map ma th) k = sh (INR k * (INR d - 1) / 4 * L) (e_log_q_theta dg lg d th k).
Proof.
  intros (_ & _ & E3) Ek. unfold e_log_q_theta. rewrite map_map. rewrite Forall_forall in E3.
  rewrite (sh_sum (qtheta_term dg lg d) _ ((INR d - 1) / 2 * L)) by (intros r Hr; apply qtheta_moved, E3; exact Hr).
  rewrite sh_fin, sh_scale, Ek. apply sh_eq. lra.
Qed.
Lemma qd_moved D : Forall (fun v => length v = n) D -> e_log_q_d (map (reorder 0 sg) D) = e_log_q_d D.
Proof.
  intro W. rewrite Forall_forall in W. unfold e_log_q_d. f_equal. rewrite map_map. apply rsum_ext. intros v Hv.
  apply rsum_perm, Permutation_map, reorder_perm. rewrite (W v Hv). exact Hp.
Qed.
Lemma sh_chain z px pdw pw pt q p2 qt x v u :
  ext_add (ext_add (ext_add (ext_add (ext_add (ext_add (ext_add z (sh x px)) pdw) pw) (sh v pt)) q) p2) (ext_opp (sh u qt))
  = sh (x + v - u) (ext_add (ext_add (ext_add (ext_add (ext_add (ext_add (ext_add z px) pdw) pw) pt) q) p2) (ext_opp qt)).
Proof.
  rewrite (sh_r z px x), (sh_l _ pdw x), (sh_l _ pw x), (sh_add _ pt x v), (sh_l _ q (x + v)), (sh_l _ p2 (x + v)), (sh_opp qt u), sh_add. apply sh_eq. lra.
Qed.
Lemma calc_moved pi D th k pdw pw : el_ok D th -> length th = k ->
  calc_elbo dg lg d y' (map (reorder 0 sg) D) (map ma th) k (rp' (scaled (/ (a * a)) pi)) pdw pw pw
  = sh (bound_change k d a) (calc_elbo dg lg d y D th k (rp pi) pdw pw pw).
Proof.
  intros E Ek. unfold calc_elbo, e_loq_q_w. cbv zeta.
  rewrite (eqpx_moved D th k E Ek), (eptheta_moved pi D th k E Ek), (eqtheta_moved D th k E Ek).
  rewrite qd_moved by (eapply Forall_impl; [|apply E]; intros v Hv; apply Hv).
  rewrite sh_chain. apply sh_eq. unfold bound_change. lra.
Qed.
Lemma elbo_moved s k : full s -> length (f_theta s) = k ->
  elbo_of dg lg inv c d y' h' (moveS a t sg s) = omap (fun ew => (sh (bound_change k d a) (fst ew), moveW sg (snd ew))) (elbo_of dg lg inv c d y h s).
Proof.
  intros ((G1 & G2 & G3 & G4) & F2 & F3) Ek. unfold elbo_of. simpl f_d. simpl f_w. simpl f_theta. rewrite (pd_move dg c sg n _ _ Hp G1 G2).
  destruct (mean_log_pd dg c (Some (f_d s)) (f_w s)) as [[pdw|e|] w]; simpl; try reflexivity. rewrite p_move.
  destruct (mean_log_p dg lg c w) as [pw|e|]; simpl; try reflexivity. destruct Hi as [I1 I2]. rewrite I1 by exact Hpsi. destruct (inv (p_psi h)) as [pi|]; simpl; [|reflexivity].
  do 2 f_equal. rewrite map_length.
  assert (E : el_ok (rows (f_d s)) (f_theta s)).
  { unfold wide in G1. rewrite Forall_forall in *. split; [exact G4|]. split; rewrite Forall_forall; intros z Hz; split; auto. }
  change (moved a t (p_mu h)) with (p_mu h'). change (scaled (a * a) (p_psi h)) with (p_psi h').
  assert (Ek2 : length (f_theta s) = length (rows (f_d s))) by congruence.
  pose proof (calc_moved pi _ _ _ pdw pw E Ek2) as Q. simpl p_lam in Q. simpl p_nu in Q. rewrite <- G4 in Ek. rewrite Ek in *. exact Q.
Qed.
Lemma elbo_state s ew : full s -> elbo_of dg lg inv c d y h s = Fin ew -> full (VF (f_d s) (snd ew) (f_theta s)).
Proof.
  intros ((G1 & G2 & G3 & G4) & F2 & F3) H. split; [|split; assumption]. split; [exact G1|]. split; [|split; assumption]. simpl.
  unfold elbo_of in H. destruct (mean_log_pd dg c (Some (f_d s)) (f_w s)) as [[pdw|e|] w] eqn:E; try discriminate.
  destruct (mean_log_p dg lg c w); try discriminate. simpl in H. destruct (inv (p_psi h)); [|discriminate]. injection H as <-. simpl.
  unfold mean_log_pd in E. cbv zeta in E. destruct c; try discriminate; try (injection E as E1 E2; subst w; exact G2).
  - destruct (vpar (f_w s)); try discriminate. destruct (rows (f_d s)); try discriminate. injection E as E1 <-. auto.
  - injection E as E1 E2. subst w. intros B HB. simpl in HB. injection HB as <-. exact G1.
Qed.
Lemma abs_sh k e e1 : ext_add (sh k e) (ext_opp (sh k e1)) = ext_add e (ext_opp e1).
Proof. rewrite sh_opp, sh_add. replace (k + - k) with 0 by lra. apply sh_0. Qed.
Lemma loop_moved tol k m : forall it el df s, good s -> length (f_theta s) = k ->
  same_outcome a t sg (bound_change k d a) (loop dg lg eps ovf inv c d y h tol m it el df s)
    (loop dg lg eps ovf inv c d y' h' tol m it (sh (bound_change k d a) el) df (moveS a t sg s)).
Proof.
  induction m as [|m IH]; intros it el df s G Ek; cbn [loop].
  - split; [apply moveS_fit|]. split; reflexivity.
  - destruct (ext_ltb (EF tol) df); [|split; [apply moveS_fit|split; reflexivity]].
    rewrite maximize_moved by exact G. destruct (maximize dg eps ovf inv c y h s) as [s1| |] eqn:E; simpl; try reflexivity; try exact I.
    destruct (maximize_full _ _ E) as [F Ek1]. rewrite (elbo_moved s1 k F) by congruence.
    destruct (elbo_of dg lg inv c d y h s1) as [ew| |] eqn:E2; simpl; try reflexivity; try exact I.
    rewrite abs_sh. apply (IH (S it) (fst ew) _ (VF (f_d s1) (snd ew) (f_theta s1))); [|simpl; congruence].
    apply (elbo_state s1 ew F E2).
Qed.

(* starting values *)
Lemma hot_moved k l : length l = n -> hot k (reorder 0%nat sg l) = moveD sg (hot k l).
Proof.
  intro Ll. unfold hot, moveD. simpl. f_equal.
  - rewrite map_map. apply map_ext. intro j. symmetry. apply sg_map. exact Ll.
  - rewrite reorder_len, Ll. rewrite <- (seq_length n 0). apply Permutation_length. exact Hp.
Qed.
Lemma hot_wide k l : length l = n -> wide n (hot k l).
Proof. intro Ll. unfold wide, hot. simpl. rewrite Forall_forall. intros r Hr. apply in_map_iff in Hr. destruct Hr as [j [<- _]]. rewrite map_length. exact Ll. Qed.
Lemma map_const {A B} (z : B) (l : list A) : map (fun _ => z) l = repeat z (length l).
Proof. induction l as [|x l IH]; [reflexivity|]. simpl. f_equal. exact IH. Qed.
Lemma y'_len : length y' = n.
Proof. unfold moved_data. rewrite reorder_len. rewrite <- (seq_length n 0). apply Permutation_length. exact Hp. Qed.
Lemma init_moved st w : start_shape d n st ->
  init dg eps ovf inv c y' h' (moved_start a t sg st) w = omap (moveS a t sg) (init dg eps ovf inv c y h st w).
Proof.
  destruct st as [k l|ts]; intro Hs; simpl in Hs; unfold init, moved_start.
  - destruct (new_w c _ w) as [w0| |]; try reflexivity. simpl obind at 1. simpl obind at 4. rewrite hot_moved by exact Hs. rewrite theta_moved by (apply hot_wide; exact Hs).
    destruct (new_theta inv y h (hot k l)) as [th| |] eqn:E; simpl; try reflexivity. destruct (new_theta_ok _ _ E) as (T1 & T2 & T3).
    rewrite (d_moved w0 w0 th (wr_refl w0)) by (eapply Forall_impl; [|exact T2]; intros r Hr; apply Hr).
    destruct (new_d dg eps ovf c y w0 th) as [D| |] eqn:E2; simpl; try reflexivity. destruct (new_d_wide _ _ _ E2) as [W _].
    rewrite (fit_var_move c sg n D w0 w0 Hp W (wr_refl w0)). destruct (new_w c D w0); reflexivity.
  - cbv zeta.
    assert (W : wide n (Mat (map (fun _ => map (fun _ => 1 / INR (length ts)) y) ts) n)).
    { unfold wide. simpl. rewrite Forall_forall. intros r Hr. apply in_map_iff in Hr. destruct Hr as [j [<- _]]. apply map_length. }
    assert (M : Mat (map (fun _ => map (fun _ => 1 / INR (length (map ma ts))) y') (map ma ts)) (length y') = moveD sg (Mat (map (fun _ => map (fun _ => 1 / INR (length ts)) y) ts) n)).
    { unfold moveD. simpl. rewrite y'_len. f_equal. rewrite !map_map. rewrite map_length. apply map_ext. intro r. rewrite sg_map with (z := []) by reflexivity.
      rewrite !map_const. f_equal. rewrite y'_len, reorder_len. rewrite <- (seq_length n 0) at 1. symmetry. apply Permutation_length. exact Hp. }
    rewrite M. rewrite (fit_var_move c sg n _ w w Hp W (wr_refl w)). destruct (new_w c _ w); reflexivity.
Qed.
Lemma init_good st w s : start_shape d n st -> init dg eps ovf inv c y h st w = Fin s -> good s /\ length (f_theta s) = groups_of st.
Proof.
  destruct st as [k l|ts]; intros Hs H; simpl in Hs; unfold init in H.
  - destruct (new_w c (Mat (repeat [] k) 0) w) as [w0| |]; try discriminate. simpl in H. destruct (new_theta inv y h (hot k l)) as [th| |] eqn:E; try discriminate. simpl in H.
    destruct (new_d dg eps ovf c y w0 th) as [D| |] eqn:E2; try discriminate. simpl in H. destruct (new_w c D w0) as [w1| |] eqn:E3; try discriminate. injection H as <-.
    destruct (new_theta_ok _ _ E) as (T1 & T2 & T3). destruct (new_d_wide _ _ _ E2) as [W Lr]. pose proof (new_w_vd _ _ _ E3) as V.
    split; [|simpl; rewrite T1; unfold hot; simpl; rewrite map_length; apply seq_length].
    split; [exact W|]. split; [simpl; intros B HB; rewrite V in HB; injection HB as <-; exact W|]. split; [|exact Lr]. simpl. eapply Forall_impl; [|exact T2]. intros r Hr. apply Hr.
  - cbv zeta in H. destruct (new_w c _ w) as [w1| |] eqn:E; try discriminate. injection H as <-. pose proof (new_w_vd _ _ _ E) as V. simpl. split; [|reflexivity].
    assert (W : wide n (Mat (map (fun _ => map (fun _ => 1 / INR (length ts)) y) ts) n)).
    { unfold wide. simpl. rewrite Forall_forall. intros r Hr. apply in_map_iff in Hr. destruct Hr as [j [<- _]]. apply map_length. }
    split; [exact W|]. split; [simpl; intros B HB; rewrite V in HB; injection HB as <-; exact W|]. split; [exact Hs|]. simpl. apply map_length.
Qed.
Lemma fit_moved st total tol w : start_shape d n st ->
  same_outcome a t sg (bound_change (groups_of st) d a) (var_fit dg lg eps ovf inv c d y h st total tol w)
    (var_fit dg lg eps ovf inv c d y' h' (moved_start a t sg st) total tol w).
Proof.
  intro Hs. unfold var_fit. rewrite init_moved by exact Hs. destruct (init dg eps ovf inv c y h st w) as [s| |] eqn:E; simpl; try reflexivity; try exact I.
  destruct (init_good _ _ _ Hs E) as [G Ek]. apply (loop_moved tol (groups_of st) total 0 ENI EPI s G Ek).
Qed.
End B.

Lemma c81_equivariant_proof : forall dg lg eps ovf inv c a t sg d y h st total tol w,
  a <> 0 -> Permutation sg (seq 0 (length y)) -> data_shape d y -> length t = d -> length (p_mu h) = d -> square_mat d (p_psi h) -> inverts d inv -> start_shape d (length y) st ->
  same_outcome a t sg (bound_change (groups_of st) d a) (var_fit dg lg eps ovf inv c d y h st total tol w)
    (var_fit dg lg eps ovf inv c d (moved_data a t sg y) (moved_prior a t h) (moved_start a t sg st) total tol w).
Proof. intros. apply fit_moved; try assumption. apply inverts_scales; assumption. Qed.
