(* The conjugate update: natural parameters, order, splits, definiteness. *)
From Coq Require Import Lqa Permutation.
From Verif Require Import Prelude Numpy Rng M_Niw S_Niw P_Lists.
Open Scope Q_scope.

Lemma sum_ext {A} (f h : A -> Q) l : (forall x, In x l -> f x == h x) -> sum_over f l == sum_over h l.
Proof. induction l; intros H; simpl; [reflexivity|]. rewrite (H a (or_introl eq_refl)), IHl; [reflexivity|]. intros; apply H; right; assumption. Qed.
Lemma sum_add {A} (f h : A -> Q) l : sum_over (fun x => f x + h x) l == sum_over f l + sum_over h l.
Proof. induction l; simpl; [lra|]. rewrite IHl. ring. Qed.
Lemma sum_scale {A} c (f : A -> Q) l : sum_over (fun x => c * f x) l == c * sum_over f l.
Proof. induction l; simpl; [ring|]. rewrite IHl. ring. Qed.
Lemma sum_const {A} c (l : list A) : sum_over (fun _ => c) l == nq (length l) * c.
Proof. induction l; cbn [sum_over length]; [unfold nq; simpl; ring|]. rewrite IHl, nq_S. ring. Qed.
Lemma sum_zero {A} (l : list A) : sum_over (fun _ => 0) l == 0.
Proof. rewrite sum_const. ring. Qed.
Lemma sum_swap {A B} (f : A -> B -> Q) (l : list A) (m : list B) :
  sum_over (fun a => sum_over (fun b => f a b) m) l == sum_over (fun b => sum_over (fun a => f a b) l) m.
Proof.
  induction l; simpl; [rewrite sum_zero; reflexivity|]. rewrite IHl, <- sum_add. reflexivity.
Qed.
Lemma sum_app {A} (f : A -> Q) l m : sum_over f (l ++ m) == sum_over f l + sum_over f m.
Proof. induction l; simpl; [lra|]. rewrite IHl. ring. Qed.
Lemma sum_perm {A} (f : A -> Q) l m : Permutation l m -> sum_over f l == sum_over f m.
Proof. induction 1; simpl; [reflexivity|rewrite IHPermutation; reflexivity|ring|rewrite IHPermutation1; assumption]. Qed.
Lemma sum_nonneg {A} (f : A -> Q) l : (forall x, In x l -> 0 <= f x) -> 0 <= sum_over f l.
Proof. induction l; intros H; simpl; [lra|]. pose proof (H a (or_introl eq_refl)). assert (0 <= sum_over f l) by (apply IHl; intros; apply H; right; assumption). lra. Qed.
Lemma row_sum_over f y : row_sum f y = sum_over f y.
Proof. unfold row_sum. induction y; simpl; [reflexivity|]. rewrite IHy. reflexivity. Qed.

Lemma mk_vec_at k f i : (i < k)%nat -> vat (mk_vec k f) i = f i.
Proof. intros H. unfold vat, mk_vec. rewrite nth_indep with (d' := f 0%nat) by (rewrite map_length, seq_length; lia). rewrite map_nth, seq_nth by lia. reflexivity. Qed.
Lemma mk_mat_at k f i j : (i < k)%nat -> (j < k)%nat -> mat_at (mk_mat k f) i j = f i j.
Proof.
  intros Hi Hj. unfold mat_at, mk_mat. rewrite nth_indep with (d' := mk_vec k (f 0%nat)) by (rewrite map_length, seq_length; lia).
  rewrite (map_nth (fun i => mk_vec k (f i))), seq_nth by lia. apply mk_vec_at; assumption.
Qed.
Lemma mk_mat_square k f : square k (mk_mat k f).
Proof.
  unfold square, mk_mat. rewrite map_length, seq_length. split; [reflexivity|]. intros i Hi.
  rewrite nth_indep with (d' := mk_vec k (f 0%nat)) by (rewrite map_length, seq_length; lia).
  rewrite (map_nth (fun i => mk_vec k (f i))). unfold mk_vec. rewrite map_length, seq_length. reflexivity.
Qed.

Lemma mean_mul y i : y <> [] -> nq (length y) * mean_at y i == sum_over (coord i) y.
Proof.
  intros H. unfold mean_at. rewrite row_sum_over. change (sum_over (fun r => vat r i) y) with (sum_over (coord i) y).
  assert (0 < nq (length y)) by (apply nq_pos; destruct y; [congruence|simpl; lia]). field. lra.
Qed.
Lemma scatter_sum y i j : y <> [] ->
  scatter y i j == sum_over (fun r => coord i r * coord j r) y - nq (length y) * (mean_at y i * mean_at y j).
Proof.
  intros H. unfold scatter. rewrite row_sum_over.
  set (a := mean_at y i). set (b := mean_at y j).
  assert (Ea : nq (length y) * a == sum_over (coord i) y) by (apply mean_mul; exact H).
  assert (Eb : nq (length y) * b == sum_over (coord j) y) by (apply mean_mul; exact H).
  transitivity (sum_over (fun r => coord i r * coord j r + ((- b) * coord i r + ((- a) * coord j r + a * b))) y).
  { apply sum_ext. intros r _. unfold vat, coord. ring. }
  rewrite !sum_add, !sum_scale, sum_const. rewrite <- Ea, <- Eb. ring.
Qed.
Lemma n_scatter y i j : y <> [] -> nq (length y) * (scatter y i j / nq (length y)) == scatter y i j.
Proof. intros H. assert (0 < nq (length y)) by (apply nq_pos; destruct y; [congruence|simpl; lia]). field. lra. Qed.

Lemma c41_natural_proof : forall y h, y <> [] -> ~ n_lam h + nq (length y) == 0 -> is_posterior y h (niw_post y h).
Proof.
  intros y h Hy Hl. unfold niw_post. set (k := length (n_mu h)). set (n := nq (length y)) in *. set (L := n_lam h) in *.
  constructor; cbn [n_mu n_lam n_psi n_nu]; fold k L n.
  - unfold mk_vec. rewrite map_length, seq_length. reflexivity.
  - apply mk_mat_square.
  - reflexivity.
  - reflexivity.
  - intros i Hi. change (coord i (mk_vec ?k ?f)) with (vat (mk_vec k f) i). unfold coord at 1. fold (vat (mk_vec k (fun i => (L * vat (n_mu h) i + n * mean_at y i) / (L + n))) i).
    rewrite mk_vec_at by exact Hi. rewrite <- (mean_mul y i Hy). fold n. unfold vat, coord. field. exact Hl.
  - intros i j Hi Hj.
    set (M := mk_vec k _). assert (EM : forall i, (i < k)%nat -> coord i M = (L * vat (n_mu h) i + n * mean_at y i) / (L + n)) by (intros; apply mk_vec_at; assumption).
    rewrite !EM by assumption. unfold entry at 1. set (P := mk_mat k _). change (nth j (nth i P []) 0) with (mat_at P i j). unfold P. rewrite mk_mat_at by assumption.
    unfold cov_bias. rewrite mk_mat_at by assumption. fold n. unfold n at 1 2. rewrite n_scatter, scatter_sum by exact Hy. fold n.
    change (mat_at (n_psi h) i j) with (entry (n_psi h) i j). unfold vat, coord. field. exact Hl.
Qed.

(* a posterior is determined by data and prior *)
Lemma posterior_unique y h h1 h2 : ~ n_lam h + nq (length y) == 0 -> is_posterior y h h1 -> is_posterior y h h2 -> same_niw h1 h2.
Proof.
  intros Hl A B. assert (EL : n_lam h1 == n_lam h2) by (rewrite (po_lam _ _ _ A), (po_lam _ _ _ B); reflexivity).
  assert (HL : ~ n_lam h1 == 0) by (rewrite (po_lam _ _ _ A); exact Hl).
  assert (EM : forall i, (i < length (n_mu h))%nat -> coord i (n_mu h1) == coord i (n_mu h2)).
  { intros i Hi. pose proof (po_mu _ _ _ A i Hi) as E1. pose proof (po_mu _ _ _ B i Hi) as E2.
    rewrite <- E2, EL in E1. rewrite EL in HL.
    apply (Qmult_inj_l _ _ (n_lam h2) HL). exact E1. }
  constructor.
  - rewrite (po_dim _ _ _ A), (po_dim _ _ _ B). reflexivity.
  - exact EL.
  - rewrite (po_nu _ _ _ A), (po_nu _ _ _ B). reflexivity.
  - rewrite (po_dim _ _ _ A). exact EM.
  - rewrite (po_dim _ _ _ A). intros i j Hi Hj. pose proof (po_psi _ _ _ A i j Hi Hj) as E1. pose proof (po_psi _ _ _ B i j Hi Hj) as E2.
    rewrite (EM i Hi), (EM j Hj), EL in E1. lra.
Qed.
Lemma posterior_app y1 y2 h h1 h2 : is_posterior y1 h h1 -> is_posterior y2 h1 h2 -> is_posterior (y1 ++ y2) h h2.
Proof.
  intros A B. pose proof (po_dim _ _ _ A) as D.
  constructor.
  - rewrite (po_dim _ _ _ B). exact D.
  - rewrite <- D. apply (po_sq _ _ _ B).
  - rewrite app_length, nq_add, (po_lam _ _ _ B), (po_lam _ _ _ A). ring.
  - rewrite app_length, nq_add, (po_nu _ _ _ B), (po_nu _ _ _ A). ring.
  - intros i Hi. rewrite sum_app, (po_mu _ _ _ B i), (po_mu _ _ _ A i) by lia. ring.
  - intros i j Hi Hj. rewrite sum_app, (po_psi _ _ _ B i j), (po_psi _ _ _ A i j) by lia. ring.
Qed.
Lemma posterior_perm y1 y2 h h1 : Permutation y1 y2 -> is_posterior y1 h h1 -> is_posterior y2 h h1.
Proof.
  intros P A. pose proof (Permutation_length P) as E.
  constructor; try apply A; rewrite <- ?E; try apply A.
  - intros i Hi. rewrite <- (sum_perm _ _ _ P). apply (po_mu _ _ _ A i Hi).
  - intros i j Hi Hj. rewrite <- (sum_perm _ _ _ P). apply (po_psi _ _ _ A i j Hi Hj).
Qed.

Lemma c41_split_proof : forall y1 y2 h, y1 <> [] -> y2 <> [] -> 0 < n_lam h ->
  same_niw (niw_post (y1 ++ y2) h) (niw_post y2 (niw_post y1 h)).
Proof.
  intros y1 y2 h H1 H2 Hl.
  assert (P1 : 0 <= nq (length y1)) by apply nq_nonneg. assert (P2 : 0 <= nq (length y2)) by apply nq_nonneg. assert (P3 : 0 <= nq (length (y1 ++ y2))) by apply nq_nonneg.
  apply (posterior_unique (y1 ++ y2) h); [lra| |].
  - apply c41_natural_proof; [destruct y1; [congruence|discriminate]|lra].
  - eapply posterior_app; [apply c41_natural_proof; [exact H1|lra]|]. apply c41_natural_proof; [exact H2|]. simpl. lra.
Qed.
Lemma c41_order_proof : forall y y' h, Permutation y y' -> y <> [] -> 0 < n_lam h -> same_niw (niw_post y h) (niw_post y' h).
Proof.
  intros y y' h P Hy Hl. assert (P1 : 0 <= nq (length y)) by apply nq_nonneg. pose proof (Permutation_length P) as E.
  apply (posterior_unique y h); [lra|apply c41_natural_proof; [exact Hy|lra]|].
  eapply posterior_perm; [apply Permutation_sym, P|]. apply c41_natural_proof; [|rewrite <- E; lra].
  intros ->. apply Hy. apply Permutation_nil, Permutation_sym, P.
Qed.
Lemma c41_symmetric_proof : forall y h, symmetric (length (n_mu h)) (n_psi h) -> symmetric (length (n_mu h)) (n_psi (niw_post y h)).
Proof.
  intros y h Hs i j Hi Hj. unfold niw_post; cbn [n_psi]. set (k := length (n_mu h)) in *.
  set (P := mk_mat k _). change (entry P i j) with (mat_at P i j). change (entry P j i) with (mat_at P j i). unfold P. rewrite !mk_mat_at by assumption.
  unfold cov_bias. rewrite !mk_mat_at by assumption.
  change (mat_at (n_psi h) i j) with (entry (n_psi h) i j). change (mat_at (n_psi h) j i) with (entry (n_psi h) j i). rewrite (Hs i j Hi Hj).
  assert (ES : scatter y i j == scatter y j i).
  { unfold scatter. rewrite !row_sum_over. apply sum_ext. intros r _. ring. }
  rewrite ES. ring.
Qed.

Lemma quad_ext k f h x : (forall i j, (i < k)%nat -> (j < k)%nat -> f i j == h i j) ->
  sum_over (fun i => sum_over (fun j => coord i x * f i j * coord j x) (seq 0 k)) (seq 0 k) ==
  sum_over (fun i => sum_over (fun j => coord i x * h i j * coord j x) (seq 0 k)) (seq 0 k).
Proof.
  intros H. apply sum_ext. intros i Hi. apply sum_ext. intros j Hj. apply in_seq in Hi, Hj. rewrite (H i j) by lia. reflexivity.
Qed.
Lemma quad_outer k (f : nat -> Q) x :
  sum_over (fun i => sum_over (fun j => coord i x * (f i * f j) * coord j x) (seq 0 k)) (seq 0 k) ==
  let t := sum_over (fun i => coord i x * f i) (seq 0 k) in t * t.
Proof.
  cbv zeta. rewrite <- sum_scale. apply sum_ext. intros i _.
  transitivity (sum_over (fun j => coord i x * f i * (coord j x * f j)) (seq 0 k)); [apply sum_ext; intros; ring|].
  rewrite sum_scale. ring.
Qed.
Lemma sq_nonneg x : 0 <= x * x.
Proof. destruct (Qlt_le_dec x 0); nra. Qed.
Lemma c41_posdef_proof : forall y h, y <> [] -> 0 < n_lam h ->
  pos_def (length (n_mu h)) (n_psi h) -> pos_def (length (n_mu h)) (n_psi (niw_post y h)).
Proof.
  intros y h Hy Hl Hp x Hx. specialize (Hp x Hx). unfold quad in *. set (k := length (n_mu h)) in *.
  set (n := nq (length y)). assert (Hn : 0 < n) by (apply nq_pos; destruct y; [congruence|simpl; lia]).
  set (cst := n_lam h * n / (n_lam h + n)).
  assert (Hc : 0 <= cst) by (unfold cst; apply Qle_shift_div_l; [lra|]; nra).
  rewrite (quad_ext k _ (fun i j => entry (n_psi h) i j + (scatter y i j + cst * ((mean_at y i - vat (n_mu h) i) * (mean_at y j - vat (n_mu h) j)))) x).
  2:{ intros i j Hi Hj. unfold niw_post; cbn [n_psi]. fold k. set (P := mk_mat k _). change (entry P i j) with (mat_at P i j). unfold P. rewrite mk_mat_at by assumption.
      unfold cov_bias. rewrite mk_mat_at by assumption. rewrite n_scatter by exact Hy. fold n. fold cst. unfold mat_at, vat, entry. ring. }
  assert (S1 : sum_over (fun i => sum_over (fun j => coord i x * (entry (n_psi h) i j + (scatter y i j + cst * ((mean_at y i - vat (n_mu h) i) * (mean_at y j - vat (n_mu h) j)))) * coord j x) (seq 0 k)) (seq 0 k)
     == sum_over (fun i => sum_over (fun j => coord i x * entry (n_psi h) i j * coord j x) (seq 0 k)) (seq 0 k)
      + (sum_over (fun i => sum_over (fun j => coord i x * scatter y i j * coord j x) (seq 0 k)) (seq 0 k)
      + cst * sum_over (fun i => sum_over (fun j => coord i x * ((mean_at y i - vat (n_mu h) i) * (mean_at y j - vat (n_mu h) j)) * coord j x) (seq 0 k)) (seq 0 k))).
  { rewrite <- sum_scale, <- !sum_add. apply sum_ext. intros i _. rewrite <- sum_scale, <- !sum_add. apply sum_ext. intros j _. ring. }
  rewrite S1, (quad_outer k (fun i => mean_at y i - vat (n_mu h) i) x). cbv zeta.
  match goal with |- 0 < _ + (?s + _ * (?t * ?t)) => set (T := t); assert (S2 : 0 <= s) end.
  { apply Qle_trans with (sum_over (fun r => sum_over (fun i => sum_over (fun j => coord i x * ((vat r i - mean_at y i) * (vat r j - mean_at y j)) * coord j x) (seq 0 k)) (seq 0 k)) y).
    - apply sum_nonneg. intros r _. rewrite (quad_outer k (fun i => vat r i - mean_at y i) x). apply sq_nonneg.
    - apply Qle_lteq. right. rewrite sum_swap. apply sum_ext. intros i _. rewrite sum_swap. apply sum_ext. intros j _.
      unfold scatter. rewrite row_sum_over.
      transitivity (coord i x * coord j x * sum_over (fun r => (vat r i - mean_at y i) * (vat r j - mean_at y j)) y); [|ring].
      rewrite <- sum_scale. apply sum_ext. intros r _. ring. }
  pose proof (sq_nonneg T). nra.
Qed.

(* the call as the sampler makes it *)
Lemma c41_call_proof : forall y h, y <> [] -> 0 < n_lam h -> niw_fits y h = true -> exists h', niw_post_call y h = Ok h' /\ is_posterior y h h'.
Proof.
  intros y h Hy Hl Hf. exists (niw_post y h). unfold niw_post_call. rewrite Hf. simpl.
  assert (P1 : 0 <= nq (length y)) by apply nq_nonneg.
  assert (N : ~ n_lam h + nq (length y) == 0) by lra.
  split; [|apply c41_natural_proof; assumption].
  destruct (Qeq_bool (n_lam h + nq (length y)) 0) eqn:E; [apply Qeq_bool_iff in E; contradiction|reflexivity].
Qed.
