(* Means, covariances and conjugate updates in other coordinates. *)
From Coq Require Import Lqa.
From Verif Require Import Prelude Numpy Rng M_Weights M_Niw M_Utils M_Mix S_Niw S_Mix S_Query S_GAffine P_Lists P_Niw.
Open Scope Q_scope.

Section L.
Variable C : coords.
Notation k := (co_dim C).
Notation lin := (lin C).
Definition lin2 (f : nat -> nat -> Q) (i j : nat) : Q := lin (fun p => lin (fun q => f p q) j) i.

Lemma lin_ext f h i : (forall p, (p < k)%nat -> f p == h p) -> lin f i == lin h i.
Proof. intros H. apply sum_ext. intros p Hp. apply in_seq in Hp. rewrite H by lia. reflexivity. Qed.
Lemma lin_add f h i : lin (fun p => f p + h p) i == lin f i + lin h i.
Proof. unfold S_GAffine.lin. rewrite <- sum_add. apply sum_ext. intros; ring. Qed.
Lemma lin_scale c f i : lin (fun p => c * f p) i == c * lin f i.
Proof. unfold S_GAffine.lin. rewrite <- sum_scale. apply sum_ext. intros; ring. Qed.
Lemma lin_zero i : lin (fun _ => 0) i == 0.
Proof. unfold S_GAffine.lin. rewrite <- (sum_zero (seq 0 k)). apply sum_ext. intros; ring. Qed.
Lemma lin_div c f i : lin (fun p => f p / c) i == lin f i / c.
Proof. unfold Qdiv. rewrite (Qmult_comm (lin f i)), <- lin_scale. apply lin_ext. intros; ring. Qed.
Lemma lin2_ext f h i j : (forall p q, (p < k)%nat -> (q < k)%nat -> f p q == h p q) -> lin2 f i j == lin2 h i j.
Proof. intros H. apply lin_ext. intros p Hp. apply lin_ext. intros q Hq. apply H; assumption. Qed.
Lemma lin2_add f h i j : lin2 (fun p q => f p q + h p q) i j == lin2 f i j + lin2 h i j.
Proof. unfold lin2. rewrite <- lin_add. apply lin_ext. intros. apply lin_add. Qed.
Lemma lin2_scale c f i j : lin2 (fun p q => c * f p q) i j == c * lin2 f i j.
Proof. unfold lin2. rewrite <- lin_scale. apply lin_ext. intros. apply lin_scale. Qed.
Lemma lin2_zero i j : lin2 (fun _ _ => 0) i j == 0.
Proof. unfold lin2. rewrite <- (lin_zero i). apply lin_ext. intros. apply lin_zero. Qed.
Lemma lin2_mul f h i j : lin2 (fun p q => f p * h q) i j == lin f i * lin h j.
Proof. unfold lin2. rewrite (Qmult_comm (lin f i)), <- lin_scale. apply lin_ext. intros p _. rewrite lin_scale. ring. Qed.

Lemma rows_len y y' : rows_moved C y y' -> length y' = length y.
Proof. induction 1; simpl; congruence. Qed.
Lemma sum_moved y y' i : rows_moved C y y' -> (i < k)%nat -> row_sum (fun r => vat r i) y' == lin (fun p => row_sum (fun r => vat r p) y) i + nq (length y) * co_org C i.
Proof.
  intros H Hi. induction H as [|x x' y y' Hx H IH].
  - change (0 == lin (fun _ => 0) i + nq 0 * co_org C i). rewrite lin_zero. unfold nq. simpl. ring.
  - change (vat x' i + row_sum (fun r => vat r i) y' == lin (fun p => vat x p + row_sum (fun r => vat r p) y) i + nq (length (x :: y)) * co_org C i).
    rewrite IH, lin_add. cbn [length]. rewrite nq_S. destruct Hx as (_ & _ & Hx). specialize (Hx i Hi). unfold coord in Hx. unfold vat at 1 3. rewrite Hx. ring.
Qed.
Lemma mean_moved y y' i : rows_moved C y y' -> y <> [] -> (i < k)%nat -> mean_at y' i == lin (mean_at y) i + co_org C i.
Proof.
  intros H Hn Hi. unfold mean_at. rewrite (sum_moved y y' i H Hi), (rows_len _ _ H), lin_div. assert (0 < nq (length y)) by (apply nq_pos; destruct y; [congruence|simpl; lia]). field. lra.
Qed.
Lemma scatter_moved y y' i j : rows_moved C y y' -> (i < k)%nat -> (j < k)%nat -> scatter y' i j == lin2 (scatter y) i j.
Proof.
  intros H Hi Hj. destruct y as [|x0 y0]. { inversion H; subst. change (0 == lin2 (fun _ _ => 0) i j). rewrite lin2_zero. reflexivity. }
  remember (x0 :: y0) as y. assert (Hn : y <> []) by (subst; discriminate). clear Heqy x0 y0.
  pose proof (mean_moved y y' i H Hn Hi) as Mi. pose proof (mean_moved y y' j H Hn Hj) as Mj.
  unfold scatter. set (m := mean_at y) in *. set (m' := mean_at y') in *. clearbody m m'. clear Hn.
  induction H as [|x x' y y' Hx H IH].
  - change (0 == lin2 (fun _ _ => 0) i j). rewrite lin2_zero. reflexivity.
  - change ((vat x' i - m' i) * (vat x' j - m' j) + row_sum (fun r => (vat r i - m' i) * (vat r j - m' j)) y' ==
      lin2 (fun p q => (vat x p - m p) * (vat x q - m q) + row_sum (fun r => (vat r p - m p) * (vat r q - m q)) y) i j).
    rewrite IH, lin2_add, (lin2_mul (fun p => vat x p - m p) (fun p => vat x p - m p)). apply Qplus_comp; [|reflexivity].
    destruct Hx as (_ & _ & Hx). pose proof (Hx i Hi) as Xi. pose proof (Hx j Hj) as Xj. unfold coord in Xi, Xj. unfold vat at 1 2. rewrite Xi, Xj, Mi, Mj.
    assert (D : forall l, lin (fun p => vat x p - m p) l == lin (fun p => coord p x) l - lin m l).
    { intros l. transitivity (lin (fun p => coord p x + (-1) * m p) l); [apply lin_ext; intros; unfold vat, coord; ring|]. rewrite lin_add, lin_scale. ring. }
    rewrite !D. unfold coord. ring.
Qed.
Lemma mk_vec_len n f : length (mk_vec n f) = n. Proof. unfold mk_vec. rewrite map_length, seq_length. reflexivity. Qed.
Lemma mk_point f f' : (forall i, (i < k)%nat -> f' i == lin f i + co_org C i) -> point_moved C (mk_vec k f) (mk_vec k f').
Proof.
  intros H. split; [apply mk_vec_len|]. split; [apply mk_vec_len|]. intros i Hi. change (coord i (mk_vec k f')) with (vat (mk_vec k f') i). rewrite mk_vec_at by exact Hi. rewrite (H i Hi).
  apply Qplus_comp; [|reflexivity]. apply lin_ext. intros p Hp. change (coord p (mk_vec k f)) with (vat (mk_vec k f) p). rewrite mk_vec_at by exact Hp. reflexivity.
Qed.
Lemma mk_cov f f' : (forall i j, (i < k)%nat -> (j < k)%nat -> f' i j == lin2 f i j) -> cov_moved C (mk_mat k f) (mk_mat k f').
Proof.
  intros H. split; [apply mk_mat_square|]. split; [apply mk_mat_square|]. intros i j Hi Hj. change (entry (mk_mat k f') i j) with (mat_at (mk_mat k f') i j). rewrite mk_mat_at by assumption.
  rewrite (H i j Hi Hj). apply lin2_ext. intros p q Hp Hq. change (entry (mk_mat k f) p q) with (mat_at (mk_mat k f) p q). rewrite mk_mat_at by assumption. reflexivity.
Qed.
Lemma mean_default y y' : rows_moved C y y' -> y <> [] -> point_moved C (mk_vec k (mean_at y)) (mk_vec k (mean_at y')).
Proof. intros H Hn. apply mk_point. intros i Hi. apply mean_moved; assumption. Qed.
Lemma cov_default y y' : rows_moved C y y' -> cov_moved C (cov_sample k y) (cov_sample k y').
Proof.
  intros H. apply mk_cov. intros i j Hi Hj. rewrite (scatter_moved y y' i j H Hi Hj), (rows_len _ _ H). unfold Qdiv. rewrite (Qmult_comm (lin2 _ _ _)), <- lin2_scale. apply lin2_ext. intros. ring.
Qed.

Definition niw_moved (h h' : niw) : Prop := n_lam h' = n_lam h /\ n_nu h' = n_nu h /\ point_moved C (n_mu h) (n_mu h') /\ cov_moved C (n_psi h) (n_psi h').
Lemma square_fits m : square k m -> Nat.eqb (length m) k = true /\ forallb (fun r => Nat.eqb (length r) k) m = true.
Proof.
  intros [L H]. split; [apply Nat.eqb_eq; exact L|]. apply forallb_forall. intros r Hr. apply (In_nth _ _ []) in Hr as (i & Hi & <-). apply Nat.eqb_eq, H. lia.
Qed.
Lemma rows_fits y y' : rows_moved C y y' -> forallb (fun r => Nat.eqb (length r) k) y = true /\ forallb (fun r => Nat.eqb (length r) k) y' = true.
Proof. induction 1 as [|x x' y y' (H1 & H2 & _) H [I1 I2]]; [auto|]. simpl. rewrite H1, H2, Nat.eqb_refl, I1, I2. auto. Qed.
Lemma niw_post_moved y y' h h' : rows_moved C y y' -> niw_moved h h' -> res_moved niw_moved (niw_post_call y h) (niw_post_call y' h').
Proof.
  intros Hy (Hl & Hnu & Hm & Hp). destruct Hm as (M1 & M2 & M3). destruct Hp as (P1 & P2 & P3).
  assert (F : niw_fits y h = true /\ niw_fits y' h' = true).
  { unfold niw_fits, vec in *. rewrite M1, M2. destruct (rows_fits _ _ Hy) as [-> ->]. destruct (square_fits _ P1) as [-> ->]. destruct (square_fits _ P2) as [-> ->]. auto. }
  unfold niw_post_call. destruct F as [-> ->]. simpl negb. cbv iota. rewrite Hl, (rows_len _ _ Hy).
  destruct (Qeq_bool (n_lam h + nq (length y)) 0) eqn:Ez; [reflexivity|]. apply Qeq_bool_neq in Ez.
  pose proof (rows_len _ _ Hy) as Ly. unfold niw_post, vec in *. rewrite M1, M2, Ly, Hl, Hnu. set (n := nq (length y)) in *. set (La := n_lam h) in *.
  assert (Hmu : forall i, (i < k)%nat -> vat (n_mu h') i == lin (vat (n_mu h)) i + co_org C i) by (intros i Hi; exact (M3 i Hi)).
  assert (Hne : y = [] \/ y <> []) by (destruct y; [left; reflexivity|right; discriminate]).
  split; [reflexivity|]. split; [reflexivity|]. split; cbn [n_mu n_psi].
  - apply mk_point. intros i Hi. rewrite (Hmu i Hi).
    assert (N : n * mean_at y' i == lin (fun p => n * mean_at y p) i + n * co_org C i).
    { destruct Hne as [->|Hne]; [inversion Hy; subst; unfold n, nq; simpl; rewrite lin_scale; ring|]. rewrite (mean_moved _ _ i Hy Hne Hi), lin_scale. ring. }
    rewrite N, lin_div, lin_add, (lin_scale La), (lin_scale n). field. exact Ez.
  - apply mk_cov. intros i j Hi Hj.
    set (c := La * n / (La + n)). rewrite lin2_add, lin2_add. apply Qplus_comp; [apply Qplus_comp|].
    + exact (P3 i j Hi Hj).
    + rewrite lin2_scale. unfold cov_bias. rewrite mk_mat_at by assumption. rewrite (rows_len _ _ Hy). fold n. rewrite (scatter_moved _ _ i j Hy Hi Hj).
      apply Qmult_comp; [reflexivity|]. unfold Qdiv. rewrite Qmult_comm, <- lin2_scale. apply lin2_ext. intros p q Hp Hq. rewrite mk_mat_at by assumption. fold n. unfold Qdiv. ring.
    + rewrite (lin2_scale c (fun p q => (mean_at y p - vat (n_mu h) p) * (mean_at y q - vat (n_mu h) q))).
      destruct Hne as [->|Hne].
      { assert (c == 0) by (unfold c, n, nq; simpl; unfold Qdiv; ring). rewrite H. ring. }
      apply Qmult_comp; [reflexivity|]. rewrite (lin2_mul (fun p => mean_at y p - vat (n_mu h) p) (fun p => mean_at y p - vat (n_mu h) p)).
      assert (D : forall l, (l < k)%nat -> mean_at y' l - vat (n_mu h') l == lin (fun p => mean_at y p - vat (n_mu h) p) l).
      { intros l Hl'. rewrite (mean_moved _ _ l Hy Hne Hl'), (Hmu l Hl').
        transitivity (lin (fun p => mean_at y p + (-1) * vat (n_mu h) p) l); [rewrite lin_add, lin_scale; ring|]. apply lin_ext. intros; ring. }
      rewrite <- (D i Hi), <- (D j Hj). reflexivity.
Qed.

Lemma nth_map0 {A B} (f : A -> B) l i d : nth i (map f l) (f d) = f (nth i l d). Proof. apply map_nth. Qed.
Lemma point_red x x' : point_moved C x x' -> point_moved C (map Qred x) (map Qred x').
Proof.
  intros (H1 & H2 & H3). split; [rewrite map_length; exact H1|]. split; [rewrite map_length; exact H2|]. intros i Hi.
  assert (X : forall z p, coord p (map Qred z) == coord p z).
  { intros z p. unfold coord. change (nth p (map Qred z) 0) with (nth p (map Qred z) (Qred 0)). rewrite map_nth. apply Qred_correct. }
  rewrite X, (H3 i Hi). apply Qplus_comp; [|reflexivity]. apply lin_ext. intros. symmetry. apply X.
Qed.
Lemma square_map k0 f m : square k0 m -> square k0 (map (map f) m).
Proof.
  intros [L H]. split; [rewrite map_length; exact L|]. intros i Hi. change (nth i (map (map f) m) []) with (nth i (map (map f) m) (map f [])). rewrite map_nth, map_length. apply H. exact Hi.
Qed.
Lemma entry_map f m i j : (i < length m)%nat -> (j < length (nth i m []))%nat -> entry (map (map f) m) i j = f (entry m i j).
Proof.
  intros Hi Hj. unfold entry. change (nth i (map (map f) m) []) with (nth i (map (map f) m) (map f [])). rewrite map_nth.
  rewrite nth_indep with (d' := f 0) by (rewrite map_length; exact Hj). apply map_nth.
Qed.
Lemma cov_map f c m m' : (forall x, f x == c * x) -> cov_moved C m m' -> cov_moved C (map (map f) m) (map (map f) m').
Proof.
  intros F (H1 & H2 & H3). split; [apply square_map; exact H1|]. split; [apply square_map; exact H2|]. intros i j Hi Hj.
  destruct H1 as [L1 R1], H2 as [L2 R2]. rewrite entry_map by (rewrite ?L2, ?R2; assumption). rewrite F, (H3 i j Hi Hj).
  change (c * lin2 (entry m) i j == lin2 (entry (map (map f) m)) i j). rewrite <- lin2_scale. apply lin2_ext. intros p q Hp Hq. rewrite entry_map by (rewrite ?L1, ?R1; assumption). rewrite F. reflexivity.
Qed.
Lemma cov_red m m' : cov_moved C m m' -> cov_moved C (map (map Qred) m) (map (map Qred) m').
Proof. apply (cov_map Qred 1). intros x. rewrite Qred_correct. ring. Qed.
Lemma cov_div l m m' : cov_moved C m m' -> cov_moved C (map (map (fun x => x / l)) m) (map (map (fun x => x / l)) m').
Proof. apply (cov_map (fun x => x / l) (/ l)). intros x. unfold Qdiv. ring. Qed.
End L.
