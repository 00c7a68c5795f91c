From Coq Require Import Reals Lra Permutation.
From Verif Require Import Prelude Numpy Rng M_Weights M_Ext M_Var M_VarNum M_VarLoop S_VarNum S_Affine.
Open Scope R_scope.

(* ---- lists ---- *)
Lemma reorder_len {A} (z : A) sg l : length (reorder z sg l) = length sg.
Proof. unfold reorder. apply map_length. Qed.
Lemma map_nth_seq {A} (z : A) l : map (fun i => nth i l z) (seq 0 (length l)) = l.
Proof.
  induction l as [|x l IH]; [reflexivity|]. simpl. f_equal. rewrite <- seq_shift, map_map. exact IH.
Qed.
Lemma reorder_perm {A} (z : A) sg l : Permutation sg (seq 0 (length l)) -> Permutation (reorder z sg l) l.
Proof.
  intro H. unfold reorder. eapply Permutation_trans; [apply Permutation_map; exact H|]. rewrite map_nth_seq. apply Permutation_refl.
Qed.
Lemma reorder_map {A B} (z : A) (z' : B) (f : A -> B) sg l : (forall i, In i sg -> (i < length l)%nat) -> reorder z' sg (map f l) = map f (reorder z sg l).
Proof.
  intro H. unfold reorder. rewrite map_map. apply map_ext_in. intros i Hi.
  rewrite (nth_indep (map f l) z' (f z)); [apply map_nth|]. rewrite map_length. apply H; exact Hi.
Qed.
Lemma reorder_map0 {A B} (z : A) (z' : B) (f : A -> B) sg l : f z = z' -> reorder z' sg (map f l) = map f (reorder z sg l).
Proof. intros <-. unfold reorder. rewrite map_map. apply map_ext_in. intros i Hi. apply map_nth. Qed.
Lemma reorder_combine {A B} (z : A) (z' : B) sg l l' : length l = length l' -> combine (reorder z sg l) (reorder z' sg l') = reorder (z, z') sg (combine l l').
Proof.
  intro H. unfold reorder. induction sg as [|i sg IH]; [reflexivity|]. simpl. rewrite combine_nth by exact H. f_equal. exact IH.
Qed.
Lemma perm_lt sg n : Permutation sg (seq 0 n) -> forall i, In i sg -> (i < n)%nat.
Proof. intros H i Hi. apply (Permutation_in _ H) in Hi. apply in_seq in Hi. lia. Qed.
Lemma rsum_perm l l' : Permutation l l' -> rsum l = rsum l'.
Proof. induction 1; simpl; lra. Qed.
Lemma rsum_reorder sg l : Permutation sg (seq 0 (length l)) -> rsum (reorder 0 sg l) = rsum l.
Proof. intro H. apply rsum_perm, reorder_perm; exact H. Qed.
Lemma wsum_reorder sg vd f y : length vd = length y -> Permutation sg (seq 0 (length y)) -> wsum (reorder 0 sg vd) f (reorder [] sg y) = wsum vd f y.
Proof.
  intros L H. unfold wsum. rewrite reorder_combine by exact L. apply rsum_perm, Permutation_map, reorder_perm.
  rewrite combine_length, L, Nat.min_id. exact H.
Qed.

(* ---- sums ---- *)
Lemma rsum_scale b l : rsum (map (Rmult b) l) = b * rsum l.
Proof. induction l as [|x l IH]; simpl; [lra|rewrite IH; lra]. Qed.
Lemma rsum_ext {A} (f g : A -> R) l : (forall x, In x l -> f x = g x) -> rsum (map f l) = rsum (map g l).
Proof. intro H. f_equal. apply map_ext_in. exact H. Qed.
Lemma rsum_mult {A} (f : A -> R) b l : rsum (map (fun x => b * f x) l) = b * rsum (map f l).
Proof. rewrite <- rsum_scale, map_map. reflexivity. Qed.
Lemma rsum_add {A} (f g : A -> R) l : rsum (map (fun x => f x + g x) l) = rsum (map f l) + rsum (map g l).
Proof. induction l as [|x l IH]; simpl; [lra|rewrite IH; lra]. Qed.

(* ---- moved ---- *)
Lemma moved_nth a t x i : length x = length t -> nth i (moved a t x) 0 = a * nth i x 0 + nth i t 0.
Proof.
  unfold moved. revert x i. induction t as [|b t IH]; intros [|c x] i H; try discriminate; [destruct i; simpl; lra|].
  destruct i; simpl; [reflexivity|]. apply IH. simpl in H. lia.
Qed.
Lemma moved_len a t x : length x = length t -> length (moved a t x) = length x.
Proof. intro H. unfold moved. rewrite map_length, combine_length, H. apply Nat.min_id. Qed.
Lemma mentry_scaled b p i j : mentry (scaled b p) i j = b * mentry p i j.
Proof.
  unfold mentry, scaled. replace (@nil R) with (map (Rmult b) []) by reflexivity. rewrite map_nth.
  replace 0 with (b * 0) at 1 by lra. apply map_nth.
Qed.
Lemma scaled_len b p : length (scaled b p) = length p.
Proof. apply map_length. Qed.
Lemma frob_scaled b p : frob (scaled b p) = Rabs b * frob p.
Proof.
  unfold frob, scaled. rewrite map_map.
  rewrite (rsum_ext _ (fun r => (b * b) * rsum (map (fun x => x * x) r))).
  - rewrite rsum_mult. rewrite sqrt_mult_alt by apply Rle_0_sqr. rewrite <- (sqrt_Rsqr_abs b). reflexivity.
  - intros r _. rewrite map_map. rewrite <- rsum_mult. apply rsum_ext. intros; lra.
Qed.
Lemma rsum_ge0 l : (forall x, In x l -> 0 <= x) -> 0 <= rsum l.
Proof.
  induction l as [|x l IH]; intro H; [simpl; lra|]. simpl. assert (0 <= x) by (apply H; left; reflexivity).
  assert (0 <= rsum l) by (apply IH; intros; apply H; right; assumption). lra.
Qed.
Lemma frob_ge0 p : 0 <= frob p.
Proof. apply sqrt_pos. Qed.

(* ---- shifts of extended numbers ---- *)
Notation sh k e := (ext_add e (EF k)).
Lemma sh_add a b x y : ext_add (sh x a) (sh y b) = sh (x + y) (ext_add a b).
Proof. destruct a, b; simpl; try reflexivity. f_equal; lra. Qed.
Lemma sh_opp a x : ext_opp (sh x a) = sh (- x) (ext_opp a).
Proof. destruct a; simpl; try reflexivity. f_equal; lra. Qed.
Lemma sh_scale k a x : ext_scale k (sh x a) = sh (k * x) (ext_scale k a).
Proof. destruct a; simpl; try (destruct (rltb 0 k); [reflexivity|destruct (rltb k 0); reflexivity]); try reflexivity. f_equal; lra. Qed.
Lemma sh_fin a x y : ext_add (sh x a) (EF y) = sh x (ext_add a (EF y)).
Proof. destruct a; simpl; try reflexivity. f_equal; lra. Qed.
Lemma sh_l a b x : ext_add (sh x a) b = sh x (ext_add a b).
Proof. destruct a, b; simpl; try reflexivity. f_equal; lra. Qed.
Lemma sh_r a b x : ext_add a (sh x b) = sh x (ext_add a b).
Proof. destruct a, b; simpl; try reflexivity. f_equal; lra. Qed.
Lemma sh_eq a x y : x = y -> sh x a = sh y a.
Proof. intros ->; reflexivity. Qed.
Lemma sh_sh a x y : sh y (sh x a) = sh (x + y) a.
Proof. destruct a; simpl; try reflexivity. f_equal; lra. Qed.
Lemma sh_0 a : sh 0 a = a.
Proof. destruct a; simpl; try reflexivity. f_equal; lra. Qed.
Lemma sh_sum {A} (f g : A -> ext) x l : (forall u, In u l -> g u = sh x (f u)) -> ext_sum (map g l) = sh (INR (length l) * x) (ext_sum (map f l)).
Proof.
  unfold ext_sum. induction l as [|u l IH]; intro H.
  - simpl. f_equal; lra.
  - cbn [map fold_right length]. rewrite (H u) by (left; reflexivity). rewrite IH by (intros; apply H; right; assumption).
    rewrite sh_add. apply sh_eq. rewrite S_INR. lra.
Qed.

(* ---- one observation ---- *)
Lemma rltb_true x y : x < y -> rltb x y = true.
Proof. intro H. unfold rltb. destruct (Rlt_dec x y); [reflexivity|contradiction]. Qed.
Lemma rltb_false x y : ~ x < y -> rltb x y = false.
Proof. intro H. unfold rltb. destruct (Rlt_dec x y); [contradiction|reflexivity]. Qed.

Section A.
Variables (dg lg : R -> R) (a : R) (t : list R).
Hypothesis Ha : a <> 0.
Lemma aa_pos : 0 < a * a.
Proof. destruct (Rtotal_order a 0) as [H|[H|H]]; nra. Qed.

Lemma log_frob p : ext_log (EF (frob (scaled (/ (a * a)) p))) = sh (- ln (a * a)) (ext_log (EF (frob p))).
Proof.
  pose proof aa_pos as P. rewrite frob_scaled. rewrite (Rabs_pos_eq (/ (a * a))) by (left; apply Rinv_0_lt_compat; exact P).
  pose proof (frob_ge0 p) as F. simpl. destruct (Req_dec (frob p) 0) as [E|E].
  - rewrite E, Rmult_0_r. rewrite (rltb_false 0 0) by lra. unfold reqb. destruct (Req_EM_T 0 0); [reflexivity|contradiction].
  - assert (0 < frob p) by lra. assert (0 < / (a * a)) by (apply Rinv_0_lt_compat; exact P).
    rewrite (rltb_true 0 (frob p)) by assumption. rewrite rltb_true by (apply Rmult_lt_0_compat; assumption). simpl.
    f_equal. rewrite ln_mult by assumption. rewrite ln_Rinv by exact P. lra.
Qed.
Lemma elnw p sc : e_log_norm_wishart dg (scaled (/ (a * a)) p) sc = sh (- ln (a * a)) (e_log_norm_wishart dg p sc).
Proof. unfold e_log_norm_wishart. rewrite log_frob, scaled_len. apply sh_fin. Qed.
Lemma qform_scaled p u v : (forall i, v i = a * u i) -> qform (scaled (/ (a * a)) p) v = qform p u.
Proof.
  intro H. pose proof aa_pos as P. unfold qform. rewrite scaled_len. apply rsum_ext. intros i _. apply rsum_ext. intros j _.
  rewrite mentry_scaled, !H. field. lra.
Qed.
Lemma dev_moved x m i : length x = length t -> length m = length t -> dev (moved a t x) (moved a t m) i = a * dev x m i.
Proof. intros H1 H2. unfold dev. rewrite !moved_nth by assumption. lra. Qed.
Lemma score_moved mlw r x : length x = length t -> length (ra_mu r) = length t ->
  score dg mlw (moved_atom a t r) (moved a t x) = sh (- ln (a * a) / 2) (score dg mlw r x).
Proof.
  intros H1 H2. unfold score, moved_atom. simpl ra_prec. simpl ra_mu. simpl ra_lam. simpl ra_scale.
  rewrite elnw, moved_len by exact H1. rewrite sh_scale, sh_fin, sh_r.
  rewrite (qform_scaled _ (dev x (ra_mu r))) by (intro i; apply dev_moved; assumption). apply sh_eq. lra.
Qed.
End A.

(* the shift cancels in the normalisation *)
Lemma max_sh k b c : ext_max (sh k b) (sh k c) = sh k (ext_max b c).
Proof.
  destruct b as [x| | |], c as [y| | |]; unfold ext_max; simpl; try reflexivity.
  unfold rltb. destruct (Rlt_dec (x + k) (y + k)), (Rlt_dec x y); try reflexivity; lra.
Qed.
Lemma col_max_sh k l : col_max (map (fun e => sh k e) l) = sh k (col_max l).
Proof.
  induction l as [|e l IH]; [reflexivity|]. unfold col_max in *. cbn [map fold_right]. rewrite IH. apply max_sh.
Qed.
Lemma resp_col_sh eps ovf k l : resp_col eps ovf (map (fun e => sh k e) l) = resp_col eps ovf l.
Proof.
  unfold resp_col, normalised. rewrite col_max_sh.
  assert (H : map (fun s => ext_add (ext_exp ovf (ext_add s (ext_opp (sh k (col_max l))))) (EF eps)) (map (fun e => sh k e) l)
            = map (fun s => ext_add (ext_exp ovf (ext_add s (ext_opp (col_max l)))) (EF eps)) l).
  { rewrite map_map. apply map_ext. intro e. do 2 f_equal. rewrite sh_opp, sh_add. replace (k + - k) with 0 by lra. apply sh_0. }
  cbv zeta. rewrite H. reflexivity.
Qed.
