(* The volume of the draws for which Gumbel-max sampling returns an index. *)
From Coq Require Import Reals Lra.
From Verif Require Import Prelude M_Ext M_Sample S_Var S_Sample P_Var P_Sample.
Open Scope R_scope.

(* ---- the integral of t^A over [0,1] ---- *)
Definition cut (f : R -> R) (t : R) : R := if Rle_dec t 0 then 0 else f t.
Definition pow_cut (A : R) : R -> R := cut (fun t => Rpower t A).
Lemma cut_pos f t : 0 < t -> cut f t = f t.
Proof. intros H. unfold cut. destruct (Rle_dec t 0); [lra|reflexivity]. Qed.
Lemma cut_neg f t : t <= 0 -> cut f t = 0.
Proof. intros H. unfold cut. destruct (Rle_dec t 0); [reflexivity|lra]. Qed.
Lemma cut_derive f f' : (forall t, 0 < t -> derivable_pt_lim f t (f' t)) -> (derivable_pt_lim (cut f) 0 0) -> forall t, derivable_pt_lim (cut f) t (cut f' t).
Proof.
  intros H H0 t. destruct (Rtotal_order t 0) as [T|[->|T]].
  - rewrite cut_neg by lra. intros e He. exists (mkposreal (- t) ltac:(lra)). intros h Hh L. simpl in L. rewrite !cut_neg; [|lra|apply Rabs_def2 in L; lra].
    replace ((0 - 0) / h - 0) with 0 by (field; exact Hh). rewrite Rabs_R0. exact He.
  - rewrite cut_neg by lra. exact H0.
  - rewrite cut_pos by exact T. intros e He. destruct (H t T e He) as [d D]. assert (M : 0 < Rmin d t) by (apply Rmin_glb_lt; [apply cond_pos|exact T]).
    exists (mkposreal _ M). intros h Hh L. simpl in L. pose proof (Rmin_l d t). pose proof (Rmin_r d t). rewrite !cut_pos; [|exact T|apply Rabs_def2 in L; lra].
    apply D; [exact Hh|lra].
Qed.
Lemma pow_small A e : 0 < A -> 0 < e -> exists d, 0 < d /\ forall t, 0 < t < d -> Rpower t A < e.
Proof.
  intros HA He. exists (Rpower e (/ A)). split; [unfold Rpower; apply exp_pos|]. intros t [T1 T2].
  replace e with (Rpower (Rpower e (/ A)) A) by (rewrite Rpower_mult, Rinv_l, Rpower_1; lra). unfold Rpower at 1 2. apply exp_increasing. apply Rmult_lt_compat_l; [exact HA|]. apply ln_increasing; assumption.
Qed.
Lemma pow_cut_cont A : 0 < A -> continuity (pow_cut A).
Proof.
  intros HA t. destruct (Req_dec t 0) as [->|T].
  - intros e He. destruct (pow_small A e HA He) as (d & D & P). exists d. split; [exact D|]. intros x [_ X]. simpl in *. unfold R_dist in *. unfold pow_cut.
    rewrite (cut_neg _ 0) by lra. destruct (Rle_or_lt x 0) as [N|N]; [rewrite cut_neg by exact N; rewrite Rminus_0_r, Rabs_R0; lra|].
    rewrite cut_pos by exact N. rewrite Rminus_0_r in *. rewrite Rabs_pos_eq in X by lra. rewrite Rabs_pos_eq; [apply P; lra|]. unfold Rpower. apply Rlt_le, exp_pos.
  - apply derivable_continuous_pt. destruct (total_order_T t 0) as [[N|N]|N]; [|contradiction|].
    + exists 0. intros e He. exists (mkposreal (- t) ltac:(lra)). intros h Hh L. simpl in L. unfold pow_cut. rewrite !cut_neg; [|lra|apply Rabs_def2 in L; lra].
      replace ((0 - 0) / h - 0) with 0 by (field; exact Hh). rewrite Rabs_R0. exact He.
    + exists (A * Rpower t (A - 1)). intros e He. destruct (derivable_pt_lim_power t A N e He) as [d D]. assert (M : 0 < Rmin d t) by (apply Rmin_glb_lt; [apply cond_pos|exact N]).
      exists (mkposreal _ M). intros h Hh L. simpl in L. pose proof (Rmin_l d t). pose proof (Rmin_r d t). unfold pow_cut. rewrite !cut_pos; [|exact N|apply Rabs_def2 in L; lra].
      apply D; [exact Hh|lra].
Qed.
Definition pow_prim (A : R) : R -> R := cut (fun t => / (A + 1) * Rpower t (A + 1)).
Lemma pow_prim_derive A : 0 < A -> forall t, derivable_pt_lim (pow_prim A) t (pow_cut A t).
Proof.
  intros HA. apply cut_derive.
  - intros t T. replace (Rpower t A) with (/ (A + 1) * ((A + 1) * Rpower t (A + 1 - 1))) by (replace (A + 1 - 1) with A by ring; field; lra).
    apply (derivable_pt_lim_scal (fun t => Rpower t (A + 1))). apply derivable_pt_lim_power. exact T.
  - intros e He. destruct (pow_small A e HA He) as (d & D & P). exists (mkposreal d D). intros h Hh L. simpl in L. rewrite Rplus_0_l. rewrite (cut_neg _ 0) by lra.
    destruct (Rle_or_lt h 0) as [N|N]; [rewrite cut_neg by exact N; replace ((0 - 0) / h - 0) with 0 by (field; exact Hh); rewrite Rabs_R0; exact He|].
    rewrite cut_pos by exact N. rewrite Rpower_plus, Rpower_1 by exact N. replace ((/ (A + 1) * (Rpower h A * h) - 0) / h - 0) with (/ (A + 1) * Rpower h A) by (field; lra).
    rewrite Rabs_pos_eq in L by lra. pose proof (P h ltac:(lra)). assert (0 < Rpower h A) by (unfold Rpower; apply exp_pos).
    assert (I : 0 < / (A + 1) < 1). { split; [apply Rinv_0_lt_compat; lra|]. rewrite <- Rinv_1. apply Rinv_lt_contravar; lra. }
    rewrite Rabs_pos_eq; nra.
Qed.
Definition prim_C1 (A : R) (H : 0 < A) : C1_fun.
Proof.
  refine (mkC1 (c1 := pow_prim A) (diff0 := fun t => exist _ (pow_cut A t) (pow_prim_derive A H t)) _).
  intros t. change (continuity_pt (pow_cut A) t). apply pow_cut_cont. exact H.
Defined.
Lemma pow_integral A (H : 0 < A) : exists pr : Riemann_integrable (pow_cut A) 0 1, RiemannInt pr = / (A + 1).
Proof.
  assert (pr : Riemann_integrable (pow_cut A) 0 1) by (apply continuity_implies_RiemannInt; [lra|]; intros; apply pow_cut_cont; exact H).
  exists pr. pose proof (FTC_Riemann (prim_C1 A H) pr) as F. etransitivity; [exact F|]. cbn [c1 prim_C1]. unfold pow_prim. rewrite cut_pos, cut_neg by lra.
  unfold Rpower. rewrite ln_1, Rmult_0_r, exp_0. ring.
Qed.

(* ---- the boxes ---- *)
Definition side (logp : list ext) (j i : nat) (t : R) : R :=
  if Req_EM_T (pw logp i) 0 then 1 else pow_cut (pw logp i / pw logp j) t.
Lemma pw_nonneg logp i : 0 <= pw logp i.
Proof. unfold pw. destruct (nth i logp ENI); simpl; try lra. apply Rlt_le, exp_pos. Qed.
Lemma side_unit logp j i t : 0 < pw logp j -> 0 <= t <= 1 -> 0 <= side logp j i t <= 1.
Proof.
  intros J T. unfold side. destruct (Req_EM_T (pw logp i) 0); [lra|]. destruct (Rle_or_lt t 0); unfold pow_cut; [rewrite cut_neg by assumption; lra|]. rewrite cut_pos by assumption.
  split; [apply Rlt_le; unfold Rpower; apply exp_pos|]. rewrite <- exp_0. unfold Rpower. pose proof (pw_nonneg logp i).
  assert (L : ln t <= 0) by (destruct (Req_dec t 1) as [->|]; [rewrite ln_1; lra|]; pose proof (ln_increasing t 1 ltac:(lra) ltac:(lra)); rewrite ln_1 in *; lra).
  assert (D : 0 <= pw logp i / pw logp j) by (apply Rmult_le_pos; [lra|apply Rlt_le, Rinv_0_lt_compat, J]).
  destruct (Rle_lt_or_eq_dec (pw logp i / pw logp j * ln t) 0 ltac:(nra)) as [X|X]; [apply Rlt_le, exp_increasing, X|rewrite X; lra].
Qed.
(* sum over the indices other than j *)
Fixpoint sum_but (j : nat) (f : nat -> R) (n : nat) : R :=
  match n with O => 0 | S m => sum_but j f m + (if Nat.eqb m j then 0 else f m) end.
Lemma sum_but_nonneg j f n : (forall i, 0 <= f i) -> 0 <= sum_but j f n.
Proof. intros H. induction n; simpl; [lra|]. destruct (Nat.eqb n j); specialize (H n); lra. Qed.
Lemma prod_pos logp j t n : 0 < pw logp j -> 0 < t -> prod_but j (fun i => side logp j i t) n = Rpower t (sum_but j (pw logp) n / pw logp j).
Proof.
  intros J T. induction n; cbn [prod_but sum_but]; [unfold Rdiv; rewrite Rmult_0_l, Rpower_O by exact T; reflexivity|]. rewrite IHn.
  destruct (Nat.eqb n j); [rewrite Rmult_1_r, Rplus_0_r; reflexivity|]. unfold side. destruct (Req_EM_T (pw logp n) 0) as [->|X]; [rewrite Rmult_1_r, Rplus_0_r; reflexivity|].
  unfold pow_cut. rewrite cut_pos by exact T. rewrite <- Rpower_plus. f_equal. field. lra.
Qed.
Lemma prod_neg logp j t n : t <= 0 -> prod_but j (fun i => side logp j i t) n = if Req_EM_T (sum_but j (pw logp) n) 0 then 1 else 0.
Proof.
  intros T. induction n; cbn [prod_but sum_but]; [destruct (Req_EM_T 0 0); [reflexivity|contradiction]|]. rewrite IHn. pose proof (sum_but_nonneg j (pw logp) n (pw_nonneg logp)).
  pose proof (pw_nonneg logp n). destruct (Nat.eqb n j); [rewrite Rmult_1_r, Rplus_0_r; reflexivity|]. unfold side. destruct (Req_EM_T (pw logp n) 0) as [->|X]; [rewrite Rmult_1_r, Rplus_0_r; reflexivity|].
  unfold pow_cut. rewrite cut_neg by exact T. rewrite Rmult_0_r. destruct (Req_EM_T (sum_but j (pw logp) n + pw logp n) 0); [lra|reflexivity].
Qed.
Lemma integral_eq f g a b v : (forall t, f t = g t) -> (exists pr : Riemann_integrable f a b, RiemannInt pr = v) -> exists pr : Riemann_integrable g a b, RiemannInt pr = v.
Proof.
  intros H [pr E]. assert (X : g = f) by (apply FunctionalExtensionality.functional_extensionality; intros; symmetry; apply H). subst g. exists pr. exact E.
Qed.
Lemma sum_but_all j f n : (j < n)%nat -> sum_but j f n = rsum (map f (seq 0 n)) - f j.
Proof.
  intros H. assert (G : forall n, sum_but j f n = rsum (map f (seq 0 n)) - if (j <? n)%nat then f j else 0).
  { clear n H. induction n; [simpl; lra|]. rewrite seq_S, map_app, rsum_app. cbn [sum_but map Nat.add]. rewrite rsum_cons, IHn. cbn [rsum fold_right].
    destruct (Nat.eqb_spec n j), (Nat.ltb_spec j n), (Nat.ltb_spec j (S n)); subst; try lia; lra. }
  rewrite G. apply Nat.ltb_lt in H. rewrite H. reflexivity.
Qed.
Lemma total_pw logp : total logp = rsum (map (pw logp) (seq 0 (length logp))).
Proof.
  unfold total, pw. induction logp as [|a t IH]; [reflexivity|]. cbn [length seq map]. rewrite !rsum_cons, <- seq_shift, map_map. cbn [nth]. rewrite <- IH. reflexivity.
Qed.
(* the winner's cut *)
Lemma side_lt logp j i u t : 0 < pw logp j -> 0 < t < 1 -> 0 < u < 1 -> (u < side logp j i t -> pw logp i * (- ln t) < pw logp j * (- ln u)) /\
  (pw logp i * (- ln t) <= pw logp j * (- ln u) -> u <= side logp j i t).
Proof.
  intros J T U. unfold side. pose proof (neg_ln_pos _ T) as NT. pose proof (neg_ln_pos _ U) as NU. destruct (Req_EM_T (pw logp i) 0) as [->|X]; [split; intros; [nra|lra]|].
  unfold pow_cut. rewrite cut_pos by lra. unfold Rpower. rewrite <- (exp_ln u) at 1 4 by lra. split; intros H.
  - apply exp_lt_inv in H. apply (Rmult_lt_compat_l (pw logp j)) in H; [|exact J]. replace (pw logp j * (pw logp i / pw logp j * ln t)) with (pw logp i * ln t) in H by (field; lra). lra.
  - assert (K : ln u <= pw logp i / pw logp j * ln t).
    { apply (Rmult_le_reg_l (pw logp j)); [exact J|]. replace (pw logp j * (pw logp i / pw logp j * ln t)) with (pw logp i * ln t) by (field; lra). lra. }
    destruct K as [K|K]; [apply Rlt_le, exp_increasing, K|rewrite K; lra].
Qed.
Lemma c46_volume_proof : forall logp j r, proper logp -> (j < length logp)%nat -> nth j logp ENI = EF r ->
  sliced_volume (length logp) j (fun us => gumbel_max logp us = Ok j) (exp r / total logp).
Proof.
  intros logp j r P J E. assert (PJ : pw logp j = exp r) by (unfold pw; rewrite E; reflexivity). assert (PJ0 : 0 < pw logp j) by (rewrite PJ; apply exp_pos). rewrite <- PJ.
  exists (side logp j). split; [intros; apply side_unit; assumption|]. split.
  - intros us L U. assert (Un : forall i, (i < length logp)%nat -> 0 < nth i us 0 < 1) by (intros i Hi; unfold open_unit in U; rewrite Forall_forall in U; apply U, nth_In; lia).
    split.
    + intros H. apply c46_race_proof; try assumption. split; [exact J|]. split.
      * intros i Hi. destruct (Nat.eq_dec i j) as [->|N]; [lra|]. apply Rlt_le. apply (side_lt logp j i (nth i us 0) (nth j us 0)); [exact PJ0|apply Un, J|apply Un, Hi|apply H; assumption].
      * intros i Hi. apply (side_lt logp j i (nth i us 0) (nth j us 0)); [exact PJ0|apply Un, J|apply Un; lia|apply H; lia].
    + intros H i Hi N. apply c46_race_proof in H as (_ & G & _); try assumption. apply (side_lt logp j i (nth i us 0) (nth j us 0)); [exact PJ0|apply Un, J|apply Un, Hi|apply G, Hi].
  - set (A := sum_but j (pw logp) (length logp) / pw logp j). pose proof (sum_but_nonneg j (pw logp) (length logp) (pw_nonneg logp)) as N.
    assert (TA : total logp = pw logp j * (A + 1)) by (unfold A; rewrite total_pw; rewrite sum_but_all by exact J; field; lra).
    assert (V : pw logp j / total logp = / (A + 1)).
    { rewrite TA. assert (0 <= A) by (apply Rmult_le_pos; [exact N|apply Rlt_le, Rinv_0_lt_compat, PJ0]). field. split; lra. }
    rewrite V. destruct (Rle_lt_or_eq_dec _ _ N) as [N1|N1].
    + assert (A0 : 0 < A) by (apply Rmult_lt_0_compat; [exact N1|apply Rinv_0_lt_compat, PJ0]).
      apply (integral_eq (pow_cut A)); [|apply pow_integral; exact A0]. intros t. unfold pow_cut. destruct (Rle_or_lt t 0) as [T|T].
      * rewrite cut_neg, prod_neg by exact T. destruct (Req_EM_T _ 0); [lra|reflexivity].
      * rewrite cut_pos, prod_pos by assumption. reflexivity.
    + assert (A0 : A = 0) by (unfold A; rewrite <- N1; unfold Rdiv; ring). rewrite A0. apply (integral_eq (fct_cte 1)).
      * intros t. destruct (Rle_or_lt t 0) as [T|T]; [rewrite prod_neg by exact T; rewrite <- N1; destruct (Req_EM_T 0 0); [reflexivity|contradiction]|].
        rewrite prod_pos by assumption. rewrite <- N1. unfold Rdiv. rewrite Rmult_0_l, Rpower_O by exact T. reflexivity.
      * exists (RiemannInt_P14 0 1 1). rewrite RiemannInt_P15. field.
Qed.
(* a draw equal to 0, which numpy allows, may select an impossible index *)
Lemma c46_zero_draw_refuted_proof : exists logp us j r, proper logp /\ length us = length logp /\ Forall (fun u => 0 <= u < 1) us /\
  In (EF r) logp /\ gumbel_max logp us = Ok j /\ nth j logp ENI = ENI.
Proof.
  exists [ENI; EF 0], [1/2; 0], 0%nat, 0. split; [constructor; [left; reflexivity|constructor; [right; eexists; reflexivity|constructor]]|]. split; [reflexivity|].
  split; [repeat constructor; lra|]. split; [simpl; auto|]. split; [|reflexivity]. unfold gumbel_max. cbn [combine map]. rewrite pert_eni by lra. unfold perturbed. cbn [fst snd ext_log].
  replace (rltb 0 0) with false; [|symmetry; unfold rltb; destruct (Rlt_dec 0 0); [lra|reflexivity]]. replace (reqb 0 0) with true; [|symmetry; unfold reqb; destruct (Req_EM_T 0 0); [reflexivity|contradiction]].
  reflexivity.
Qed.
