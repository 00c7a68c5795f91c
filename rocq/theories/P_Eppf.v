(* Proofs about the Dirichlet partition probability. *)
From Coq Require Import Reals Permutation Lra.
From Verif Require Import Prelude M_Ext M_Sample S_Var S_Sample P_Var.
Open Scope R_scope.

Lemma rsum_perm l l' : Permutation l l' -> rsum l = rsum l'.
Proof. induction 1; rewrite ?rsum_cons; try lra; congruence. Qed.
Lemma list_sum_perm l l' : Permutation l l' -> list_sum l = list_sum l'.
Proof. induction 1; simpl in *; lia. Qed.
Lemma c55_symmetric_proof : forall lg alpha ns ns', Permutation ns ns' -> dirichlet_log_eppf lg alpha ns = dirichlet_log_eppf lg alpha ns'.
Proof.
  intros lg alpha ns ns' H. unfold dirichlet_log_eppf. rewrite (list_sum_perm _ _ H), (Permutation_length H), (rsum_perm _ _ (Permutation_map _ H)). reflexivity.
Qed.
Lemma grow_length j : forall ns, length (grow j ns) = length ns.
Proof. induction j; intros [|n t]; simpl; auto. Qed.
Lemma grow_sum j : forall ns, (j < length ns)%nat -> list_sum (grow j ns) = S (list_sum ns).
Proof. induction j; intros [|n t] H; simpl in *; try lia. rewrite IHj by lia. lia. Qed.
Lemma grow_lg lg j : log_gamma_like lg -> forall ns, blocks ns -> (j < length ns)%nat ->
  rsum (map (fun m => lg (INR m)) (grow j ns)) = rsum (map (fun m => lg (INR m)) ns) + ln (INR (nth j ns 0%nat)).
Proof.
  intros [G1 G]. induction j; intros [|n t] B H; simpl in H; try lia; inversion B; subst; cbn [grow map nth]; rewrite !rsum_cons.
  - rewrite S_INR, G by (apply lt_0_INR; lia). lra.
  - rewrite IHj by (auto; lia). lra.
Qed.
Lemma grow_ratio lg alpha ns j : log_gamma_like lg -> 0 < alpha -> blocks ns -> (j < length ns)%nat ->
  exp (dirichlet_log_eppf lg alpha (grow j ns)) = exp (dirichlet_log_eppf lg alpha ns) * (INR (nth j ns 0%nat) / (alpha + INR (list_sum ns))).
Proof.
  intros L A B H. assert (P : 0 < alpha + INR (list_sum ns)) by (pose proof (pos_INR (list_sum ns)); lra).
  assert (N : 0 < INR (nth j ns 0%nat)). { unfold blocks in B. rewrite Forall_forall in B. apply lt_0_INR. specialize (B _ (nth_In ns 0%nat H)). lia. }
  rewrite <- (exp_ln (INR (nth j ns 0%nat) / (alpha + INR (list_sum ns)))) by (apply Rdiv_lt_0_compat; assumption). rewrite <- exp_plus. f_equal. unfold dirichlet_log_eppf.
  rewrite grow_length, grow_sum, grow_lg by assumption. rewrite S_INR. replace (alpha + (INR (list_sum ns) + 1)) with (alpha + INR (list_sum ns) + 1) by ring.
  destruct L as [L1 L]. rewrite L by exact P. unfold Rdiv. rewrite ln_mult, ln_Rinv by (try apply Rinv_0_lt_compat; assumption). lra.
Qed.
Lemma new_ratio lg alpha ns : log_gamma_like lg -> 0 < alpha -> blocks ns ->
  exp (dirichlet_log_eppf lg alpha (ns ++ [1%nat])) = exp (dirichlet_log_eppf lg alpha ns) * (alpha / (alpha + INR (list_sum ns))).
Proof.
  intros L A B. assert (P : 0 < alpha + INR (list_sum ns)) by (pose proof (pos_INR (list_sum ns)); lra).
  rewrite <- (exp_ln (alpha / (alpha + INR (list_sum ns)))) by (apply Rdiv_lt_0_compat; assumption). rewrite <- exp_plus. f_equal. unfold dirichlet_log_eppf.
  rewrite app_length, list_sum_app, map_app, rsum_app. cbn [length list_sum fold_right map]. replace (length ns + 1)%nat with (S (length ns)) by lia. replace (list_sum ns + (1 + 0))%nat with (S (list_sum ns)) by lia.
  rewrite !S_INR. replace (alpha + (INR (list_sum ns) + 1)) with (alpha + INR (list_sum ns) + 1) by ring.
  destruct L as [L1 L]. rewrite L by exact P. unfold Rdiv. rewrite ln_mult, ln_Rinv by (try apply Rinv_0_lt_compat; assumption). cbn [rsum fold_right]. change (INR 0) with 0. rewrite Rplus_0_l, L1. lra.
Qed.
Lemma sum_nth_INR ns : rsum (map (fun j => INR (nth j ns 0%nat)) (seq 0 (length ns))) = INR (list_sum ns).
Proof.
  induction ns as [|n t IH]; [reflexivity|]. cbn [length seq map]. rewrite rsum_cons, <- seq_shift, map_map. cbn [nth]. rewrite IH.
  change (list_sum (n :: t)) with (n + list_sum t)%nat. rewrite plus_INR. reflexivity.
Qed.
Lemma rsum_ext {A} (f g : A -> R) l : (forall x, In x l -> f x = g x) -> rsum (map f l) = rsum (map g l).
Proof. induction l; intros H; [reflexivity|]. cbn [map]. rewrite !rsum_cons, IHl by (intros; apply H; right; assumption). rewrite H by (left; reflexivity). reflexivity. Qed.
Lemma c55_addition_proof : forall lg alpha ns, log_gamma_like lg -> 0 < alpha -> blocks ns ->
  exp (dirichlet_log_eppf lg alpha ns) =
  rsum (map (fun j => exp (dirichlet_log_eppf lg alpha (grow j ns))) (seq 0 (length ns))) + exp (dirichlet_log_eppf lg alpha (ns ++ [1%nat])).
Proof.
  intros lg alpha ns L A B. assert (P : 0 < alpha + INR (list_sum ns)) by (pose proof (pos_INR (list_sum ns)); lra).
  rewrite new_ratio by assumption. set (p := exp (dirichlet_log_eppf lg alpha ns)).
  rewrite (rsum_ext _ (fun j => p / (alpha + INR (list_sum ns)) * INR (nth j ns 0%nat))).
  - rewrite rsum_map_scale, sum_nth_INR. field. lra.
  - intros j Hj. apply in_seq in Hj. rewrite grow_ratio by (auto; lia). fold p. field. lra.
Qed.
(* ---- closed form ---- *)
Lemma lg_fact lg n : log_gamma_like lg -> (1 <= n)%nat -> exp (lg (INR n)) = INR (fact (n - 1)).
Proof.
  intros [L1 L] H. induction n as [|n IH]; [lia|]. destruct n as [|n]; [simpl; rewrite L1, exp_0; reflexivity|].
  rewrite S_INR, L by (apply lt_0_INR; lia). rewrite exp_plus, exp_ln by (apply lt_0_INR; lia). rewrite IH by lia. replace (S (S n) - 1)%nat with (S n) by lia. replace (S n - 1)%nat with n by lia.
  rewrite fact_simpl, mult_INR. reflexivity.
Qed.
Lemma lg_rising lg alpha n : log_gamma_like lg -> 0 < alpha -> exp (lg (alpha + INR n)) = exp (lg alpha) * rising alpha n.
Proof.
  intros [L1 L] A. induction n; [simpl; rewrite Rplus_0_r; ring|]. pose proof (pos_INR n). rewrite S_INR. replace (alpha + (INR n + 1)) with (alpha + INR n + 1) by ring.
  rewrite L by lra. rewrite exp_plus, exp_ln, IHn by lra. simpl. ring.
Qed.
Lemma rising_pos alpha n : 0 < alpha -> 0 < rising alpha n.
Proof. intros A. induction n; simpl; [lra|]. apply Rmult_lt_0_compat; [assumption|]. pose proof (pos_INR n). lra. Qed.
Lemma exp_rsum {A} (f : A -> R) l : exp (rsum (map f l)) = rprod (map (fun x => exp (f x)) l).
Proof. induction l; [apply exp_0|]. cbn [map]. rewrite rsum_cons, exp_plus, IHl. reflexivity. Qed.
Lemma c55_ewens_proof : forall lg alpha ns, log_gamma_like lg -> 0 < alpha -> blocks ns -> exp (dirichlet_log_eppf lg alpha ns) = ewens alpha ns.
Proof.
  intros lg alpha ns L A B. unfold dirichlet_log_eppf, ewens. rewrite !exp_plus. unfold Rminus. rewrite exp_plus, exp_Ropp, lg_rising by assumption. rewrite exp_rsum.
  replace (exp (INR (length ns) * ln alpha)) with (alpha ^ length ns) by (rewrite <- Rpower_pow by exact A; reflexivity).
  replace (rprod (map (fun x => exp (lg (INR x))) ns)) with (rprod (map (fun n => INR (fact (n - 1))) ns)).
  - field. split; [apply Rgt_not_eq, rising_pos, A|apply Rgt_not_eq, exp_pos].
  - f_equal. apply map_ext_in. intros n Hn. unfold blocks in B. rewrite Forall_forall in B. symmetry. apply lg_fact; auto.
Qed.
Lemma c55_first_proof : forall lg alpha, log_gamma_like lg -> 0 < alpha -> exp (dirichlet_log_eppf lg alpha [1%nat]) = 1.
Proof.
  intros lg alpha L A. rewrite c55_ewens_proof by (try assumption; repeat constructor). unfold ewens. simpl. field. lra.
Qed.
