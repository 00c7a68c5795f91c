(* Proofs for C78: integrals of piecewise constant functions and the slice kernel. *)
From Coq Require Import Reals Lra.
From Verif Require Import Prelude M_Ext S_Var S_Slice P_Var P_Var27 P_Var31 P_Opt.
Open Scope R_scope.

(* ---- integrals of step functions ---- *)
Lemma ri_flat g a b c : a <= b -> (forall x, a < x < b -> g x = c) -> Riemann_integrable g a b.
Proof.
  intros H K. assert (S1 : IsStepFun g a b).
  { exists [a; b], [c]. repeat split; simpl.
    - intros i Hi. simpl in Hi. assert (i = 0%nat) by lia. subst. simpl. exact H.
    - rewrite Rmin_left; auto.
    - rewrite Rmax_right; auto.
    - intros i Hi. simpl in Hi. assert (i = 0%nat) by lia. subst. simpl. intros x [? ?]. apply K. split; auto. }
  intros e. exists (mkStepFun S1), (mkStepFun (StepFun_P4 a b 0)). split.
  - intros t _. simpl. unfold fct_cte. unfold Rminus. rewrite Rplus_opp_r, Rabs_R0. apply Rle_refl.
  - rewrite StepFun_P18, Rmult_0_l, Rabs_R0. apply cond_pos.
Qed.
Lemma ri_cuts g cuts : forall a b, a <= b ->
  (forall x y, a < x < b -> a < y < b -> (forall c, In c cuts -> (x < c <-> y < c)) -> g x = g y) -> Riemann_integrable g a b.
Proof.
  induction cuts as [|c cuts IH]; intros a b H K.
  - apply (ri_flat g a b (g ((a + b) / 2))); [exact H|]. intros x Hx. apply K; [exact Hx|lra|intros c []].
  - destruct (Rle_dec c a) as [L1|L1].
    { apply IH; [exact H|]. intros x y Hx Hy Hc. apply K; auto. intros c' [<-|Hc']; [lra|auto]. }
    destruct (Rle_dec b c) as [L2|L2].
    { apply IH; [exact H|]. intros x y Hx Hy Hc. apply K; auto. intros c' [<-|Hc']; [lra|auto]. }
    apply (RiemannInt_P21 (b := c)); [lra|lra| |].
    + apply IH; [lra|]. intros x y Hx Hy Hc. apply K; [lra|lra|]. intros c' [<-|Hc']; [lra|auto].
    + apply IH; [lra|]. intros x y Hx Hy Hc. apply K; [lra|lra|]. intros c' [<-|Hc']; [lra|auto].
Qed.
Lemma int_unique g a b x y : is_int g a b x -> is_int g a b y -> x = y.
Proof. intros (p1 & <-) (p2 & <-). apply RiemannInt_P5. Qed.
Lemma int_ext g h a b x y : a <= b -> (forall u, a < u < b -> g u = h u) -> is_int g a b x -> is_int h a b y -> x = y.
Proof. intros H K (p1 & <-) (p2 & <-). apply RiemannInt_P18; assumption. Qed.
Lemma int_le g h a b x y : a <= b -> (forall u, a < u < b -> g u <= h u) -> is_int g a b x -> is_int h a b y -> x <= y.
Proof. intros H K (p1 & <-) (p2 & <-). apply RiemannInt_P19; assumption. Qed.
Lemma int_cst c a b : is_int (fct_cte c) a b (c * (b - a)).
Proof. exists (RiemannInt_P14 a b c). apply RiemannInt_P15. Qed.
Lemma int_flat g a b c x : a <= b -> (forall u, a < u < b -> g u = c) -> is_int g a b x -> x = c * (b - a).
Proof. intros H K I. apply (int_ext g (fct_cte c) a b); auto. apply int_cst. Qed.
Lemma int_below g a b c x : a <= b -> (forall u, a < u < b -> g u <= c) -> is_int g a b x -> x <= c * (b - a).
Proof. intros H K I. apply (int_le g (fct_cte c) a b); auto. apply int_cst. Qed.
Lemma int_above g a b c x : a <= b -> (forall u, a < u < b -> c <= g u) -> is_int g a b x -> c * (b - a) <= x.
Proof. intros H K I. apply (int_le (fct_cte c) g a b); auto. apply int_cst. Qed.
Lemma int_chasles g a b c x y z : is_int g a b x -> is_int g b c y -> is_int g a c z -> z = x + y.
Proof. intros (p1 & <-) (p2 & <-) (p3 & <-). symmetry. apply RiemannInt_P26. Qed.
Lemma int_lin g h l a b x y : is_int g a b x -> is_int h a b y -> is_int (fun u => g u + l * h u) a b (x + l * y).
Proof. intros (p1 & <-) (p2 & <-). exists (RiemannInt_P10 l p1 p2). apply RiemannInt_P13. Qed.

Section K.
Variables (k : nat) (w f : nat -> R).
Hypothesis Hw : positive k w.
Hypothesis Hf : positive k f.

(* functions of which components are above the slice *)
Definition dep (g : R -> R) : Prop := forall x y, (forall j, (j < k)%nat -> (x < w j <-> y < w j)) -> g x = g y.
Lemma dep_int g a b : dep g -> a <= b -> exists x, is_int g a b x.
Proof.
  intros H Hab. assert (p : Riemann_integrable g a b).
  { apply (ri_cuts g (map w (seq 0 k)) a b Hab). intros x y _ _ Hc. apply H. intros j Hj. apply Hc. apply in_map, in_seq. lia. }
  exists (RiemannInt p), p. reflexivity.
Qed.
Lemma dep_above j : (j < k)%nat -> dep (fun u => above w f u j).
Proof. intros Hj x y H. unfold above. specialize (H j Hj). destruct (Rlt_dec x (w j)), (Rlt_dec y (w j)); tauto. Qed.
Lemma dep_mass : dep (slice_mass k w f).
Proof. intros x y H. unfold slice_mass. apply sumn_ext. intros j Hj. apply (dep_above j Hj); exact H. Qed.
Lemma dep_prob j : (j < k)%nat -> dep (fun u => label_prob k w f u j).
Proof. intros Hj x y H. unfold label_prob. rewrite (dep_mass x y H), (dep_above j Hj x y H). reflexivity. Qed.

Lemma above_nonneg u j : (j < k)%nat -> 0 <= above w f u j.
Proof. intros Hj. unfold above. pose proof (Hf j Hj). destruct (Rlt_dec u (w j)); lra. Qed.
Lemma mass_ge u j : (j < k)%nat -> above w f u j <= slice_mass k w f u.
Proof.
  intros Hj. unfold slice_mass. clear Hw. induction k as [|n IH]; [lia|]. rewrite sumn_S.
  assert (P : forall m, (m <= n)%nat -> 0 <= above w f u m) by (intros m Hm; unfold above; assert (0 < f m) by (apply Hf; lia); destruct (Rlt_dec u (w m)); lra).
  destruct (Nat.eq_dec j n) as [->|N].
  - assert (0 <= sumn (above w f u) n). { rewrite <- (Rmult_0_r (INR n)), <- sumn_const. apply sumn_le. intros m Hm. apply P; lia. } lra.
  - assert (above w f u j <= sumn (above w f u) n) by (apply IH; [intros m Hm; apply Hf; lia|lia]). specialize (P n (le_n _)). lra.
Qed.
Lemma mass_nonneg u : 0 <= slice_mass k w f u.
Proof. unfold slice_mass. rewrite <- (Rmult_0_r (INR k)), <- sumn_const. apply sumn_le. intros; apply above_nonneg; auto. Qed.
Lemma mass_pos u j : (j < k)%nat -> u < w j -> f j <= slice_mass k w f u /\ 0 < slice_mass k w f u.
Proof. intros Hj Hu. pose proof (mass_ge u j Hj) as H. unfold above in H. destruct (Rlt_dec u (w j)); [|contradiction]. pose proof (Hf j Hj). split; lra. Qed.
Lemma mass_zero u : (forall j, (j < k)%nat -> w j <= u) -> slice_mass k w f u = 0.
Proof. intros H. unfold slice_mass. rewrite (sumn_ext _ (fun _ => 0)); [rewrite sumn_const; ring|]. intros j Hj. unfold above. specialize (H j Hj). destruct (Rlt_dec u (w j)); lra. Qed.
Lemma mass_zero_inv u : slice_mass k w f u = 0 -> forall j, (j < k)%nat -> w j <= u.
Proof. intros H j Hj. destruct (Rle_dec (w j) u); [assumption|]. destruct (mass_pos u j Hj); lra. Qed.
Lemma prob_bounds u j : (j < k)%nat -> 0 <= label_prob k w f u j <= 1.
Proof.
  intros Hj. unfold label_prob. destruct (Req_EM_T _ 0) as [E|E]; [destruct (Nat.eqb j 0); lra|].
  pose proof (mass_nonneg u). pose proof (mass_ge u j Hj). pose proof (above_nonneg u j Hj). assert (P : 0 < slice_mass k w f u) by lra.
  split; [apply Rmult_le_pos; [lra|left; apply Rinv_0_lt_compat, P]|]. apply (Rmult_le_reg_r (slice_mass k w f u)); [exact P|]. unfold Rdiv. rewrite Rmult_assoc, Rinv_l, Rmult_1_r, Rmult_1_l by lra. lra.
Qed.
Lemma prob_int a b j x : (j < k)%nat -> a <= b -> is_int (fun u => label_prob k w f u j) a b x -> 0 <= x <= b - a.
Proof.
  intros Hj H X. pose proof (int_above _ a b 0 x H (fun u _ => proj1 (prob_bounds u j Hj)) X). pose proof (int_below _ a b 1 x H (fun u _ => proj2 (prob_bounds u j Hj)) X). lra.
Qed.
Lemma prob_sum u : (0 < k)%nat -> sumn (label_prob k w f u) k = 1.
Proof.
  intros Hk. unfold label_prob. destruct (Req_EM_T _ 0) as [E|E].
  - clear -Hk. destruct k as [|n]; [lia|]. clear. induction n as [|n IH]; [rewrite sumn_S; unfold sumn; simpl; ring|]. rewrite sumn_S, IH. simpl. ring.
  - unfold Rdiv. rewrite (sumn_ext _ (fun j => / slice_mass k w f u * above w f u j)) by (intros; ring). rewrite sumn_scale. apply Rinv_l, E.
Qed.

Lemma int_sum (g : nat -> R -> R) a b n (xs : nat -> R) : (forall j, (j < n)%nat -> is_int (g j) a b (xs j)) -> (n <= k)%nat -> a <= b ->
  (forall j, (j < n)%nat -> dep (g j)) -> forall z, is_int (fun u => sumn (fun j => g j u) n) a b z -> z = sumn xs n.
Proof.
  induction n as [|n IH]; intros H Hn Hab Hd z Hz.
  - apply (int_flat _ a b 0) in Hz; [rewrite Hz; unfold sumn; simpl; ring|exact Hab|reflexivity].
  - assert (D : dep (fun u => sumn (fun j => g j u) n)) by (intros x y Hxy; apply sumn_ext; intros j Hj; apply Hd; [lia|exact Hxy]).
    destruct (dep_int _ a b D Hab) as (z1 & Z1). rewrite sumn_S. rewrite <- (IH ltac:(auto) ltac:(lia) Hab ltac:(auto) z1 Z1).
    pose proof (int_lin _ _ 1 _ _ _ _ Z1 (H n (le_n _))) as L. replace (z1 + xs n) with (z1 + 1 * xs n) by ring.
    eapply (int_ext _ _ a b); [exact Hab| |exact Hz|exact L]. intros u _. cbv beta. rewrite sumn_S. ring.
Qed.

(* ---- the kernel ---- *)
Lemma c78_prob e i j : (i < k)%nat -> (j < k)%nat -> exists p, moves e k w f i j p /\ 0 <= p <= 1 /\ forall q, moves e k w f i j q -> q = p.
Proof.
  intros Hi Hj. pose proof (Hw i Hi) as Pi. destruct (dep_int _ e (w i + e) (dep_prob j Hj) ltac:(lra)) as (x & X).
  exists (x / w i). split; [exists x; auto|]. split.
  - pose proof (prob_int e (w i + e) j x Hj ltac:(lra) X).
    split; [apply Rmult_le_pos; [lra|left; apply Rinv_0_lt_compat, Pi]|]. apply (Rmult_le_reg_r (w i)); [exact Pi|]. unfold Rdiv. rewrite Rmult_assoc, Rinv_l, Rmult_1_r, Rmult_1_l by lra. lra.
  - intros q (y & Y & ->). rewrite (int_unique _ _ _ _ _ X Y). reflexivity.
Qed.
Lemma c78_total e i ps : (i < k)%nat -> (forall j, (j < k)%nat -> moves e k w f i j (ps j)) -> sumn ps k = 1.
Proof.
  intros Hi H. pose proof (Hw i Hi) as Pi.
  assert (X : forall j, (j < k)%nat -> is_int (fun u => label_prob k w f u j) e (w i + e) (w i * ps j)).
  { intros j Hj. destruct (H j Hj) as (x & X & ->). replace (w i * (x / w i)) with x by (field; lra). exact X. }
  assert (D : dep (fun u => sumn (fun j => label_prob k w f u j) k)) by (intros x y Hxy; apply sumn_ext; intros j Hj; apply (dep_prob j Hj), Hxy).
  destruct (dep_int _ e (w i + e) D ltac:(lra)) as (z & Z).
  pose proof (int_sum (fun j u => label_prob k w f u j) e (w i + e) k (fun j => w i * ps j) X (le_n _) ltac:(lra) (fun j Hj => dep_prob j Hj) z Z) as E.
  apply (int_flat _ e (w i + e) 1) in Z; [|lra|intros; apply prob_sum; lia]. rewrite sumn_scale in E. change (sumn (fun j => ps j) k) with (sumn ps k) in E. apply (Rmult_eq_reg_l (w i)); [|lra]. rewrite <- E, Z. ring.
Qed.

(* the flow from i to j, as an integral *)
Lemma flow_int e i j p : (i < k)%nat -> moves e k w f i j p -> is_int (fun u => label_prob k w f u j) e (w i + e) (w i * p).
Proof. intros Hi (x & X & ->). pose proof (Hw i Hi). replace (w i * (x / w i)) with x by (field; lra). exact X. Qed.
Lemma prob_below u j i : (j < k)%nat -> (i < k)%nat -> u < w i -> label_prob k w f u j = above w f u j / slice_mass k w f u.
Proof. intros Hj Hi Hu. unfold label_prob. destruct (mass_pos u i Hi Hu). destruct (Req_EM_T _ 0); [lra|reflexivity]. Qed.

(* below w i, the two flows cancel *)
Lemma flow_sym a b i j x y : (i < k)%nat -> (j < k)%nat -> a <= b -> b <= w i -> b <= w j ->
  is_int (fun u => label_prob k w f u j) a b x -> is_int (fun u => label_prob k w f u i) a b y -> f i * x = f j * y.
Proof.
  intros Hi Hj Hab Hbi Hbj X Y.
  pose proof (int_lin _ _ (f i) _ _ _ _ (int_cst 0 a b) X) as X'. pose proof (int_lin _ _ (f j) _ _ _ _ (int_cst 0 a b) Y) as Y'.
  assert (E : 0 * (b - a) + f i * x = 0 * (b - a) + f j * y); [|lra].
  eapply (int_ext _ _ a b); [exact Hab| |exact X'|exact Y']. intros u Hu. cbv beta. unfold fct_cte.
  rewrite !(prob_below u _ i) by (auto; lra). unfold above. destruct (Rlt_dec u (w i)); [|lra]. destruct (Rlt_dec u (w j)); [|lra]. unfold Rdiv. ring.
Qed.

Lemma c78_reversible i j p q : (i < k)%nat -> (j < k)%nat -> moves 0 k w f i j p -> moves 0 k w f j i q -> w i * f i * p = w j * f j * q.
Proof.
  assert (G : forall i j p q, (i < k)%nat -> (j < k)%nat -> w i <= w j -> moves 0 k w f i j p -> moves 0 k w f j i q -> w i * f i * p = w j * f j * q).
  { clear i j p q. intros i j p q Hi Hj L P Q. pose proof (Hw i Hi). pose proof (Hw j Hj). apply flow_int in P, Q; auto. rewrite Rplus_0_r in *.
    destruct (dep_int _ 0 (w i) (dep_prob i Hi) ltac:(lra)) as (y1 & Y1). destruct (dep_int _ (w i) (w j) (dep_prob i Hi) L) as (y2 & Y2).
    pose proof (int_chasles _ _ _ _ _ _ _ Y1 Y2 Q) as EQ. apply (int_flat _ _ _ 0) in Y2; [|exact L|].
    - pose proof (flow_sym 0 (w i) i j (w i * p) y1 Hi Hj ltac:(lra) ltac:(lra) L P Y1) as Z. rewrite Y2 in EQ. assert (w j * q = y1) by lra. rewrite <- H1 in Z. lra.
    - intros u Hu. rewrite (prob_below u i j) by (auto; lra). unfold above. destruct (Rlt_dec u (w i)); [lra|]. unfold Rdiv; ring. }
  intros Hi Hj P Q. destruct (Rle_dec (w i) (w j)); [apply G; assumption|]. symmetry. apply G; auto. lra.
Qed.
Lemma c78_invariant (ps : nat -> nat -> R) j : (forall i j, (i < k)%nat -> (j < k)%nat -> moves 0 k w f i j (ps i j)) -> (j < k)%nat ->
  sumn (fun i => w i * f i * ps i j) k = w j * f j.
Proof.
  intros H Hj. rewrite (sumn_ext _ (fun i => w j * f j * ps j i)).
  - rewrite sumn_scale. change (sumn (fun i => ps j i) k) with (sumn (ps j) k). rewrite (c78_total 0 j (ps j)) by auto. ring.
  - intros i Hi. apply c78_reversible; auto.
Qed.

(* ---- with the shift e ---- *)
(* what of (a, b) lies where component j and nothing lighter than ... *)
Lemma excess e i j p q : 0 <= e -> (i < k)%nat -> (j < k)%nat -> i <> j -> w i <= w j -> moves e k w f i j p -> moves e k w f j i q ->
  w i * f i * p - w j * f j * q <= e * f i /\ - (e * f j) <= w i * f i * p - w j * f j * q /\
  (i <> 0%nat -> 0 <= w i * f i * p - w j * f j * q) /\
  (i <> 0%nat -> w i < w j -> 0 < e -> e < w j -> 0 < w i * f i * p - w j * f j * q).
Proof.
  intros He Hi Hj N L P Q. pose proof (Hw i Hi) as Pi. pose proof (Hw j Hj) as Pj. pose proof (Hf i Hi) as Fi. pose proof (Hf j Hj) as Fj. apply flow_int in P, Q; auto.
  set (m := Rmax e (w i)).
  assert (Hm : e <= m /\ w i <= m /\ m <= w i + e /\ m <= w j + e) by (unfold m; unfold Rmax; destruct (Rle_dec e (w i)); lra).
  (* P: e .. m .. w i + e ; Q: e .. m .. w j + e *)
  destruct (dep_int _ e m (dep_prob j Hj) ltac:(lra)) as (p1 & P1). destruct (dep_int _ m (w i + e) (dep_prob j Hj) ltac:(lra)) as (p2 & P2).
  destruct (dep_int _ e m (dep_prob i Hi) ltac:(lra)) as (q1 & Q1). destruct (dep_int _ m (w j + e) (dep_prob i Hi) ltac:(lra)) as (q2 & Q2).
  pose proof (int_chasles _ _ _ _ _ _ _ P1 P2 P) as EP. pose proof (int_chasles _ _ _ _ _ _ _ Q1 Q2 Q) as EQ.
  assert (S1 : f i * p1 = f j * q1).
  { destruct (Rle_dec (w i) e) as [C|C].
    - assert (m = e) by (unfold m, Rmax; destruct (Rle_dec e (w i)); lra). rewrite H in *. apply (int_flat _ e e 0) in P1, Q1; try apply Rle_refl; try (intros; lra). rewrite P1, Q1. ring.
    - assert (m = w i) by (unfold m, Rmax; destruct (Rle_dec e (w i)); lra). rewrite H in *. apply (flow_sym e (w i) i j); auto; lra. }
  assert (B2 : 0 <= p2 <= w i + e - m) by (apply (prob_int m (w i + e) j p2 Hj); [lra|exact P2]).
  (* q2: only where nothing is above the slice *)
  destruct (dep_int _ m (Rmax m (w j)) (dep_prob i Hi) (Rmax_l _ _)) as (q3 & Q3).
  assert (Hm2 : Rmax m (w j) <= w j + e) by (unfold Rmax; destruct (Rle_dec m (w j)); lra).
  destruct (dep_int _ (Rmax m (w j)) (w j + e) (dep_prob i Hi) Hm2) as (q4 & Q4). pose proof (int_chasles _ _ _ _ _ _ _ Q3 Q4 Q2) as E4.
  assert (Z3 : q3 = 0).
  { unfold Rmax in Q3. destruct (Rle_dec m (w j)) as [C|C].
    - apply (int_flat _ _ _ 0) in Q3; [lra|exact C|]. intros u Hu. rewrite (prob_below u i j) by (auto; lra). unfold above. destruct (Rlt_dec u (w i)); [lra|unfold Rdiv; ring].
    - apply (int_flat _ _ _ 0) in Q3; [lra|apply Rle_refl|intros; lra]. }
  assert (B4 : 0 <= q4 <= w j + e - Rmax m (w j)) by (apply (prob_int _ _ i q4 Hi Hm2 Q4)).
  assert (B5 : q4 <= e) by (pose proof (Rmax_r m (w j)); lra). 
  assert (D : w i * f i * p - w j * f j * q = f i * p2 - f j * q4) by (replace (w i * f i * p) with (f i * (w i * p)) by ring; replace (w j * f j * q) with (f j * (w j * q)) by ring; rewrite EP, EQ, E4, Z3; lra).
  rewrite D. assert (X1 : f i * p2 <= e * f i) by (assert (p2 <= e) by lra; rewrite (Rmult_comm e); apply Rmult_le_compat_l; lra).
  assert (X2 : f j * q4 <= e * f j) by (rewrite (Rmult_comm e); apply Rmult_le_compat_l; lra).
  assert (X3 : 0 <= f i * p2) by (apply Rmult_le_pos; lra). assert (X4 : 0 <= f j * q4) by (apply Rmult_le_pos; lra).
  split; [lra|]. split; [lra|].
  assert (Z4 : i <> 0%nat -> q4 = 0).
  { intros Ni. apply (int_flat _ _ _ 0) in Q4; [lra|exact Hm2|]. intros u Hu. unfold label_prob, above. pose proof (Rmax_l m (w j)). destruct (Rlt_dec u (w i)); [lra|].
    destruct (Req_EM_T _ 0); [|unfold Rdiv; ring]. destruct i; [congruence|reflexivity]. }
  split; [intros Ni; rewrite (Z4 Ni); lra|]. intros Ni L1 He1 He2. rewrite (Z4 Ni).
  assert (Pp : 0 < p2); [|assert (0 < f i * p2) by (apply Rmult_lt_0_compat; lra); lra].
  (* on (m, min (w i + e) (w j)) the probability is at least f j / total *)
  set (b := Rmin (w i + e) (w j)). assert (Hb : m < b /\ b <= w i + e /\ b <= w j) by (unfold b, m, Rmin, Rmax; destruct (Rle_dec (w i + e) (w j)), (Rle_dec e (w i)); lra).
  destruct (dep_int _ m b (dep_prob j Hj) ltac:(lra)) as (a1 & A1). destruct (dep_int _ b (w i + e) (dep_prob j Hj) ltac:(lra)) as (a2 & A2). pose proof (int_chasles _ _ _ _ _ _ _ A1 A2 P2) as EA.
  pose proof (prob_int b (w i + e) j a2 Hj ltac:(lra) A2).
  set (T := sumn f k). assert (PT : f j <= T).
  { unfold T. pose proof (mass_ge (Rmin 0 (w j) - 1) j Hj) as G. unfold above in G at 1. unfold slice_mass in G. destruct (Rlt_dec _ (w j)) as [_|C]; [|exfalso; apply C; pose proof (Rmin_r 0 (w j)); lra].
    eapply Rle_trans; [exact G|]. apply sumn_le. intros l Hl. unfold above. pose proof (Hf l Hl). destruct (Rlt_dec _ (w l)); lra. }
  assert (LB : f j / T * (b - m) <= a1).
  { apply (int_above _ m b (f j / T)) in A1; [exact A1|lra|]. intros u Hu. rewrite (prob_below u j j) by (auto; lra). unfold above. destruct (Rlt_dec u (w j)); [|lra].
    destruct (mass_pos u j Hj ltac:(lra)) as [_ PM]. unfold Rdiv. apply Rmult_le_compat_l; [lra|]. apply Rinv_le_contravar; [exact PM|].
    unfold slice_mass, T. apply sumn_le. intros l Hl. unfold above. pose proof (Hf l Hl). destruct (Rlt_dec u (w l)); lra. }
  assert (0 < f j / T * (b - m)) by (apply Rmult_lt_0_compat; [apply Rdiv_lt_0_compat; lra|lra]). lra.
Qed.
Lemma c78_error e i j p q : 0 <= e -> (i < k)%nat -> (j < k)%nat -> moves e k w f i j p -> moves e k w f j i q ->
  Rabs (w i * f i * p - w j * f j * q) <= e * Rmax (f i) (f j).
Proof.
  intros He Hi Hj P Q. pose proof (Rmax_l (f i) (f j)). pose proof (Rmax_r (f i) (f j)). pose proof (Hf i Hi). pose proof (Hf j Hj).
  assert (M1 : e * f i <= e * Rmax (f i) (f j)) by (apply Rmult_le_compat_l; lra). assert (M2 : e * f j <= e * Rmax (f i) (f j)) by (apply Rmult_le_compat_l; lra).
  destruct (Nat.eq_dec i j) as [->|N].
  - destruct (c78_prob e j j Hi Hi) as (r & _ & _ & U). rewrite (U p P), (U q Q). unfold Rminus. rewrite Rplus_opp_r, Rabs_R0. apply Rmult_le_pos; lra.
  - destruct (Rle_dec (w i) (w j)).
    + destruct (excess e i j p q) as (A & B & _); auto. apply Rabs_le. lra.
    + destruct (excess e j i q p) as (A & B & _); auto; [lra|]. apply Rabs_le. lra.
Qed.
Lemma c78_inv_error e (ps : nat -> nat -> R) j : 0 <= e -> (forall i j, (i < k)%nat -> (j < k)%nat -> moves e k w f i j (ps i j)) -> (j < k)%nat ->
  Rabs (sumn (fun i => w i * f i * ps i j) k - w j * f j) <= e * sumn (fun i => Rmax (f i) (f j)) k.
Proof.
  intros He H Hj. assert (E : w j * f j = sumn (fun i => w j * f j * ps j i) k) by (rewrite sumn_scale; change (sumn (fun i => ps j i) k) with (sumn (ps j) k); rewrite (c78_total e j (ps j)) by auto; ring).
  rewrite E, sumn_minus. rewrite <- sumn_scale.
  assert (G : forall n, (n <= k)%nat -> Rabs (sumn (fun i => w i * f i * ps i j - w j * f j * ps j i) n) <= sumn (fun i => e * Rmax (f i) (f j)) n); [|apply G, le_n].
  induction n as [|n IH]; intros Hn; [unfold sumn; simpl; rewrite Rabs_R0; lra|]. rewrite !sumn_S. eapply Rle_trans; [apply Rabs_triang|].
  apply Rplus_le_compat; [apply IH; lia|]. apply c78_error; auto.
Qed.
Lemma c78_never e i j p : (i < k)%nat -> (j < k)%nat -> j <> 0%nat -> w j <= e -> moves e k w f i j p -> p = 0.
Proof.
  intros Hi Hj N L (x & X & ->). pose proof (Hw i Hi). apply (int_flat _ _ _ 0) in X; [rewrite X; unfold Rdiv; ring|lra|].
  intros u Hu. unfold label_prob, above. destruct (Req_EM_T _ 0); [destruct j; [congruence|reflexivity]|]. destruct (Rlt_dec u (w j)); [lra|unfold Rdiv; ring].
Qed.
End K.
