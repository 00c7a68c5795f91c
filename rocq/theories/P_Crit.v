(* The MAP criterion (C86). *)
From Coq Require Import Lqa Setoid Morphisms.
From Verif Require Import Prelude Numpy Rng M_Weights M_Niw M_Utils M_Mix M_Query S_Oracle S_Mix S_Map S_Crit P_Lists P_Wp P_Mix P_Mix33 P_Mix34 P_Mix37 P_Resp P_Map P_Shape.
Open Scope Q_scope.
Open Scope m_scope.

#[export] Instance lx_eq_equiv : Equivalence lx_eq.
Proof.
  split.
  - intros []; simpl; auto; reflexivity.
  - intros [] []; simpl; auto. intros H; symmetry; exact H.
  - intros [] [] []; simpl; try tauto. intros H1 H2; rewrite H1; exact H2.
Qed.
#[export] Instance lx_add_proper : Proper (lx_eq ==> lx_eq ==> lx_eq) lx_add.
Proof. intros [] [] H1 [] [] H2; simpl in *; try tauto. lra. Qed.
Lemma lx_add_comm a b : lx_eq (lx_add a b) (lx_add b a).
Proof. destruct a, b; simpl; auto. lra. Qed.
Lemma lx_add_assoc a b c : lx_eq (lx_add a (lx_add b c)) (lx_add (lx_add a b) c).
Proof. destruct a, b, c; simpl; auto. lra. Qed.
Lemma lx_add_0l a : lx_eq (lx_add (LQ 0) a) a.
Proof. destruct a; simpl; auto. lra. Qed.
Lemma lx_add_0r a : lx_eq (lx_add a (LQ 0)) a.
Proof. destruct a; simpl; auto. lra. Qed.
Lemma lx_swap a b c : lx_eq (lx_add a (lx_add b c)) (lx_add b (lx_add a c)).
Proof. rewrite !lx_add_assoc, (lx_add_comm a b). reflexivity. Qed.
Lemma fold_lx l : forall acc, lx_eq (fold_left lx_add l acc) (lx_add acc (lx_total l)).
Proof.
  induction l as [|x t IH]; intros acc; simpl; [symmetry; apply lx_add_0r|]. rewrite IH. symmetry. apply lx_add_assoc.
Qed.
Lemma lx_sum_total l : lx_eq (lx_sum l) (lx_total l).
Proof. unfold lx_sum. rewrite fold_lx. apply lx_add_0l. Qed.
Lemma total_add {A} (f h : A -> lx) l : lx_eq (lx_total (map (fun x => lx_add (f x) (h x)) l)) (lx_add (lx_total (map f l)) (lx_total (map h l))).
Proof.
  induction l as [|x t IH]; simpl; [lra|]. rewrite IH. rewrite <- !lx_add_assoc. rewrite (lx_swap (h x)). reflexivity.
Qed.
Lemma total_ext {A} (f h : A -> lx) l : (forall x, In x l -> lx_eq (f x) (h x)) -> lx_eq (lx_total (map f l)) (lx_total (map h l)).
Proof.
  induction l as [|x t IH]; intros H; simpl; [reflexivity|]. rewrite (H x) by (left; reflexivity). rewrite IH; [reflexivity|]. intros z Hz. apply H. right; exact Hz.
Qed.
Lemma total_zero {A} (l : list A) : lx_eq (lx_total (map (fun _ => LQ 0) l)) (LQ 0).
Proof.
  induction l as [|x t IH]; [reflexivity|]. change (lx_eq (lx_add (LQ 0) (lx_total (map (fun _ : A => LQ 0) t))) (LQ 0)). rewrite IH. apply lx_add_0l.
Qed.
Lemma total_one j0 v : forall js, NoDup js -> In j0 js -> lx_eq (lx_total (map (fun j => if Nat.eqb j0 j then v else LQ 0) js)) v.
Proof.
  induction js as [|j t IH]; intros N H; [destruct H|]. inversion N as [|? ? N1 N2]; subst. simpl. destruct (Nat.eqb_spec j0 j) as [->|X].
  - rewrite (total_ext _ (fun _ => LQ 0)); [rewrite total_zero; apply lx_add_0r|]. intros i Hi. destruct (Nat.eqb_spec j i) as [->|]; [contradiction|reflexivity].
  - rewrite IH; [apply lx_add_0l|exact N2|]. destruct H as [->|H]; [congruence|exact H].
Qed.
(* summing group by group is summing row by row *)
Lemma regroup {A} (f : nat * A -> lx) js : NoDup js -> forall ps, (forall p, In p ps -> In (fst p) js) ->
  lx_eq (lx_total (map (fun j => lx_total (map f (filter (fun q : nat * A => Nat.eqb (fst q) j) ps))) js)) (lx_total (map f ps)).
Proof.
  intros N. induction ps as [|p t IH]; intros H; cbn [map filter lx_total fold_right]; [apply total_zero|].
  fold (lx_total (map f t)).
  rewrite <- IH by (intros q Hq; apply H; right; exact Hq).
  rewrite <- (total_one (fst p) (f p) js N (H p (or_introl eq_refl))). rewrite <- total_add. apply total_ext. intros j _.
  destruct (Nat.eqb (fst p) j); [reflexivity|]. symmetry; apply lx_add_0l.
Qed.

(* ---- what y_loglik adds up ---- *)
Section Crit.
Variables (E : env) (lp : vec -> atom -> lx) (RW : rowwise E lp).

Lemma get_atom_ok j o s g a s' g' : get_atom j o s g = (Ok a, s', g') -> lookup j (s_theta s') = Some a.
Proof.
  unfold get_atom. intros H. apply bind_ok in H as (x & s1 & g1 & H1 & H). injection H1 as <- <- <-.
  destruct (lookup j (s_theta s)) eqn:L; [injection H as <- <- _; exact L|]. destruct (s_gen s); [|discriminate H].
  apply bind_ok in H as (b & s1 & g1 & H1 & H). apply bind_ok in H as (x & s2 & g2 & H2 & H). injection H2 as _ <- <-. injection H as <- <- _.
  simpl. rewrite lookup_put, Nat.eqb_refl. reflexivity.
Qed.
Definition atoms_at (th : list (nat * atom)) (dl : list nat) (y : list vec) (j : nat) (t : lx) : Prop :=
  exists a, lookup j th = Some a /\ lx_eq t (lx_total (map (fun x => lp x a) (select j dl y))).
Definition ydw (s : ms) := (s_y s, s_d s, s_wm s).
Lemma kept_y_loglik js : forall acc, mono kept_atoms (y_loglik E js acc).
Proof.
  induction js as [|j t IH]; intros acc o s g; [intros i a H; exact H|]. simpl.
  pose proof (keeps_masked s_theta j o s g) as K. unfold bind at 1. destruct (masked j o s g) as [[[rows|e|] s1] g1]; simpl in *; try (apply kept_same; exact K).
  pose proof (kept_get_atom j o s1 g1) as K2. unfold bind at 1. destruct (get_atom j o s1 g1) as [[[a|e|] s2] g2]; simpl in *; try (eapply kept_trans; [apply kept_same; exact K|exact K2]).
  unfold bind, of_res. destruct (e_logpdf E rows a) as [l|e|]; simpl; try (eapply kept_trans; [apply kept_same; exact K|exact K2]).
  eapply kept_trans; [apply kept_same; exact K|]. eapply kept_trans; [exact K2|]. apply IH.
Qed.
Lemma y_loglik_ok js : forall acc o s g l s' g', y_loglik E js acc o s g = (Ok l, s', g') ->
  ydw s' = ydw s /\ (js = [] \/ length (labels_of s) = length (s_y s)) /\
  exists ts, Forall2 (atoms_at (s_theta s') (labels_of s) (s_y s)) js ts /\ lx_eq l (lx_add acc (lx_total ts)).
Proof.
  induction js as [|j t IH]; intros acc o s g l s' g' H; simpl in H.
  - injection H as <- <- _. split; [reflexivity|]. split; [auto|]. exists []. split; [constructor|]. symmetry; apply lx_add_0r.
  - apply bind_ok in H as (rows & s1 & g1 & H1 & H). apply bind_ok in H as (a & s2 & g2 & H2 & H). apply bind_ok in H as (v & s3 & g3 & H3 & H).
    unfold masked in H1. apply bind_ok in H1 as (x & s0 & g0 & H0 & H1). injection H0 as <- <- <-.
    destruct (Nat.eqb_spec (length (labels_of s)) (length (s_y s))) as [L|]; [|discriminate H1]. injection H1 as <- <- <-.
    assert (K2 : ydw s2 = ydw s) by (eapply (keeps_ok ydw); [apply keeps_get_atom; reflexivity|exact H2]).
    unfold of_res in H3. injection H3 as H3 <- <-. pose proof (kept_y_loglik t (lx_add acc (lx_sum v)) o s2 g2) as K3. rewrite H in K3. simpl in K3.
    destruct (IH _ _ _ _ _ _ _ H) as (K4 & _ & ts & F & Q). split; [rewrite K4; exact K2|]. split; [right; exact L|].
    injection K2 as Ey Ed Ew. unfold labels_of in F. rewrite Ey, Ed in F. fold (labels_of s) in F.
    exists (lx_total v :: ts). split.
    + constructor; [|exact F]. exists a. split; [apply K3; eapply get_atom_ok; exact H2|]. rewrite (RW _ _ _ H3). reflexivity.
    + rewrite Q. rewrite lx_sum_total. simpl. symmetry. apply lx_add_assoc.
Qed.

Lemma gather_f2 {A} (x : list A) : forall idx r, gather x idx = Some r -> Forall2 (fun i q => nth_error x i = Some q) idx r.
Proof.
  induction idx as [|i t IH]; intros r H; simpl in H; [injection H as <-; constructor|].
  destruct (nth_error x i) eqn:N; [|discriminate H]. destruct (gather x t) eqn:G; [|discriminate H]. injection H as <-. constructor; auto.
Qed.
Lemma f2_fun {A B} (P : A -> B -> Prop) (l : list A) (m : list B) (d : B) : Forall2 P l m -> forall x, In x l -> exists b, P x b.
Proof. intros F. induction F as [|x b l m H F IH]; intros z Hz; [destruct Hz|]. destruct Hz as [<-|Hz]; eauto. Qed.

Variable c : cls.
Lemma c86_visit_proof o s g r l s' g' : visit E c o s g = (Ok (r, l), s', g') -> complete_loglik E lp (s_y s') r l.
Proof.
  unfold visit, run_loglik. intros H. apply bind_ok in H as (l0 & s1 & g1 & H1 & H). apply bind_ok in H as (x & s2 & g2 & H2 & H).
  injection H2 as <- <- <-. injection H as <- <- <- _.
  apply bind_ok in H1 as (x & s2 & g2 & H2 & H1). injection H2 as <- <- <-.
  apply bind_ok in H1 as (a & s2 & g2 & H2 & H1). apply bind_ok in H1 as (xs & s3 & g3 & H3 & H1). injection H1 as <- <- _.
  destruct (y_loglik_ok _ _ _ _ _ _ _ _ H2) as (K & L & ts & F & Q). injection K as Ey Ed Ew.
  unfold onw in H3. destruct (wm_assign_weights c (Some (labels_of s)) o (s_wm s2) g2) as [[rx x3] h3] eqn:W. injection H3 as -> <- <-.
  unfold wm_assign_weights in W. apply bind_ok in W as (x4 & s4 & g4 & H4 & W). injection H4 as <- <- <-.
  destruct (is_nil (labels_of s)) eqn:Nl; [discriminate W|]. apply bind_ok in W as (x5 & s5 & g5 & H5 & W). apply bind_ok in W as (x6 & s6 & g6 & H6 & W). injection H6 as <- <- <-.
  destruct (gather (w s5) (labels_of s)) as [r|] eqn:G; [|discriminate W]. injection W as <- <- _. apply gather_f2 in G.
  cbn [s_y upd_wm]. rewrite Ey.
  assert (Lr : length (labels_of s) = length (s_y s)).
  { destruct L as [L|L]; [|exact L]. apply nunique_nil in L. rewrite L in Nl. discriminate Nl. }
  set (dl := labels_of s) in *. set (y := s_y s) in *.
  assert (Rd : r_d (get_run_params (upd_wm s5 s2)) = dl) by (cbn [get_run_params r_d s_d upd_wm]; rewrite Ed; reflexivity).
  split; [rewrite Rd; exact Lr|]. rewrite Rd. unfold joint. cbn [get_run_params r_w r_theta s_wm s_theta upd_wm].
  set (A := fun j => match lookup j (s_theta s2) with Some a => a | None => ([], []) end).
  set (f := fun p : nat * vec => lp (snd p) (A (fst p))).
  assert (T : lx_eq (lx_total ts) (lx_total (map f (combine dl y)))).
  { rewrite <- (regroup f (nunique dl) (nunique_nodup dl)).
    - clear -F. induction F as [|j t js ts H F IH]; simpl; [reflexivity|]. destruct H as (a & H1 & H2). rewrite IH, H2. unfold select. rewrite map_map.
      rewrite (map_ext_in (fun x : nat * vec => lp (snd x) a) f); [reflexivity|]. intros p Hp. apply filter_In in Hp as [_ Hp]. apply Nat.eqb_eq in Hp. unfold f, A. rewrite Hp, H1. reflexivity.
    - intros p Hp. apply nunique_in. destruct p as [j x]. apply (in_combine_l _ _ _ _ Hp). }
  assert (P : forall j, In j dl -> lookup j (s_theta s2) = Some (A j)).
  { intros j Hj. apply nunique_in in Hj. unfold A. clear -F Hj. induction F as [|i t js ts H F IH]; [destruct Hj|]. destruct Hj as [->|Hj]; [|auto]. destruct H as (a & -> & _). reflexivity. }
  assert (X : lx_eq (lx_add (lx_add (LQ 0) a) (lx_sum (map (e_log E) r))) (lx_add (lx_total (map f (combine dl y))) (lx_total (map (e_log E) r)))).
  { rewrite (lx_add_0l a), Q, (lx_add_0l (lx_total ts)), T, lx_sum_total. reflexivity. }
  cut (exists us, Forall2 (fun (p : nat * vec) t => exists a q, lookup (fst p) (s_theta s2) = Some a /\ nth_error (w s5) (fst p) = Some q /\ t = lx_add (lp (snd p) a) (e_log E q)) (combine dl y) us /\
    lx_eq (lx_add (lx_total (map f (combine dl y))) (lx_total (map (e_log E) r))) (lx_total us)).
  { intros (us & U1 & U2). exists us. split; [exact U1|]. rewrite X. exact U2. }
  clear F Q T Rd Nl L H2 H5 Ey Ed Ew X.
  unfold f. clear f. clearbody dl y A. revert y Lr. induction G as [|j q dl xs Hq G IH]; intros y Lr.
  - exists []. split; [constructor|simpl; lra].
  - destruct y as [|x y]; [discriminate Lr|]. injection Lr as Lr. destruct (IH ltac:(intros i Hi; apply P; right; exact Hi) y Lr) as (us & U1 & U2).
    exists (lx_add (lp x (A j)) (e_log E q) :: us). split.
    + simpl. constructor; [|exact U1]. exists (A j), q. split; [apply P; left; reflexivity|]. auto.
    + simpl. rewrite <- U2. rewrite <- !lx_add_assoc. rewrite (lx_swap (e_log E q)). reflexivity.
Qed.

Variable fuel : nat.
Lemma visit_sy o s g p s' g' : visit E c o s g = (Ok p, s', g') -> s_y s' = s_y s.
Proof. intros H. eapply (keeps_ok s_y); [|exact H]. unfold visit. keep. apply keeps_run_loglik; reflexivity. Qed.
Lemma visits_crit : forall n o s g tr s' g', visits E c fuel n o s g = (Ok tr, s', g') ->
  s_y s' = s_y s /\ Forall (fun p => complete_loglik E lp (s_y s) (fst p) (snd p)) tr.
Proof.
  induction n as [|n IH]; intros o s g tr s' g' H; simpl in H; [injection H as <- <- _; auto|].
  apply bind_ok in H as ([] & s1 & g1 & H1 & H). apply bind_ok in H as ([r l] & s2 & g2 & H2 & H). apply bind_ok in H as (t & s3 & g3 & H3 & H). injection H as <- <- _.
  assert (K1 : s_y s1 = s_y s) by (eapply (keeps_ok s_y); [apply keeps_gibbs_step; reflexivity|exact H1]).
  pose proof (visit_sy _ _ _ _ _ _ H2) as K2. apply IH in H3 as [K3 F]. apply c86_visit_proof in H2. rewrite K3, K2, K1. split; [reflexivity|].
  constructor; [simpl; rewrite <- K1, <- K2; exact H2|]. rewrite <- K1, <- K2. exact F.
Qed.
Lemma c86_visited_proof y ig warm meth n o s g tr s' g' : replay E c fuel y ig warm meth n o s g = (Ok tr, s', g') ->
  Forall (fun p => complete_loglik E lp (rows_of y) (fst p) (snd p)) tr.
Proof.
  unfold replay. intros H. apply bind_ok in H as ([] & s1 & g1 & H1 & H). apply bind_ok in H as (t0 & s2 & g2 & H2 & H). apply bind_ok in H as (t & s3 & g3 & H3 & H).
  injection H as <- <- _. apply init_common_shape in H1 as (D & Y & C & Fl). apply visits_crit in H3 as [_ F]. apply Forall_app.
  destruct warm; [injection H2 as <- <- _; split; [constructor|]; rewrite <- Y; exact F|].
  apply bind_ok in H2 as ([] & s4 & g4 & H4 & H2). apply bind_ok in H2 as ([r l] & s5 & g5 & H5 & H2). injection H2 as <- <- _.
  apply init_gibbs_shape in H4 as [K _]; [|intros X; apply Fl in X as (l0 & ->); rewrite Y, C; simpl; eauto].
  pose proof (visit_sy _ _ _ _ _ _ H5) as K2. apply c86_visit_proof in H5. rewrite K2, K, Y in *. split; [constructor; [exact H5|constructor]|exact F].
Qed.

Lemma c86_map_proof y ig meth o s g s' g' : s_map s = None -> s_mapll s = LNeg ->
  fit_gibbs E c fuel y ig false meth o s g = (Ok tt, s', g') ->
  exists tr s1 r l, replay E c fuel y ig false meth (Z.to_nat (s_burn s) + Z.to_nat (s_total s - s_burn s)) o s g = (Ok tr, s1, g') /\
    s_map s' = Some r /\ In (r, l) tr /\ complete_loglik E lp (rows_of y) r l /\
    forall r2 l2, In (r2, l2) tr -> complete_loglik E lp (rows_of y) r2 l2 /\ lx_ltb l l2 = false.
Proof.
  intros Hm Hl H. destruct (c35_best_proof _ _ _ _ _ _ _ _ _ _ _ _ H) as (tr & s1 & R1 & L & _ & B).
  pose proof (c86_visited_proof _ _ _ _ _ _ _ _ _ _ _ R1) as F. rewrite Forall_forall in F. rewrite Hm, Hl in B.
  assert (X : exists r l, s_map s' = Some r /\ In (r, l) tr /\ forall q, In q tr -> lx_ltb l (snd q) = false).
  { destruct B as [(i & p & N & M & _ & B & _)|(B & _ & M)].
    - exists p, (s_mapll s'). split; [exact M|]. split; [eapply nth_error_In; exact N|]. intros q Hq. apply In_nth_error in Hq as (j & Hj). eauto.
    - destruct (rev tr) as [|[p l] t] eqn:Rv; [apply (f_equal (@length _)) in Rv; rewrite rev_length, L in Rv; simpl in Rv; discriminate Rv|].
      assert (I : In (p, l) tr) by (apply in_rev; rewrite Rv; left; reflexivity).
      exists p, l. split; [exact M|]. split; [exact I|]. intros q Hq. apply In_nth_error in Hq as (j & Hj). apply In_nth_error in I as (i & Hi).
      pose proof (B _ _ Hj) as B1. pose proof (B _ _ Hi) as B2. destruct q as [q lq]. simpl in *. destruct l, lq; simpl in *; try discriminate; reflexivity. }
  destruct X as (r & l & X1 & X2 & X3). exists tr, s1, r, l. split; [exact R1|]. split; [exact X1|]. split; [exact X2|].
  split; [exact (F _ X2)|]. intros r2 l2 I. split; [exact (F _ I)|exact (X3 _ I)].
Qed.
End Crit.
