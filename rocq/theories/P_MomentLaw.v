(* The mean is determined by the call; laws with the required moments exist. *)
From Coq Require Import Lqa Field QArith.Qfield.
From Verif Require Import Prelude Numpy Rng M_Weights S_Weights S_Oracle S_Moment.
Open Scope Q_scope.

(* ---- the log only grows ---- *)
Lemma follow_log t : forall o g, exists e, snd (follow t o g) = g ++ e.
Proof.
  induction t as [y|a b k IH|n q k IH|ws k IH|al k IH]; intros o g; cbn [follow].
  - exists []. rewrite app_nil_r. reflexivity.
  - destruct (IH (o_beta o g a b) o (g ++ [RBeta a b])) as [e ->]. rewrite <- app_assoc. eauto.
  - destruct (IH (o_binom o g n q) o (g ++ [RBinom n q])) as [e ->]. rewrite <- app_assoc. eauto.
  - destruct (IH (o_choice o g ws) o (g ++ [RChoice ws])) as [e ->]. rewrite <- app_assoc. eauto.
  - destruct (IH (o_dirichlet o g al) o (g ++ [RDirichlet al])) as [e ->]. rewrite <- app_assoc. eauto.
Qed.

Definition over (o o' : oracle) (n : nat) : Prop :=
  forall g, (n <= length g)%nat ->
    (forall a b, o_beta o g a b = o_beta o' g a b) /\ (forall m q, o_binom o g m q = o_binom o' g m q) /\
    (forall ws, o_choice o g ws = o_choice o' g ws) /\ (forall al, o_dirichlet o g al = o_dirichlet o' g al).

Lemma follow_over t : forall o o' n g, over o o' n -> (n <= length g)%nat -> follow t o g = follow t o' g.
Proof.
  induction t as [y|a b k IH|m q k IH|ws k IH|al k IH]; intros o o' n g V Hg; cbn [follow]; [reflexivity| | | |];
    destruct (V g Hg) as (E1 & E2 & E3 & E4); rewrite ?E1, ?E2, ?E3, ?E4; apply IH with n; auto; rewrite app_length; lia.
Qed.

Definition with_beta (o : oracle) (f : rng -> Q -> Q -> Q) : oracle := Build_oracle f (o_binom o) (o_unif o) (o_dirichlet o) (o_choice o) (o_gumbel o) (o_optim o) (o_root o) (o_invw o) (o_mvn o) (o_kmeans o).
Definition with_binom (o : oracle) f : oracle := Build_oracle (o_beta o) f (o_unif o) (o_dirichlet o) (o_choice o) (o_gumbel o) (o_optim o) (o_root o) (o_invw o) (o_mvn o) (o_kmeans o).
Definition with_choice (o : oracle) f : oracle := Build_oracle (o_beta o) (o_binom o) (o_unif o) (o_dirichlet o) f (o_gumbel o) (o_optim o) (o_root o) (o_invw o) (o_mvn o) (o_kmeans o).
Definition with_dir (o : oracle) f : oracle := Build_oracle (o_beta o) (o_binom o) (o_unif o) f (o_choice o) (o_gumbel o) (o_optim o) (o_root o) (o_invw o) (o_mvn o) (o_kmeans o).

Lemma q_dec a b : {a = b} + {a <> b :> Q}.
Proof. decide equality; [apply Pos.eq_dec|apply Z.eq_dec]. Qed.
Definition ql_dec := list_eq_dec q_dec.

(* the generator o, except that at the log g the given request gets x *)
Definition set_beta o (g : rng) a b x := with_beta o (fun g' a' b' => if Nat.eqb (length g') (length g) then (if q_dec a a' then if q_dec b b' then x else o_beta o g' a' b' else o_beta o g' a' b') else o_beta o g' a' b').
Definition set_binom o (g : rng) n q x := with_binom o (fun g' n' q' => if Nat.eqb (length g') (length g) then (if Z.eq_dec n n' then if q_dec q q' then x else o_binom o g' n' q' else o_binom o g' n' q') else o_binom o g' n' q').
Definition set_choice o (g : rng) ws x := with_choice o (fun g' ws' => if Nat.eqb (length g') (length g) then (if ql_dec ws ws' then x else o_choice o g' ws') else o_choice o g' ws').
Definition set_dir o (g : rng) al x := with_dir o (fun g' al' => if Nat.eqb (length g') (length g) then (if ql_dec al al' then x else o_dirichlet o g' al') else o_dirichlet o g' al').

Lemma set_beta_valid o g a b x : valid_oracle o -> can_beta a b x -> valid_oracle (set_beta o g a b x).
Proof.
  intros V C. constructor; try apply V. intros g' a' b' Ha Hb. cbn.
  destruct (Nat.eqb _ _); [|apply V; auto]. destruct (q_dec a a') as [<-|]; [|apply V; auto].
  destruct (q_dec b b') as [<-|]; [apply C; auto|apply V; auto].
Qed.
Lemma set_binom_valid o g n q x : valid_oracle o -> can_binom n q x -> valid_oracle (set_binom o g n q x).
Proof.
  intros V C. constructor; try apply V; intros g' n' q' Hn Hq; cbn;
  (destruct (Nat.eqb _ _); [|apply V; auto]); (destruct (Z.eq_dec n n') as [<-|]; [|apply V; auto]);
  (destruct (q_dec q q') as [<-|]; [apply C; auto|apply V; auto]).
Qed.
Lemma set_choice_valid o g ws x : valid_oracle o -> can_choice ws x -> valid_oracle (set_choice o g ws x).
Proof.
  intros V C. constructor; try apply V. intros g' ws' H. cbn.
  destruct (Nat.eqb _ _); [|apply V; auto]. destruct (ql_dec ws ws') as [<-|]; [apply C; auto|apply V; auto].
Qed.
Lemma set_dir_valid o g al x : valid_oracle o -> can_dir al x -> valid_oracle (set_dir o g al x).
Proof.
  intros V (C1 & C2 & C3). constructor; try apply V.
  - intros g' al'. cbn. destruct (Nat.eqb _ _); [|apply V]. destruct (ql_dec al al') as [<-|]; [apply C1|apply V].
  - intros g' al' H. cbn. destruct (Nat.eqb _ _); [|apply V; auto]. destruct (ql_dec al al') as [<-|]; [apply C2; auto|apply V; auto].
  - intros g' al' H H'. cbn. destruct (Nat.eqb _ _); [|apply V; auto]. destruct (ql_dec al al') as [<-|]; [apply C3; auto|apply V; auto].
Qed.

Lemma first_req t o g rq e : snd (follow t o (g ++ [rq])) = g ++ e -> exists e', e = rq :: e'.
Proof. intros H. destruct (follow_log t o (g ++ [rq])) as [e1 E]. rewrite E, <- app_assoc in H. apply app_inv_head in H. subst. eexists; reflexivity. Qed.

Ltac longer := intros g' Hg'; rewrite app_length in Hg'; cbn in Hg'; repeat split; intros; cbn; try reflexivity;
  match goal with |- context [Nat.eqb ?a ?b] => destruct (Nat.eqb_spec a b); [lia|reflexivity] end.

Lemma same_tree N L : moments N L -> forall t t' g,
  (forall o, valid_oracle o -> snd (follow t o g) = snd (follow t' o g) /\ fst (follow t o g) == fst (follow t' o g)) ->
  tmean L t == tmean L t'.
Proof.
  intros ML. pose proof (const_oracle_valid 0 ltac:(split; discriminate)) as V0. set (o0 := const_oracle 0) in *.
  induction t as [y|a b k IH|m q k IH|ws k IH|al k IH]; intros t' g H; pose proof (proj1 (H o0 V0)) as H0.
  - destruct t'; cbn [follow snd] in H0.
    + apply (H o0 V0).
    + exfalso. destruct (follow_log (k (o_beta o0 g a b)) o0 (g ++ [RBeta a b])) as [e E]. rewrite E in H0. apply (f_equal (@length req)) in H0. rewrite !app_length in H0. cbn in H0. lia.
    + exfalso. destruct (follow_log (k (o_binom o0 g n p)) o0 (g ++ [RBinom n p])) as [e E]. rewrite E in H0. apply (f_equal (@length req)) in H0. rewrite !app_length in H0. cbn in H0. lia.
    + exfalso. destruct (follow_log (k (o_choice o0 g ws)) o0 (g ++ [RChoice ws])) as [e E]. rewrite E in H0. apply (f_equal (@length req)) in H0. rewrite !app_length in H0. cbn in H0. lia.
    + exfalso. destruct (follow_log (k (o_dirichlet o0 g al)) o0 (g ++ [RDirichlet al])) as [e E]. rewrite E in H0. apply (f_equal (@length req)) in H0. rewrite !app_length in H0. cbn in H0. lia.
  - cbn [follow] in H0. destruct (follow_log (k (o_beta o0 g a b)) o0 (g ++ [RBeta a b])) as [e E]. rewrite E in H0. rewrite <- app_assoc in H0. cbn [app] in H0.
    destruct t'; cbn [follow snd] in H0; [apply (f_equal (@length req)) in H0; rewrite app_length in H0; cbn in H0; lia| | | |];
      symmetry in H0; apply first_req in H0; destruct H0 as [e' H0]; try discriminate. injection H0 as <- <- _.
    cbn [tmean]. apply (beta_ext N L ML). intros x Cx. apply IH with (g ++ [RBeta a b]). intros o V.
    specialize (H (set_beta o g a b x) (set_beta_valid o g a b x V Cx)). cbn [follow] in H.
    assert (E1 : o_beta (set_beta o g a b x) g a b = x).
    { cbn. rewrite Nat.eqb_refl. destruct (q_dec a a); [|congruence]. destruct (q_dec b b); [|congruence]. reflexivity. }
    rewrite E1 in H.
    assert (OV : over (set_beta o g a b x) o (length (g ++ [RBeta a b]))) by longer.
    rewrite !(follow_over _ _ o _ _ OV (Nat.le_refl _)) in H. exact H.
  - cbn [follow] in H0. destruct (follow_log (k (o_binom o0 g m q)) o0 (g ++ [RBinom m q])) as [e E]. rewrite E in H0. rewrite <- app_assoc in H0. cbn [app] in H0.
    destruct t'; cbn [follow snd] in H0; [apply (f_equal (@length req)) in H0; rewrite app_length in H0; cbn in H0; lia| | | |];
      symmetry in H0; apply first_req in H0; destruct H0 as [e' H0]; try discriminate. injection H0 as <- <- _.
    cbn [tmean]. apply (binom_ext N L ML). intros x Cx. apply IH with (g ++ [RBinom m q]). intros o V.
    specialize (H (set_binom o g m q x) (set_binom_valid o g m q x V Cx)). cbn [follow] in H.
    assert (E1 : o_binom (set_binom o g m q x) g m q = x).
    { cbn. rewrite Nat.eqb_refl. destruct (Z.eq_dec m m); [|congruence]. destruct (q_dec q q); [|congruence]. reflexivity. }
    rewrite E1 in H.
    assert (OV : over (set_binom o g m q x) o (length (g ++ [RBinom m q]))) by longer.
    rewrite !(follow_over _ _ o _ _ OV (Nat.le_refl _)) in H. exact H.
  - cbn [follow] in H0. destruct (follow_log (k (o_choice o0 g ws)) o0 (g ++ [RChoice ws])) as [e E]. rewrite E in H0. rewrite <- app_assoc in H0. cbn [app] in H0.
    destruct t'; cbn [follow snd] in H0; [apply (f_equal (@length req)) in H0; rewrite app_length in H0; cbn in H0; lia| | | |];
      symmetry in H0; apply first_req in H0; destruct H0 as [e' H0]; try discriminate. injection H0 as <- _.
    cbn [tmean]. apply (choice_ext N L ML). intros x Cx. apply IH with (g ++ [RChoice ws]). intros o V.
    specialize (H (set_choice o g ws x) (set_choice_valid o g ws x V Cx)). cbn [follow] in H.
    assert (E1 : o_choice (set_choice o g ws x) g ws = x).
    { cbn. rewrite Nat.eqb_refl. destruct (ql_dec ws ws); [|congruence]. reflexivity. }
    rewrite E1 in H.
    assert (OV : over (set_choice o g ws x) o (length (g ++ [RChoice ws]))) by longer.
    rewrite !(follow_over _ _ o _ _ OV (Nat.le_refl _)) in H. exact H.
  - cbn [follow] in H0. destruct (follow_log (k (o_dirichlet o0 g al)) o0 (g ++ [RDirichlet al])) as [e E]. rewrite E in H0. rewrite <- app_assoc in H0. cbn [app] in H0.
    destruct t'; cbn [follow snd] in H0; [apply (f_equal (@length req)) in H0; rewrite app_length in H0; cbn in H0; lia| | | |];
      symmetry in H0; apply first_req in H0; destruct H0 as [e' H0]; try discriminate. injection H0 as <- _.
    cbn [tmean]. apply (dir_ext N L ML). intros x Cx. apply IH with (g ++ [RDirichlet al]). intros o V.
    specialize (H (set_dir o g al x) (set_dir_valid o g al x V Cx)). cbn [follow] in H.
    assert (E1 : o_dirichlet (set_dir o g al x) g al = x).
    { cbn. rewrite Nat.eqb_refl. destruct (ql_dec al al); [|congruence]. reflexivity. }
    rewrite E1 in H.
    assert (OV : over (set_dir o g al x) o (length (g ++ [RDirichlet al]))) by longer.
    rewrite !(follow_over _ _ o _ _ OV (Nat.le_refl _)) in H. exact H.
Qed.

Lemma mean_unique {S A} N L (m : M S A) s f x y : moments N L -> mean_of L m s f x -> mean_of L m s f y -> x == y.
Proof.
  intros ML (t & Ht & Et) (t' & Ht' & Et'). rewrite <- Et, <- Et'. apply (same_tree N L ML t t' []).
  intros o V. specialize (Ht o [] V). specialize (Ht' o [] V). destruct (m o s []) as [[r s'] g'].
  destruct (follow t o []) as [z g1]. destruct (follow t' o []) as [z' g2]. destruct Ht as [-> E1], Ht' as [-> E2]. cbn. split; [reflexivity|]. rewrite <- E1, <- E2. reflexivity.
Qed.
