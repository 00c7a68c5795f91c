(* Concrete generators used by the Examples beside the theorems. *)
From Coq Require Import Lqa.
From Verif Require Import Prelude Numpy Rng.
Open Scope Q_scope.

Fixpoint first_idx {A} (f : A -> bool) (l : list A) : nat :=
  match l with [] => 0%nat | x :: t => if f x then 0%nat else S (first_idx f t) end.

(* every beta draw is [b]; uniforms their lower end; Dirichlet its first
   corner; the centre for the normal and inverse Wishart; one k-means cluster; choice and Gumbel the first admissible index *)
Definition const_oracle (b : Q) : oracle := {|
  o_beta := fun _ _ _ => b;
  o_binom := fun _ n p => if Qeq_bool p 1 then n else 0%Z;
  o_unif := fun _ lo _ => lo;
  o_dirichlet := fun _ al => match al with [] => [] | _ :: t => 1 :: repeat 0 (length t) end;
  o_choice := fun _ p => first_idx (qltb 0) p;
  o_gumbel := fun _ ok => first_idx (fun x => x) ok;
  o_optim := fun _ => Some (1 # 2);
  o_root := fun _ => Some (1 # 2);
  o_invw := fun _ _ psi => inl psi;
  o_mvn := fun _ mu _ => inl mu;
  o_kmeans := fun _ y _ => repeat 0%nat (length y) |}.

Lemma first_idx_spec {A} (f : A -> bool) d l : Exists (fun x => f x = true) l ->
  (first_idx f l < length l)%nat /\ f (nth (first_idx f l) l d) = true.
Proof.
  induction l; intros H; [inversion H|]. simpl. destruct (f a) eqn:E; simpl; [split; [lia|auto]|].
  inversion H; subst; [congruence|]. destruct (IHl H1). split; [lia|auto].
Qed.

Lemma const_oracle_valid b : 0 <= b <= 1 -> valid_oracle (const_oracle b).
Proof.
  intros Hb. constructor; simpl; intros.
  - exact Hb.
  - destruct (Qeq_bool p 1); lia.
  - destruct (Qeq_bool p 1) eqn:E; auto. apply Qeq_bool_iff in E. lra.
  - apply Qeq_bool_iff in H0. rewrite H0. reflexivity.
  - lra.
  - reflexivity.
  - destruct al; simpl; rewrite ?repeat_length; reflexivity.
  - destruct al; constructor; [lra|]. apply Forall_forall. intros x Hx. apply repeat_spec in Hx. subst; lra.
  - destruct al; [congruence|]. cbn [qsum].
    assert (E : forall n, qsum (repeat 0 n) == 0) by (induction n; simpl; [reflexivity|rewrite IHn; reflexivity]).
    rewrite E; reflexivity.
  - destruct (first_idx_spec (qltb 0) 0 p) as [H1 H2].
    { eapply Exists_impl; [|exact H]. intros a Ha. apply qltb_lt; exact Ha. }
    split; auto. apply qltb_lt; exact H2.
  - destruct (first_idx_spec (fun x => x) false ok) as [H1 H2]; auto.
    apply Exists_exists. eauto.
  - injection H as <-; lra.
  - injection H as <-; lra.
  - apply repeat_length.
  - apply Forall_forall. intros x Hx. apply repeat_spec in Hx. lia.
Qed.

(* like const_oracle, but choice and Gumbel take the last admissible index *)
Definition last_idx {A} (f : A -> bool) (l : list A) : nat := (length l - S (first_idx f (rev l)))%nat.
Definition last_oracle (b : Q) : oracle := {|
  o_beta := fun _ _ _ => b;
  o_binom := fun _ n p => if Qeq_bool p 1 then n else 0%Z;
  o_unif := fun _ lo _ => lo;
  o_dirichlet := fun _ al => match al with [] => [] | _ :: t => 1 :: repeat 0 (length t) end;
  o_choice := fun _ p => last_idx (qltb 0) p;
  o_gumbel := fun _ ok => last_idx (fun x => x) ok;
  o_optim := fun _ => Some (1 # 2);
  o_root := fun _ => Some (1 # 2);
  o_invw := fun _ _ psi => inl psi;
  o_mvn := fun _ mu _ => inl mu;
  o_kmeans := fun _ y _ => repeat 0%nat (length y) |}.

Lemma last_idx_spec {A} (f : A -> bool) d l : Exists (fun x => f x = true) l ->
  (last_idx f l < length l)%nat /\ f (nth (last_idx f l) l d) = true.
Proof.
  intros H. destruct (first_idx_spec f d (rev l)) as [H1 H2].
  { apply Exists_exists in H. destruct H as (x & Hx & Fx). apply Exists_exists. exists x. split; [apply in_rev; rewrite rev_involutive; exact Hx|exact Fx]. }
  rewrite rev_length in H1. unfold last_idx. split; [lia|].
  rewrite <- H2, rev_nth by exact H1. reflexivity.
Qed.

Lemma last_oracle_valid b : 0 <= b <= 1 -> valid_oracle (last_oracle b).
Proof.
  intros Hb. pose proof (const_oracle_valid b Hb) as V.
  constructor; try apply V; simpl; intros.
  - destruct (last_idx_spec (qltb 0) 0 p) as [H1 H2].
    { eapply Exists_impl; [|exact H]. intros a Ha. apply qltb_lt; exact Ha. }
    split; auto. apply qltb_lt; exact H2.
  - destruct (last_idx_spec (fun x => x) false ok) as [H1 H2]; auto.
    apply Exists_exists. eauto.
Qed.
