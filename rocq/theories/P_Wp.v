(* Symbolic execution (weakest preconditions) for the monad. *)
From Coq Require Import Lqa.
From Verif Require Import Prelude Numpy Rng M_Weights S_Weights P_Lists P_Hoare.
Open Scope Q_scope.
Open Scope m_scope.

Definition post S A := res A -> S -> rng -> Prop.
Definition wp {S A} (o : oracle) (m : M S A) (P : post S A) (s : S) (g : rng) : Prop :=
  match m o s g with (r, s', g') => P r s' g' end.

Lemma wp_bind {S A B} o (m : M S A) (k : A -> M S B) (P : post S B) s g :
  wp o m (fun r s' g' => match r with
     | Ok a => wp o (k a) P s' g' | Err e => P (Err e) s' g' | Diverge => P Diverge s' g' end) s g ->
  wp o (bind m k) P s g.
Proof. unfold wp, bind. destruct (m o s g) as [[[a|e|] s'] g']; auto. Qed.
Lemma wp_mono {S A} o (m : M S A) (P P' : post S A) s g :
  wp o m P s g -> (forall r s' g', P r s' g' -> P' r s' g') -> wp o m P' s g.
Proof. unfold wp. destruct (m o s g) as [[r s'] g']; auto. Qed.
Lemma wp_call {S A B} o (m : M S A) (k : A -> M S B) (P : post S A) (P' : post S B) s g :
  wp o m P s g ->
  (forall a s' g', P (Ok a) s' g' -> wp o (k a) P' s' g') ->
  (forall e s' g', P (Err e) s' g' -> P' (Err e) s' g') ->
  (forall s' g', P Diverge s' g' -> P' Diverge s' g') ->
  wp o (bind m k) P' s g.
Proof.
  intros H H1 H2 H3. apply wp_bind. eapply wp_mono; [exact H|]. intros [a|e|] s' g' HP; auto.
Qed.
Lemma wp_any_triv {S A} o (m : M S A) s g : wp o m (fun _ _ _ => True) s g.
Proof. unfold wp. destruct (m o s g) as [[r s'] g']; exact I. Qed.
Lemma wp_ret {S A} o (a : A) (P : post S A) s g : P (Ok a) s g -> wp o (ret a) P s g.
Proof. auto. Qed.
Lemma wp_raise {S A} o e (P : post S A) s g : P (Err e) s g -> wp o (raise e) P s g.
Proof. auto. Qed.
Lemma wp_upd {S} o f (P : post S unit) s g : P (Ok tt) (f s) g -> wp o (upd f) P s g.
Proof. auto. Qed.
Lemma wp_get {S} o (P : post S S) s g : P (Ok s) s g -> wp o get P s g.
Proof. auto. Qed.
Lemma wp_assoc {S A B C} o (m : M S A) (k : A -> M S B) (k' : B -> M S C) P s g :
  wp o (bind m (fun a => bind (k a) k')) P s g -> wp o (bind (bind m k) k') P s g.
Proof. unfold wp, bind. destruct (m o s g) as [[[a|e|] s'] g']; auto. Qed.
Lemma wp_beta_many {S} o ab (P : post S (list Q)) s g :
  (allpos ab = true -> P (Ok (fst (beta_draws o ab g))) s (g ++ map (fun x => rbeta (fst x) (snd x)) ab)) ->
  (allpos ab = false -> P (Err ValueError) s g) -> wp o (beta_many ab) P s g.
Proof.
  unfold wp, beta_many; intros H1 H2. destruct (allpos ab); [|auto].
  rewrite beta_draws_log. auto.
Qed.
Lemma map_repeat {A B} (f : A -> B) x n : map f (repeat x n) = repeat (f x) n.
Proof. induction n; simpl; congruence. Qed.
Lemma wp_beta_rep {S} o a b n (P : post S (list Q)) s g :
  (allpos [(a, b)] = true -> P (Ok (fst (beta_draws o (repeat (a, b) n) g))) s (g ++ repeat (rbeta a b) n)) ->
  (allpos [(a, b)] = false -> P (Err ValueError) s g) -> wp o (beta_rep a b n) P s g.
Proof.
  unfold wp, beta_rep; intros H1 H2. destruct (allpos [(a, b)]); [|auto].
  rewrite beta_draws_log, map_repeat. auto.
Qed.
Lemma wp_beta1 {S} o a b (P : post S Q) s g :
  (allpos [(a, b)] = true -> P (Ok (o_beta o g (Qred a) (Qred b))) s (g ++ [rbeta a b])) ->
  (allpos [(a, b)] = false -> P (Err ValueError) s g) -> wp o (beta1 a b) P s g.
Proof. unfold wp, beta1; intros H1 H2. destruct (allpos [(a, b)]); auto. Qed.

Lemma binom_draws_length o n ps : forall g, length (fst (binom_draws o n ps g)) = length ps.
Proof. induction ps as [|a t IH]; intros g; simpl; auto. Qed.
Lemma binom_draws_log o n ps : forall g, snd (binom_draws o n ps g) = g ++ map (rbinom n) ps.
Proof.
  induction ps as [|a t IH]; intros g; simpl; [rewrite app_nil_r; reflexivity|].
  rewrite IH, <- app_assoc; reflexivity.
Qed.
Lemma wp_binom_many {S} o n ps (P : post S (list Z)) s g :
  ((0 <=? n)%Z && forallb prob_ok ps = true -> P (Ok (fst (binom_draws o n ps g))) s (g ++ map (rbinom n) ps)) ->
  ((0 <=? n)%Z && forallb prob_ok ps = false -> P (Err ValueError) s g) -> wp o (binom_many n ps) P s g.
Proof.
  unfold wp, binom_many; intros H1 H2. destruct (_ && _); [|auto]. rewrite binom_draws_log. auto.
Qed.
Lemma wp_binom_rep {S} o n p k (P : post S (list Z)) s g :
  ((0 <=? n)%Z && prob_ok p = true -> P (Ok (fst (binom_draws o n (repeat p k) g))) s (g ++ repeat (rbinom n p) k)) ->
  ((0 <=? n)%Z && prob_ok p = false -> P (Err ValueError) s g) -> wp o (binom_rep n p k) P s g.
Proof.
  unfold wp, binom_rep; intros H1 H2. destruct (_ && _); [|auto]. rewrite binom_draws_log, map_repeat. auto.
Qed.
Lemma wp_binom1 {S} o n p (P : post S Z) s g :
  ((0 <=? n)%Z && prob_ok p = true -> P (Ok (o_binom o g n (Qred p))) s (g ++ [rbinom n p])) ->
  ((0 <=? n)%Z && prob_ok p = false -> P (Err ValueError) s g) -> wp o (binom1 n p) P s g.
Proof. unfold wp, binom1; intros H1 H2. destruct (_ && _); auto. Qed.
Lemma wp_choice1 {S} o q (P : post S nat) s g :
  (forallb (qleb 0) q && qltb 0 (qsum q) = true -> P (Ok (o_choice o g (map Qred q))) s (g ++ [RChoice (map Qred q)])) ->
  (forallb (qleb 0) q && qltb 0 (qsum q) = false -> P (Err ValueError) s g) -> wp o (choice1 q) P s g.
Proof. unfold wp, choice1; intros H1 H2. destruct (_ && _); auto. Qed.
Lemma wp_dirichlet1 {S} o al (P : post S (list Q)) s g :
  (forallb (qltb 0) al = true -> P (Ok (o_dirichlet o g (map Qred al))) s (g ++ [RDirichlet (map Qred al)])) ->
  (forallb (qltb 0) al = false -> P (Err ValueError) s g) -> wp o (dirichlet1 al) P s g.
Proof. unfold wp, dirichlet1; intros H1 H2. destruct (forallb _ _); auto. Qed.
Lemma wp_gumbel1 {S} o q (P : post S nat) s g :
  P (Ok (o_gumbel o g q)) s (g ++ [RGumbel q]) -> wp o (gumbel1 q) P s g.
Proof. auto. Qed.
Lemma wp_optim1 {S} o (P : post S (option Q)) s g :
  P (Ok (o_optim o g)) s (g ++ [ROptim]) -> wp o optim1 P s g.
Proof. auto. Qed.
Lemma wp_root1 {S} o (P : post S (option Q)) s g :
  P (Ok (o_root o g)) s (g ++ [RRoot]) -> wp o root1 P s g.
Proof. auto. Qed.
Lemma wp_unif1 {S} o a b (P : post S Q) s g :
  P (Ok (o_unif o g (Qred a) (Qred b))) s (g ++ [runif a b]) -> wp o (unif1 a b) P s g.
Proof. auto. Qed.
Lemma unif_draws_length o ab : forall g, length (fst (unif_draws o ab g)) = length ab.
Proof. induction ab as [|[a b] t IH]; intros g; simpl; auto. Qed.
Lemma unif_draws_log o ab : forall g, snd (unif_draws o ab g) = g ++ map (fun x => runif (fst x) (snd x)) ab.
Proof.
  induction ab as [|[a b] t IH]; intros g; simpl; [rewrite app_nil_r; reflexivity|].
  rewrite IH, <- app_assoc; reflexivity.
Qed.
Lemma wp_unif_many {S} o ab (P : post S (list Q)) s g :
  P (Ok (fst (unif_draws o ab g))) s (g ++ map (fun x => runif (fst x) (snd x)) ab) -> wp o (unif_many ab) P s g.
Proof. unfold wp, unif_many. rewrite unif_draws_log. auto. Qed.
Lemma wp_need_int {S} o z (P : post S Z) s g :
  (forall k, size_val z = Some k -> P (Ok k) s g) ->
  (size_val z = None -> P (Err TypeError) s g) -> wp o (need_int z) P s g.
Proof. unfold wp, need_int. destruct (size_val z); simpl; auto. Qed.
Lemma wp_int {S A} o z n (k : Z -> M S A) (P : post S A) s g :
  size_val z = Some n -> wp o (k n) P s g -> wp o (bind (need_int z) k) P s g.
Proof. unfold wp, bind, need_int. intros ->; simpl; auto. Qed.
Lemma wp_check {S} o z (P : post S unit) s g :
  (z <> SOther -> P (Ok tt) s g) -> (z = SOther -> P (Err TypeError) s g) -> wp o (base_complete_check z) P s g.
Proof. unfold wp, base_complete_check. destruct z; simpl; intros H1 H2; auto; apply H1; discriminate. Qed.

Ltac wprim :=
  lazymatch goal with
  | |- wp _ get _ _ _ => apply wp_get
  | |- wp _ (ret _) _ _ _ => apply wp_ret
  | |- wp _ (raise _) _ _ _ => apply wp_raise
  | |- wp _ (upd _) _ _ _ => apply wp_upd
  | |- wp _ (beta_many _) _ _ _ => apply wp_beta_many; intros ?
  | |- wp _ (beta_rep _ _ _) _ _ _ => apply wp_beta_rep; intros ?
  | |- wp _ (beta1 _ _) _ _ _ => apply wp_beta1; intros ?
  | |- wp _ (binom_many _ _) _ _ _ => apply wp_binom_many; intros ?
  | |- wp _ (binom_rep _ _ _) _ _ _ => apply wp_binom_rep; intros ?
  | |- wp _ (binom1 _ _) _ _ _ => apply wp_binom1; intros ?
  | |- wp _ (choice1 _) _ _ _ => apply wp_choice1; intros ?
  | |- wp _ (dirichlet1 _) _ _ _ => apply wp_dirichlet1; intros ?
  | |- wp _ (gumbel1 _) _ _ _ => apply wp_gumbel1
  | |- wp _ optim1 _ _ _ => apply wp_optim1
  | |- wp _ root1 _ _ _ => apply wp_root1
  | |- wp _ (unif1 _ _) _ _ _ => apply wp_unif1
  | |- wp _ (unif_many _) _ _ _ => apply wp_unif_many
  | |- wp _ (need_int _) _ _ _ => apply wp_need_int; [intros ? ?|intros ?]
  | |- wp _ (base_complete_check _) _ _ _ => apply wp_check; intros ?
  | |- wp _ (if ?b then _ else _) _ _ _ => destruct b eqn:?
  | |- wp _ (match ?x with _ => _ end) _ _ _ => destruct x eqn:?
  end.
Ltac wstep :=
  cbv zeta; cbn [is_snone];
  lazymatch goal with
  | |- wp _ (bind (bind _ _) _) _ _ _ => apply wp_assoc
  | |- wp _ (bind ?m _) _ _ _ => apply wp_bind; wprim
  | |- wp _ _ _ _ _ => wprim
  end; cbv beta iota.
Ltac wsteps := repeat wstep.

(* steps that cannot fail and request nothing *)
Ltac wpure :=
  repeat (cbv zeta; lazymatch goal with
  | |- wp _ (bind (bind _ _) _) _ _ _ => apply wp_assoc
  | |- wp _ (bind get _) _ _ _ => apply wp_bind, wp_get; cbv beta iota
  | |- wp _ (bind (ret _) _) _ _ _ => apply wp_bind, wp_ret; cbv beta iota
  | |- wp _ (bind (upd _) _) _ _ _ => apply wp_bind, wp_upd; cbv beta iota
  | |- wp _ get _ _ _ => apply wp_get
  | |- wp _ (ret _) _ _ _ => apply wp_ret
  | |- wp _ (upd _) _ _ _ => apply wp_upd
  end); cbv beta iota.
