(* Gibbs fits in other coordinates (C93). *)
From Coq Require Import Lqa.
From Verif Require Import Prelude Numpy Rng M_Weights M_Niw M_Utils M_Mix M_Query S_Oracle S_Niw S_Mix S_Query S_GAffine P_Lists P_Niw P_Wp P_GSim P_GLin P_Mix P_Map P_Mix33 P_Mix37.
Open Scope Q_scope.
Open Scope m_scope.

Lemma shifted_add r1 r2 a b a' b' : shifted r1 a a' -> shifted r2 b b' -> shifted (r1 + r2) (lx_add a b) (lx_add a' b').
Proof. destruct a, a'; simpl; try contradiction; destruct b, b'; simpl; try contradiction; auto. intros -> ->. ring. Qed.
Lemma shifted_refl a : shifted 0 a a. Proof. destruct a; simpl; auto. ring. Qed.
Lemma shifted_eq r1 r2 a a' : r1 == r2 -> shifted r1 a a' -> shifted r2 a a'.
Proof. intros E. destruct a, a'; simpl; auto. rewrite E. auto. Qed.
Lemma fold_shifted r l l' : Forall2 (shifted r) l l' -> forall q a a', shifted q a a' -> shifted (q + nq (length l) * r) (fold_left lx_add l a) (fold_left lx_add l' a').
Proof.
  induction 1 as [|x x' l l' Hx H IH]; intros q a a' Ha; cbn [fold_left length].
  - eapply shifted_eq; [|exact Ha]. unfold nq; simpl. ring.
  - eapply shifted_eq; [|apply (IH (q + r)); apply shifted_add; assumption]. rewrite nq_S. ring.
Qed.
Lemma ltb_shifted r a b a' b' : shifted r a a' -> shifted r b b' -> lx_ltb a' b' = lx_ltb a b.
Proof.
  destruct a, a'; simpl; try contradiction; destruct b, b'; simpl; try contradiction; auto. intros E1 E2.
  destruct (qltb x x1) eqn:X; [apply qltb_lt in X; apply qltb_lt; lra|apply qltb_ge in X; apply qltb_ge; lra].
Qed.
Lemma neg_shifted r a a' : shifted r a a' -> lx_is_neg a' = lx_is_neg a.
Proof. destruct a, a'; simpl; try contradiction; auto. Qed.
Lemma index_shifted r f l l' : (forall a a', shifted r a a' -> f a' = f a) -> Forall2 (shifted r) l l' -> index_where f l' = index_where f l.
Proof. intros F. induction 1 as [|x x' l l' Hx H IH]; [reflexivity|]. cbn [index_where]. rewrite IH, (F _ _ Hx). reflexivity. Qed.
Lemma pick_shifted r l l' n : Forall2 (shifted r) l l' -> pick_label l' n = pick_label l n.
Proof.
  intros H. unfold pick_label. rewrite !(index_shifted r _ l l') by (try exact H; intros [] []; simpl; tauto).
  assert (N : forallb lx_is_neg l' = forallb lx_is_neg l) by (induction H as [|x x' l l' Hx H IH]; [reflexivity|]; simpl; rewrite IH, (neg_shifted _ _ _ Hx); reflexivity).
  rewrite N. reflexivity.
Qed.

Section G.
Variables (C : coords) (o o' : oracle) (E E' : env) (r : Q) (c : cls) (fuel : nat) (N : nat).
Hypothesis HO : draws_moved C o o'.
Hypothesis HE : env_moved C r E E'.
Let q := nq N * r.

Definition SR (s s' : ms) : Prop := mix_moved C q s s' /\ s_dim s = co_dim C /\ s_1d s = false /\ length (s_y s) = N.
Definition msim {A} (RA : A -> A -> Prop) (m m' : M ms A) : Prop := forall s s' g g', SR s s' -> log_moved C g g' ->
  match m o s g with (x, t, h) => exists x' t' h', m' o' s' g' = (x', t', h') /\ res_moved RA x x' /\ SR t t' /\ log_moved C h h' end.

Lemma msim_ret {A} (RA : A -> A -> Prop) a a' : RA a a' -> msim RA (ret a) (ret a').
Proof. intros H s s' g g' HS HL. simpl. eexists _, _, _. split; [reflexivity|]. simpl. auto. Qed.
Lemma msim_raise {A} (RA : A -> A -> Prop) e : msim RA (raise e) (raise e).
Proof. intros s s' g g' HS HL. simpl. eexists _, _, _. split; [reflexivity|]. simpl. auto. Qed.
Lemma msim_of_res {A} (RA : A -> A -> Prop) x x' : res_moved RA x x' -> msim RA (of_res x) (of_res x').
Proof. intros H s s' g g' HS HL. simpl. eexists _, _, _. split; [reflexivity|]. simpl. auto. Qed.
Lemma msim_bind {A B} (RA : A -> A -> Prop) (RB : B -> B -> Prop) m m' k k' : msim RA m m' -> (forall a a', RA a a' -> msim RB (k a) (k' a')) -> msim RB (bind m k) (bind m' k').
Proof.
  intros H K s s' g g' HS HL. unfold bind. specialize (H s s' g g' HS HL). destruct (m o s g) as [[x t] h]. destruct H as (x' & t' & h' & -> & Hx & Ht & Hh).
  destruct x as [a|e|], x' as [a'|e'|]; simpl in Hx; try contradiction.
  - exact (K a a' Hx t t' h h' Ht Hh).
  - subst e'. eexists _, _, _. split; [reflexivity|]. simpl. auto.
  - eexists _, _, _. split; [reflexivity|]. simpl. auto.
Qed.
Lemma msim_get {B} (RB : B -> B -> Prop) k k' : (forall s s', SR s s' -> msim RB (k s) (k' s')) -> msim RB (bind get k) (bind get k').
Proof. intros H s s' g g' HS HL. unfold bind, get. apply H; assumption. Qed.
Lemma msim_upd f f' : (forall s s', SR s s' -> SR (f s) (f' s')) -> msim eq (upd f) (upd f').
Proof. intros H s s' g g' HS HL. simpl. eexists _, _, _. split; [reflexivity|]. simpl. auto. Qed.
Lemma msim_wsim {A} (m : M ms A) : (forall oo s g, snd (fst (m oo s g)) = s) -> (forall s s' g, fst (fst (m o' s g)) = fst (fst (m o' s' g)) /\ snd (m o' s g) = snd (m o' s' g)) ->
  wsim C o o' m -> msim eq m m.
Proof.
  intros P Bl H s s' g g' HS HL. destruct (H s g g' HL) as (h' & Eq & L). pose proof (P o s g) as P1. pose proof (P o' s' g') as P2. pose proof (Bl s s' g') as B.
  destruct (m o s g) as [[x t] h]. destruct (m o' s' g') as [[x' t'] h''] eqn:E2. rewrite Eq in B. simpl in *. destruct B as [B1 B2]. subst. eexists _, _, _. split; [reflexivity|].
  split; [destruct x'; simpl; auto|]. auto.
Qed.
Lemma msim_unif l : msim eq (unif_many l) (unif_many l).
Proof. apply msim_wsim; [reflexivity| |apply wsim_unif_many; exact HO]. intros; split; reflexivity. Qed.
Lemma msim_gumbel l : msim eq (gumbel1 l) (gumbel1 l).
Proof. apply msim_wsim; [reflexivity| |apply wsim_gumbel1; exact HO]. intros; split; reflexivity. Qed.
Lemma SR_wm s s' : SR s s' -> s_wm s' = s_wm s. Proof. intros [H _]. pose proof (mm_set _ _ _ _ H) as K. injection K. auto. Qed.
Lemma msim_onw {A} (m : M ws A) : wsim C o o' m -> msim eq (onw m) (onw m).
Proof.
  intros H s s' g g' HS HL. unfold onw. rewrite (SR_wm _ _ HS). destruct (H (s_wm s) g g' HL) as (h' & -> & L). destruct (m o (s_wm s) g) as [[x t] h]. simpl in *.
  eexists _, _, _. split; [reflexivity|]. split; [destruct x; simpl; auto|]. split; [|exact L]. destruct HS as [[M1 M2 M3 M4 M5 M6 M7 M8 M9] Hd]. split; [|exact Hd].
  constructor; auto. simpl. injection M1 as -> -> -> -> -> -> _. reflexivity.
Qed.
Lemma msim_invw nu psi psi' : cov_moved C psi psi' -> msim (cov_moved C) (invw1 nu psi) (invw1 nu psi').
Proof.
  intros H s s' g g' HS HL. unfold invw1. cbv zeta. pose proof (cov_red C _ _ H) as Hr. pose proof (dm_invw C o o' HO g g' (Qred nu) _ _ HL Hr) as D.
  eexists _, _, _. split; [reflexivity|]. split; [|split; [exact HS|apply Forall2_app; [exact HL|constructor; [apply rm_invw; exact Hr|constructor]]]].
  destruct (o_invw o g (Qred nu) (map (map Qred) psi)), (o_invw o' g' (Qred nu) (map (map Qred) psi')); simpl in *; auto.
Qed.
Lemma msim_mvn mu mu' sg sg' : point_moved C mu mu' -> cov_moved C sg sg' -> msim (point_moved C) (mvn1 mu sg) (mvn1 mu' sg').
Proof.
  intros Hm H s s' g g' HS HL. unfold mvn1. cbv zeta. pose proof (cov_red C _ _ H) as Hr. pose proof (point_red C _ _ Hm) as Hp. pose proof (dm_mvn C o o' HO g g' _ _ _ _ HL Hp Hr) as D.
  eexists _, _, _. split; [reflexivity|]. split; [|split; [exact HS|apply Forall2_app; [exact HL|constructor; [apply rm_mvn; assumption|constructor]]]].
  destruct (o_mvn o g _ _), (o_mvn o' g' _ _); simpl in *; auto.
Qed.
Lemma msim_kmeans y y' k : rows_moved C y y' -> msim eq (kmeans1 y k) (kmeans1 y' k).
Proof.
  intros H s s' g g' HS HL. pose proof (rows_len C _ _ H) as L. unfold vec in *. unfold kmeans1. rewrite L. destruct (_ || _).
  - eexists _, _, _. split; [reflexivity|]. simpl. auto.
  - eexists _, _, _. split; [reflexivity|]. simpl. split; [symmetry; apply (dm_kmeans C o o' HO); assumption|]. split; [exact HS|]. apply Forall2_app; [exact HL|]. constructor; [apply rm_kmeans; exact H|constructor].
Qed.

Ltac mm := intros; match goal with H : SR ?s ?s' |- _ => destruct H as [[M1 M2 M3 M4 M5 M6 M7 M8 M9] Hd] end.
Lemma prior_sim s s' : SR s s' -> res_moved (niw_moved C) (prior_niw s) (prior_niw s').
Proof.
  mm. injection M1; intros. unfold prior_niw. destruct (s_mu s), (s_mu s'); simpl in M3; try contradiction; simpl; auto.
  destruct (s_psi s), (s_psi s'); simpl in M4; try contradiction; simpl; auto. destruct (s_nu s) eqn:En; rewrite H0; simpl; auto.
  repeat split; simpl; auto; try apply M3; try apply M4.
Qed.
Lemma draw_sim h h' : niw_moved C h h' -> msim (atom_moved C) (draw_niw h) (draw_niw h').
Proof.
  intros (H1 & H2 & H3 & H4). unfold draw_niw. rewrite H1, H2. apply (msim_bind (cov_moved C)); [apply msim_invw; exact H4|]. intros sg sg' Hs.
  apply (msim_bind eq); [destruct (Qeq_bool (n_lam h) 0); [apply msim_raise|apply msim_ret; reflexivity]|]. intros _ _ _.
  apply (msim_bind (point_moved C)); [apply msim_mvn; [exact H3|apply cov_div; exact Hs]|]. intros m m' Hm. apply msim_ret. split; assumption.
Qed.
Lemma prior_atom_sim : msim (atom_moved C) prior_atom prior_atom.
Proof. unfold prior_atom. apply msim_get. intros s s' HS. apply (msim_bind (niw_moved C)); [apply msim_of_res, prior_sim, HS|]. intros; apply draw_sim; assumption. Qed.
Lemma lookup_moved j l l' : atoms_moved C l l' -> opt_moved (atom_moved C) (lookup j l) (lookup j l').
Proof. induction 1 as [|[i a] [i' a'] l l' [H1 H2] H IH]; simpl; [auto|]. simpl in H1, H2. subst i'. destruct (Nat.eqb i j); [exact H2|exact IH]. Qed.
Lemma put_moved j a a' l l' : atom_moved C a a' -> atoms_moved C l l' -> atoms_moved C (put j a l) (put j a' l').
Proof.
  intros Ha. induction 1 as [|[i b] [i' b'] l l' [H1 H2] H IH]; simpl; [constructor; [auto|constructor]|]. simpl in H1, H2. subst i'.
  destruct (Nat.eqb i j); constructor; auto.
Qed.
Lemma put_sim j a a' : atom_moved C a a' -> msim eq (upd (fun s => upd_theta (put j a (s_theta s)) s)) (upd (fun s => upd_theta (put j a' (s_theta s)) s)).
Proof. intros Ha. apply msim_upd. mm. split; [|exact Hd]. constructor; auto. simpl. apply put_moved; assumption. Qed.
Lemma get_atom_sim j : msim (atom_moved C) (get_atom j) (get_atom j).
Proof.
  unfold get_atom. apply msim_get. intros s s' HS. pose proof HS as [[_ M2 _ _ _ M6 _ _ _] _]. injection M2; intros. pose proof (lookup_moved j _ _ M6) as Lk.
  destruct (lookup j (s_theta s)), (lookup j (s_theta s')); simpl in Lk; try contradiction; [apply msim_ret; exact Lk|]. rewrite H5. destruct (s_gen s); [|apply msim_raise].
  apply (msim_bind (atom_moved C)); [apply prior_atom_sim|]. intros a a' Ha. apply (msim_bind eq); [apply put_sim; exact Ha|]. intros _ _ _. apply msim_ret. exact Ha.
Qed.
Lemma labels_sim s s' : SR s s' -> labels_of s' = labels_of s.
Proof. mm. injection M2; intros. unfold labels_of. rewrite H6. reflexivity. Qed.
Lemma select_moved j dl : forall y y', rows_moved C y y' -> rows_moved C (select j dl y) (select j dl y').
Proof.
  induction dl as [|d dl IH]; intros y y' H; [destruct y, y'; constructor|]. inversion H as [|x x' t t' Hx Ht]; subst; [constructor|]. unfold select in *. cbn [combine filter fst].
  destruct (Nat.eqb d j); cbn [map snd]; [constructor; [exact Hx|]|]; apply (IH t t' Ht).
Qed.
Lemma masked_sim j : msim (rows_moved C) (masked j) (masked j).
Proof.
  unfold masked. apply msim_get. intros s s' HS. rewrite (labels_sim _ _ HS). destruct HS as [[_ _ _ _ (M5 & _) _ _ _ _] _]. rewrite (rows_len C _ _ M5).
  destruct (Nat.eqb _ _); [apply msim_ret, select_moved, M5|apply msim_raise].
Qed.
Lemma update_atoms_sim js : msim eq (update_atoms js) (update_atoms js).
Proof.
  induction js as [|j t IH]; cbn [update_atoms]; [apply msim_ret; reflexivity|]. apply (msim_bind (rows_moved C)); [apply masked_sim|]. intros y y' Hy.
  apply msim_get. intros s s' HS. apply (msim_bind (niw_moved C)); [apply msim_of_res, prior_sim, HS|]. intros h h' Hh.
  apply (msim_bind (niw_moved C)); [apply msim_of_res, niw_post_moved; assumption|]. intros p p' Hp. apply (msim_bind (atom_moved C)); [apply draw_sim; exact Hp|]. intros a a' Ha.
  apply (msim_bind eq); [apply put_sim; exact Ha|]. intros _ _ _. exact IH.
Qed.
Lemma u_sim s s' : SR s s' -> s_u s' = s_u s. Proof. mm. injection M2; auto. Qed.
Lemma tail_slice_sim : msim eq (tail_to_slice c fuel) (tail_to_slice c fuel).
Proof.
  unfold tail_to_slice. apply msim_get. intros s s' HS. rewrite (u_sim _ _ HS). destruct (is_nil (s_u s)); [apply msim_raise|]. apply (msim_bind eq); [apply msim_onw, wsim_wm_tail, HO|]. intros _ _ _. apply msim_ret; reflexivity.
Qed.
Lemma upd_u_sim u : msim eq (upd (upd_u u)) (upd (upd_u u)).
Proof. apply msim_upd. mm. split; [|exact Hd]. constructor; auto. simpl. injection M2 as -> -> _ -> -> -> -> ->. reflexivity. Qed.
Lemma upd_d_sim u : msim eq (upd (upd_d u)) (upd (upd_d u)).
Proof. apply msim_upd. mm. split; [|exact Hd]. constructor; auto. simpl. injection M2 as _ -> -> -> -> -> -> ->. reflexivity. Qed.
Lemma update_weights_sim : msim eq (update_weights c fuel) (update_weights c fuel).
Proof.
  unfold update_weights. apply msim_get. intros s s' HS. rewrite (labels_sim _ _ HS). apply (msim_bind eq); [apply msim_onw, wsim_upd|]. intros _ _ _.
  apply (msim_bind eq); [apply msim_onw, wsim_wm_random, HO|]. intros x _ <-.
  assert (Ed : s_d s' = s_d s) by (destruct HS as [[_ M2 _ _ _ _ _ _ _] _]; injection M2; auto). rewrite Ed.
  destruct (s_d s) as [dl|]; [|apply msim_raise]. destruct (gather x dl); [|apply msim_raise]. apply (msim_bind eq); [apply msim_unif|]. intros u _ <-.
  apply (msim_bind eq); [apply upd_u_sim|]. intros _ _ _. apply tail_slice_sim.
Qed.
Definition lrows : list (list lx) -> list (list lx) -> Prop := Forall2 (fun l l' => length l = N /\ Forall2 (shifted r) l l').
Lemma logpdf_sim js : msim lrows (logpdf_rows E js) (logpdf_rows E' js).
Proof.
  induction js as [|j t IH]; cbn [logpdf_rows]; [apply msim_ret; constructor|]. apply (msim_bind (atom_moved C)); [apply get_atom_sim|]. intros a a' Ha.
  apply msim_get. intros s s' HS. apply (msim_bind (fun l l' => length l = N /\ Forall2 (shifted r) l l')).
  - destruct HS as [[_ _ _ _ (M5 & _) _ _ _ _] (_ & _ & Hn)]. apply msim_of_res. pose proof (em_logpdf C r E E' HE _ _ _ _ M5 Ha) as K. rewrite Hn in K. exact K.
  - intros l l' Hl. apply (msim_bind lrows); [exact IH|]. intros rr rr' Hr. apply msim_ret. constructor; assumption.
Qed.
Lemma nth_shifted l l' i : Forall2 (shifted r) l l' -> shifted r (nth i l LNan) (nth i l' LNan).
Proof. intros H. revert i. induction H; intros [|i]; simpl; auto. Qed.
Lemma logits_shifted ll ll' : lrows ll ll' -> forall ws u i, Forall2 (shifted r) (logits ll ws u i) (logits ll' ws u i).
Proof.
  induction 1 as [|l l' ll ll' [_ Hl] H IH]; intros ws u i; [destruct ws; constructor|]. destruct ws as [|x ws]; [constructor|]. unfold logits in *. cbn [combine map fst snd]. constructor; [|apply IH].
  eapply shifted_eq; [|apply shifted_add; [apply nth_shifted; exact Hl|apply shifted_refl]]. ring.
Qed.
Lemma draw_labels_sim l l' : Forall2 (Forall2 (shifted r)) l l' -> msim eq (draw_labels l) (draw_labels l').
Proof.
  induction 1 as [|x x' l l' Hx H IH]; cbn [draw_labels]; [apply msim_ret; reflexivity|].
  assert (K : map (fun l => negb (lx_is_neg l)) x' = map (fun l => negb (lx_is_neg l)) x) by (induction Hx as [|y y' z z' Hy Hz IHz]; [reflexivity|]; cbn [map]; rewrite IHz, (neg_shifted _ _ _ Hy); reflexivity).
  rewrite K. apply (msim_bind eq); [apply msim_gumbel|]. intros n _ <-. apply (msim_bind eq); [exact IH|]. intros rr _ <-. apply msim_ret. rewrite (pick_shifted r _ _ n Hx). reflexivity.
Qed.
Lemma update_d_sim : msim eq (update_d E) (update_d E').
Proof.
  unfold update_d. apply msim_get. intros s s' HS. rewrite (SR_wm _ _ HS), (u_sim _ _ HS). cbv zeta. apply (msim_bind lrows); [apply logpdf_sim|]. intros ll ll' Hl.
  destruct HS as [[_ _ _ _ (M5 & _) _ _ _ _] _]. rewrite (rows_len C _ _ M5). destruct (_ || _); [apply msim_raise|]. apply (msim_bind eq); [|intros x _ <-; apply upd_d_sim].
  apply draw_labels_sim. induction (seq 0 (length (s_y s))); cbn [map]; constructor; auto. apply logits_shifted. exact Hl.
Qed.
Lemma gibbs_step_sim : msim eq (gibbs_step E c fuel) (gibbs_step E' c fuel).
Proof.
  unfold gibbs_step, update_all_atoms. apply (msim_bind eq); [apply msim_get; intros s s' HS; rewrite (labels_sim _ _ HS); apply update_atoms_sim|]. intros _ _ _.
  apply (msim_bind eq); [apply update_weights_sim|]. intros _ _ _. apply update_d_sim.
Qed.

(* number of rows carrying one of the labels js *)
Definition carried (js : list nat) (dl : list nat) : nat := nsum (map (fun j => length (filter (Nat.eqb j) dl)) js).
Lemma select_len {A} j dl : forall y : list A, length dl = length y -> length (select j dl y) = length (filter (Nat.eqb j) dl).
Proof.
  unfold select. induction dl as [|d dl IH]; intros [|x y] H; try discriminate; [reflexivity|]. injection H as H. cbn [combine filter fst]. rewrite (Nat.eqb_sym d j).
  destruct (Nat.eqb j d); cbn [map length snd]; rewrite ?IH by exact H; reflexivity.
Qed.
Lemma carried_all js dl : NoDup js -> (forall x, In x dl -> In x js) -> carried js dl = length dl.
Proof.
  intros Nd. induction dl as [|d dl IH]; intros H.
  - clear. unfold carried. induction js as [|j js IH]; [reflexivity|]. exact IH.
  - specialize (IH (fun x Hx => H x (or_intror Hx))). cbn [length]. rewrite <- IH. clear IH. pose proof (H d (or_introl eq_refl)) as Hd. clear H.
    unfold carried. induction js as [|j js IHj]; [destruct Hd|]. cbn [map nsum filter]. inversion Nd as [|? ? Nj Nd']; subst. destruct (Nat.eqb_spec j d) as [->|Hne].
    + cbn [length]. assert (K : map (fun j => length (filter (Nat.eqb j) (d :: dl))) js = map (fun j => length (filter (Nat.eqb j) dl)) js).
      { apply map_ext_in. intros j Hj. cbn [filter]. destruct (Nat.eqb_spec j d) as [->|_]; [contradiction|reflexivity]. }
      cbn [filter] in K. rewrite K. lia.
    + destruct Hd as [X|Hd]; [congruence|]. specialize (IHj Nd' Hd). cbn [filter] in IHj. lia.
Qed.
Lemma bind_run {S A B} (m : M S A) (k : A -> M S B) oo s g : bind m k oo s g = match m oo s g with (Ok a, t, h) => k a oo t h | (Err e, t, h) => (Err e, t, h) | (Diverge, t, h) => (Diverge, t, h) end.
Proof. reflexivity. Qed.
Lemma masked_run j oo s g : length (labels_of s) = length (s_y s) -> masked j oo s g = (Ok (select j (labels_of s) (s_y s)), s, g).
Proof. intros H. unfold masked, bind, get. rewrite H, Nat.eqb_refl. reflexivity. Qed.
Lemma y_loglik_sim js : forall dl, (length dl = N)%nat -> forall p a a', shifted p a a' ->
  forall s s' g g', SR s s' -> labels_of s = dl -> log_moved C g g' ->
  match y_loglik E js a o s g with (x, t, h) => exists x' t' h', y_loglik E' js a' o' s' g' = (x', t', h') /\
    res_moved (shifted (p + nq (carried js dl) * r)) x x' /\ SR t t' /\ log_moved C h h' end.
Proof.
  induction js as [|j js IH]; intros dl Hdl p a a' Ha s s' g g' HS Ld HL.
  - simpl. eexists _, _, _. split; [reflexivity|]. split; [|auto]. simpl. eapply shifted_eq; [|exact Ha]. unfold carried, nq. simpl. ring.
  - cbn [y_loglik]. pose proof HS as [[_ _ _ _ (M5 & _) _ _ _ _] (_ & _ & Hn)]. rewrite !bind_run, (masked_run j o s g), (masked_run j o' s' g') by (rewrite ?(labels_sim _ _ HS), ?(rows_len C _ _ M5); congruence).
    rewrite (labels_sim _ _ HS), Ld. cbv iota beta. rewrite !bind_run.
    pose proof (get_atom_sim j s s' g g' HS HL) as GA.
    assert (KD : labels_of (snd (fst (get_atom j o s g))) = labels_of s).
    { apply (keeps_get_atom labels_of j); reflexivity. }
    destruct (get_atom j o s g) as [[x t] h]. destruct GA as (x' & t' & h' & -> & Hx & Ht & Hh). simpl in KD.
    destruct x as [at1|e|], x' as [at2|e'|]; simpl in Hx; try contradiction; [| |].
    2:{ subst e'. eexists _, _, _. split; [reflexivity|]. simpl; auto. }
    2:{ eexists _, _, _. split; [reflexivity|]. simpl; auto. }
    rewrite !bind_run. unfold of_res.
    pose proof (em_logpdf C r E E' HE _ _ _ _ (select_moved j dl _ _ M5) Hx) as LP.
    destruct (e_logpdf E (select j dl (s_y s)) at1) as [l|e|], (e_logpdf E' (select j dl (s_y s')) at2) as [l'|e'|]; simpl in LP; try contradiction.
    2:{ subst e'. eexists _, _, _. split; [reflexivity|]. simpl; auto. }
    2:{ eexists _, _, _. split; [reflexivity|]. simpl; auto. }
    destruct LP as [Ll Fl].
    specialize (IH dl Hdl (p + nq (length l) * r) (lx_add a (lx_sum l)) (lx_add a' (lx_sum l'))).
    assert (S1 : shifted (p + nq (length l) * r) (lx_add a (lx_sum l)) (lx_add a' (lx_sum l'))).
    { apply shifted_add; [exact Ha|]. eapply shifted_eq; [|apply (fold_shifted r l l' Fl 0 (LQ 0) (LQ 0) (shifted_refl _))]. ring. }
    specialize (IH S1 t t' h h' Ht ltac:(congruence) Hh). destruct (y_loglik E js _ o t h) as [[x2 t2] h2]. destruct IH as (x3 & t3 & h3 & -> & Hr & HS3 & HL3).
    eexists _, _, _. split; [reflexivity|]. split; [|auto]. destruct x2, x3; simpl in Hr |- *; auto. eapply shifted_eq; [|exact Hr].
    assert (Lc : carried (j :: js) dl = (length l + carried js dl)%nat) by (unfold carried; cbn [map nsum]; rewrite Ll, (select_len j dl (s_y s)) by congruence; reflexivity).
    rewrite Lc, nq_add. ring.
Qed.
Lemma run_params_moved s s' : SR s s' -> state_moved C (get_run_params s) (get_run_params s').
Proof. intros HS. pose proof (labels_sim _ _ HS) as Ld. pose proof (u_sim _ _ HS) as Lu. pose proof (SR_wm _ _ HS) as Lw. destruct HS as [[_ _ _ _ _ M6 _ _ _] _]. unfold labels_of in Ld. unfold state_moved, get_run_params. simpl. rewrite Ld, Lu, Lw. auto. Qed.
Lemma run_loglik_sim s s' g g' : length (labels_of s) = N -> SR s s' -> log_moved C g g' ->
  match run_loglik E c o s g with (x, t, h) => exists x' t' h', run_loglik E' c o' s' g' = (x', t', h') /\ res_moved (shifted q) x x' /\ SR t t' /\ log_moved C h h' end.
Proof.
  intros Hd HS HL. unfold run_loglik. rewrite !bind_run. unfold get. cbv iota beta. rewrite (labels_sim _ _ HS), !bind_run.
  pose proof (y_loglik_sim (nunique (labels_of s)) (labels_of s) Hd 0 (LQ 0) (LQ 0) (shifted_refl _) s s' g g' HS eq_refl HL) as Y.
  rewrite carried_all in Y; [|apply nunique_nodup|intros x Hx; apply nunique_in; exact Hx]. rewrite Hd in Y.
  destruct (y_loglik E _ _ o s g) as [[x t] h]. destruct Y as (x' & t' & h' & -> & Hx & Ht & Hh).
  destruct x as [a|e|], x' as [a'|e'|]; simpl in Hx; try contradiction.
  - apply (msim_bind eq (shifted q)); [apply msim_onw, wsim_wm_assign, HO| |exact Ht|exact Hh]. intros xs _ <-. apply msim_ret.
    assert (Em : map (e_log E') xs = map (e_log E) xs) by (apply map_ext; apply (em_log C r E E' HE)). rewrite Em.
    eapply shifted_eq; [|apply shifted_add; [apply shifted_add; [apply shifted_refl|exact Hx]|apply shifted_refl]]. unfold q. ring.
  - subst. eexists _, _, _. split; [reflexivity|]. simpl; auto.
  - eexists _, _, _. split; [reflexivity|]. simpl; auto.
Qed.
Lemma update_map_sim s s' g g' : length (labels_of s) = N -> SR s s' -> log_moved C g g' ->
  match update_map E c o s g with (x, t, h) => exists x' t' h', update_map E' c o' s' g' = (x', t', h') /\ res_moved eq x x' /\ SR t t' /\ log_moved C h h' end.
Proof.
  intros Hd HS HL. unfold update_map. pose proof (run_loglik_sim s s' g g' Hd HS HL) as Y. rewrite !bind_run.
  destruct (run_loglik E c o s g) as [[x t] h]. destruct Y as (x' & t' & h' & -> & Hx & Ht & Hh).
  destruct x as [a|e|], x' as [a'|e'|]; simpl in Hx; try contradiction.
  - revert t t' h h' Ht Hh. change (msim eq (s <- get ;; if lx_ltb (s_mapll s) a then upd (fun s => upd_map (Some (get_run_params s)) a s) else if lx_is_neg (s_mapll s) then upd (fun s => upd_map (Some (get_run_params s)) (s_mapll s) s) else ret tt)
      (s <- get ;; if lx_ltb (s_mapll s) a' then upd (fun s => upd_map (Some (get_run_params s)) a' s) else if lx_is_neg (s_mapll s) then upd (fun s => upd_map (Some (get_run_params s)) (s_mapll s) s) else ret tt)).
    apply msim_get. intros t t' Ht. pose proof Ht as [[_ _ _ _ _ _ _ M8 _] _]. rewrite (ltb_shifted q _ _ _ _ M8 Hx), (neg_shifted q _ _ M8).
    destruct (lx_ltb (s_mapll t) a); [|destruct (lx_is_neg (s_mapll t))]; [| |apply msim_ret; reflexivity]; apply msim_upd; intros v v' Hv; pose proof (run_params_moved _ _ Hv) as RPM;
      destruct Hv as [[K1 K2 K3 K4 K5 K6 K7 K8 K9] Hk]; (split; [|exact Hk]; constructor; auto).
  - subst. eexists _, _, _. split; [reflexivity|]. simpl; auto.
  - eexists _, _, _. split; [reflexivity|]. simpl; auto.
Qed.
Lemma save_sim : msim eq save_params save_params.
Proof.
  unfold save_params. apply (msim_bind eq).
  { apply msim_upd. intros s s' HS. pose proof (labels_sim _ _ HS) as Ld. pose proof (run_params_moved _ _ HS) as RPM. destruct HS as [[M1 M2 M3 M4 M5 M6 M7 M8 M9] Hd]. split; [|exact Hd].
    assert (Lt : length (s_theta s') = length (s_theta s)) by (clear -M6; induction M6; simpl; congruence).
    constructor; auto; simpl; [rewrite Ld, Lt; injection M2 as -> -> -> -> -> -> -> ->; reflexivity|]. apply Forall2_app; [exact M9|constructor; [exact RPM|constructor]]. }
  intros _ _ _. apply msim_get. intros s s' HS. rewrite (labels_sim _ _ HS). assert (Ea : s_aff s' = s_aff s) by (destruct HS as [[_ M2 _ _ _ _ _ _ _] _]; injection M2; auto). rewrite Ea.
  destruct (Nat.eqb _ _); [|apply msim_raise]. apply (msim_bind eq).
  { apply msim_upd. mm. split; [|exact Hd]. constructor; auto. simpl. injection M2 as -> -> -> _ -> -> -> ->. reflexivity. }
  intros _ _ _. apply msim_upd. mm. split; [|exact Hd]. constructor; auto. simpl. injection M2 as -> -> -> -> -> -> -> ->. reflexivity.
Qed.

Hypothesis HV : valid_oracle o.
Lemma then_map (m m' : M ms unit) : msim eq m m' -> (forall s g t h, length (s_y s) = N -> m o s g = (Ok tt, t, h) -> length (labels_of t) = N) -> msim eq (m ;; update_map E c) (m' ;; update_map E' c).
Proof.
  intros H L s s' g g' HS HL. rewrite !bind_run. pose proof (H s s' g g' HS HL) as K. pose proof (L s g) as Lm; destruct (m o s g) as [[x t] h]. destruct K as (x' & t' & h' & -> & Hx & Ht & Hh).
  destruct x as [[]|e|], x' as [a'|e'|]; simpl in Hx; try contradiction.
  - apply update_map_sim; [apply (Lm t h); [apply HS|reflexivity]|exact Ht|exact Hh].
  - subst. eexists _, _, _. split; [reflexivity|]. simpl; auto.
  - eexists _, _, _. split; [reflexivity|]. simpl; auto.
Qed.
Lemma step_labels s g t h : length (s_y s) = N -> gibbs_step E c fuel o s g = (Ok tt, t, h) -> length (labels_of t) = N.
Proof.
  intros Hn H. unfold gibbs_step in H. apply bind_ok in H as (? & s1 & g1 & H1 & H). apply bind_ok in H as (? & s2 & g2 & H2 & H).
  pose proof (update_d_wp E o s2 g2 HV) as W. unfold wp in W. rewrite H in W. destruct (W eq_refl) as (L & _). rewrite L.
  assert (K : s_y s2 = s_y s).
  { transitivity (s_y s1). { refine (keeps_ok s_y _ _ _ _ _ _ _ _ H2). apply keeps_update_weights; reflexivity. } refine (keeps_ok s_y _ _ _ _ _ _ _ _ H1). unfold update_all_atoms. apply keeps_bind; [apply keeps_get|]. intros. apply keeps_update_atoms; reflexivity. }
  rewrite K. exact Hn.
Qed.
Lemma sweep_sim : msim eq (sweep E c fuel) (sweep E' c fuel).
Proof. apply then_map; [apply gibbs_step_sim|apply step_labels]. Qed.
Lemma burn_sim n : msim eq (burn_loop E c fuel n) (burn_loop E' c fuel n).
Proof. induction n; cbn [burn_loop]; [apply msim_ret; reflexivity|]. apply (msim_bind eq); [apply sweep_sim|]. intros _ _ _. exact IHn. Qed.
Lemma train_sim n : forall i, msim eq (train_loop E c fuel n i) (train_loop E' c fuel n i).
Proof.
  induction n; intros i; cbn [train_loop]; [apply msim_ret; reflexivity|]. apply (msim_bind eq); [apply sweep_sim|]. intros _ _ _. apply msim_get. intros s s' HS.
  assert (Es : s_sub s' = s_sub s) by (destruct HS as [[M1 _ _ _ _ _ _ _ _] _]; injection M1; auto). rewrite Es. apply (msim_bind eq); [|intros _ _ _; apply IHn].
  destruct (s_sub s =? 0)%Z; [apply msim_raise|]. destruct (_ =? 0)%Z; [apply save_sim|apply msim_ret; reflexivity].
Qed.
Lemma km_sim y y' k : rows_moved C y y' -> msim eq (kmeans_cluster_size_biased (e_argsort E) y k) (kmeans_cluster_size_biased (e_argsort E') y' k).
Proof.
  intros H. unfold kmeans_cluster_size_biased. apply (msim_bind eq); [apply msim_kmeans; exact H|]. intros l _ <-.
  assert (K : size_biased (e_argsort E') l = size_biased (e_argsort E) l) by (unfold size_biased; rewrite !(em_argsort C r E E' HE); reflexivity). rewrite K.
  destruct (size_biased (e_argsort E) l); [apply msim_ret; reflexivity|apply msim_raise].
Qed.
Lemma init_gibbs_sim ig meth : meth <> IVariational -> msim eq (init_gibbs E c fuel ig meth) (init_gibbs E' c fuel ig meth).
Proof.
  intros Hm. unfold init_gibbs. apply (msim_bind eq). { apply msim_upd. mm. split; [|exact Hd]. constructor; auto; simpl. { injection M2 as -> -> -> -> _ _ _ ->. reflexivity. } constructor. }
  intros _ _ _. apply (msim_bind eq). { apply msim_upd. mm. split; [|exact Hd]. constructor; auto; simpl. constructor. }
  intros _ _ _. apply (msim_bind eq). { apply msim_upd. mm. split; [|exact Hd]. constructor; auto; simpl. injection M2 as -> _ -> -> -> -> -> ->. reflexivity. }
  intros _ _ _. apply msim_get. intros s s' HS. cbv zeta. pose proof HS as [[M1 _ _ _ (My & M5 & M6) _ _ _ _] (_ & H1 & _)]. rewrite (rows_len C _ _ My).
  apply (msim_bind eq). { apply msim_upd. clear. mm. split; [|exact Hd]. constructor; auto; simpl. injection M2 as -> -> -> _ -> -> -> ->. reflexivity. }
  intros _ _ _. apply (msim_bind eq); [apply msim_unif|]. intros u _ <-. apply (msim_bind eq); [apply upd_u_sim|]. intros _ _ _.
  apply (msim_bind eq). { destruct (is_snone ig); [apply tail_slice_sim|]. apply (msim_bind eq); [apply msim_onw, wsim_wm_complete, HO|]. intros; apply msim_ret; reflexivity. }
  intros _ _ _. destruct meth; [| |contradiction|apply msim_raise].
  - rewrite M6, H1. assert (En : s_n s' = s_n s) by (injection M1; auto). rewrite En. apply (msim_bind eq); [apply msim_ret; reflexivity|]. intros _ _ _. apply (msim_bind eq); [apply km_sim; exact My|].
    intros l _ <-. apply upd_d_sim.
  - apply (msim_bind eq); [apply msim_onw, wsim_wm_random_assignment, HO|]. intros l _ <-. apply upd_d_sim.
Qed.
Definition fitting (ig : pysize) (warm : bool) (meth : vmethod) (EE : env) : M ms unit :=
  (if warm then ret tt else init_gibbs EE c fuel ig meth ;; update_map EE c) ;;
  s <- get ;;
  burn_loop EE c fuel (Z.to_nat (s_burn s)) ;;
  train_loop EE c fuel (Z.to_nat (s_total s - s_burn s)) 0 ;;
  upd (fun s => upd_flags true (s_vfit s) (s_vconv s) s).
Lemma fitting_sim ig warm meth : meth <> IVariational \/ warm = true -> msim eq (fitting ig warm meth E) (fitting ig warm meth E').
Proof.
  intros Hm. unfold fitting. apply (msim_bind eq).
  { destruct warm; [apply msim_ret; reflexivity|]. assert (Hm' : meth <> IVariational) by (destruct Hm; [assumption|discriminate]). apply then_map; [apply init_gibbs_sim; exact Hm'|].
    intros s g t h Hn H. pose proof (init_gibbs_labels E c fuel ig meth o s g HV) as W. unfold wp in W. rewrite H in W. rewrite (W eq_refl). exact Hn. }
  intros _ _ _. apply msim_get. intros s s' HS. assert (Et : s_total s' = s_total s /\ s_burn s' = s_burn s) by (destruct HS as [[M1 _ _ _ _ _ _ _ _] _]; injection M1; auto). destruct Et as [-> ->].
  apply (msim_bind eq); [apply burn_sim|]. intros _ _ _. apply (msim_bind eq); [apply train_sim|]. intros _ _ _.
  apply msim_upd. clear. mm. split; [|exact Hd]. constructor; auto; simpl. injection M2 as -> -> -> -> -> -> -> _. reflexivity.
Qed.
End G.
