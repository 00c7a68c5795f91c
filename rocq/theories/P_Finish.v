(* Fits that finish (C94). *)
From Coq Require Import Lqa.
From Verif Require Import Prelude Numpy Rng M_Weights M_Niw M_Utils M_Mix S_Weights S_Hist S_Oracle S_Finish P_Lists P_Hoare P_Wp P_Inv P_Complete P_Random P_Tail P_Sticks P_Geom P_Grow P_Fixed P_Mix P_MixOk.
Open Scope Q_scope.
Open Scope m_scope.

(* ---------- sticks are draws: random ---------- *)
Section Pr.
Variable P : Q -> Prop.
Variable o : oracle.
Hypothesis Ho : forall g a b, P (o_beta o g a b).
Notation pv := (pv P).
Ltac pt := repeat match goal with H : pv _ |- _ => destruct H end;
  try (split; simpl; repeat (apply Forall_app; split); auto using (draws_P P o Ho); fail).

Lemma pv_dp_random al z s g : pv s -> wp o (dp_random al z) (fun _ s' _ => pv s') s g.
Proof.
  intros H. unfold dp_random.
  repeat first [exact H | (eapply wp_call; [apply (pv_dp_complete P o Ho); pt| | |]; intros; try assumption) | wstep]; pt.
Qed.
Lemma pv_py_random pd al z s g : pv s -> wp o (py_random pd al z) (fun _ s' _ => pv s') s g.
Proof.
  intros H. unfold py_random.
  repeat first [exact H | (eapply wp_call; [apply (pv_py_complete P o Ho); pt| | |]; intros; try assumption) | wstep]; pt.
Qed.
Lemma pv_bib_random x al a b pm z s g : x < 1 -> pv s -> wp o (bib_random x al a b pm z) (fun _ s' _ => pv s') s g.
Proof.
  intros Hx H. unfold bib_random.
  assert (Hx' : qltb x 1 = true) by (apply qltb_lt; exact Hx). rewrite Hx'.
  wstep. wstep; [wstep; exact H|]. wstep. wstep.
  - eapply wp_call; [apply (pv_bib_complete P o Ho); [exact Hx|pt]| | |]; intros; assumption.
  - assert (F : forall s1 g1, pv s1 -> wp o
      (let a_c := bincount (d s) in let b_c := tail_counts a_c in
       let size := if is_snone z then SInt (Z.of_nat (length a_c)) else z in
       z0 <- need_int size;;
       (let cut := (z0 <? Z.of_nat (length a_c))%Z in
        let a_c0 := if cut then py_take z0 a_c else a_c in
        let b_c0 := if cut then py_take z0 b_c else b_c in
        s0 <- get;;
        nv <- beta_many (pairs (map (fun n => 1 + x / (1 - x) * p s0 + nq n) a_c0)
                              (map (fun n => al + x / (1 - x) * (1 - p s0) + nq n) b_c0));;
        upd (set_v nv);; upd refresh_w;; bib_complete x al a b pm size;; s' <- get;; ret (w s'))) (fun _ s' _ => pv s') s1 g1).
    { intros s1 g1 H1. cbv zeta. wstep; [|exact H1]. wstep. wstep; [|exact H1]. wstep. wstep.
      eapply wp_call; [apply (pv_bib_complete P o Ho); [exact Hx|pt]| | |]; intros; assumption. }
    wstep.
    + eapply wp_mono; [apply bib_random_p_wp|]. intros [y|e|] s' g' [_ Es]; rewrite Es; [|pt|pt]. apply F; pt.
    + wstep. apply F; pt.
Qed.
Lemma pv_bid_draw al ac bc db jjs : forall s g, pv s -> wp o (bid_draw_vbase al ac bc db jjs) (fun r s' _ => pv s' /\ forall l, r = Ok l -> Forall P l) s g.
Proof.
  induction jjs as [|j t IH]; intros s g H; simpl; [wstep; split; [exact H|]; intros l [= <-]; constructor|].
  wstep; [|split; [exact H|discriminate]]. eapply wp_call; [apply IH; exact H| | |].
  - intros l s' g' [H1 H2]. wstep. split; [exact H1|]. intros l' [= <-]. constructor; [apply Ho|apply H2; reflexivity].
  - intros e s' g' [H1 _]; split; [exact H1|discriminate].
  - intros s' g' [H1 _]; split; [exact H1|discriminate].
Qed.
Lemma pv_bid_update_j al a j s g : pv s -> wp o (bid_update_j al a j) (fun _ s' _ => pv s') s g.
Proof. intros H. unfold bid_update_j. wsteps; pt. Qed.
Lemma pv_bid_update_all al a js : forall s g, pv s -> wp o (bid_update_all al a js) (fun _ s' _ => pv s') s g.
Proof.
  induction js as [|j t IH]; intros s g H; simpl; [wstep; exact H|].
  eapply wp_call; [apply pv_bid_update_j; exact H| | |]; auto.
Qed.
Lemma pv_bid_random al a z s g : pv s -> wp o (bid_random al a z) (fun _ s' _ => pv s') s g.
Proof.
  intros H. unfold bid_random. wstep. wstep; [wstep; exact H|].
  assert (F : forall z', wp o (upd (set_v []);; upd (set_vbase []);;
    (if is_nil (d s) then bid_complete al a z';; s0 <- get;; ret (w s0)
     else upd (fun s0 => set_dbase (firstn (S (nmax (d s))) (dbase s0 ++ repeat 0%nat (S (nmax (d s)) - length (dbase s0)))) s0);;
          s1 <- get;;
          vb <- bid_draw_vbase al (bincount (d s)) (tail_counts (bincount (d s))) (dbase s1) (seq 0 (S (nmax (dbase s1))));;
          upd (set_vbase vb);; bid_update_all al a (seq 0 (S (nmax (d s))));;
          upd (fun s0 => set_cbase (map (fun j => ncount j (dbase s0)) (seq 0 (length (vbase s0)))) s0);;
          s2 <- get;;
          match gather (vbase s2) (dbase s2) with
          | Some nv => upd (set_v nv);; upd refresh_w;; s3 <- get;; ret (w s3)
          | None => raise IndexError
          end)) (fun _ s' _ => pv s') s g).
  { intros z'. wstep. wstep. wstep.
    - eapply wp_call; [apply (pv_bid_complete P o Ho); pt| | |]; intros; assumption.
    - wstep. wstep. eapply wp_call; [apply pv_bid_draw; pt| | |].
      2:{ intros e s' g' [K _]; exact K. } 2:{ intros s' g' [K _]; exact K. }
      intros vb s' g' [K1 K2]. specialize (K2 vb eq_refl). wstep.
      eapply wp_call; [apply pv_bid_update_all; destruct K1; split; assumption| | |]; [|auto|auto].
      intros u s2 g2 K. wsteps; [|exact K].
      destruct K as [K K']. split; simpl; [|exact K']. eapply Forall_gather; [|eassumption]. exact K'. }
  destruct z; try (wstep; exact H); apply (F _).
Qed.
Lemma pv_same (s s' : ws) : v s' = v s -> vbase s' = vbase s -> pv s -> pv s'.
Proof. unfold P_Grow.pv. intros -> ->; auto. Qed.
Lemma bern_keeps q al n : keeps (fun s => (v s, vbase s)) (bb_random_bernoullis q al n).
Proof.
  unfold bb_random_bernoullis.
  assert (L : forall ac bc js bs, keeps (fun s => (v s, vbase s)) (bb_loop q al ac bc js bs)).
  { intros ac bc; induction js as [|j t IH]; intros bs; simpl; [apply keeps_ret|]. apply keeps_bind; [|intros; apply IH].
    unfold bernoulli_x. destruct (bb_prob _ _ _ _ _ _); try apply keeps_raise. apply keeps_bind; [|intros; apply keeps_ret].
    intros o' s' g'; unfold binom1; destruct (_ && _); reflexivity. }
  apply keeps_bind; [intros o' s' g'; unfold binom_rep; destruct (_ && _); [destruct (binom_draws _ _ _ _)|]; reflexivity|intros bs].
  apply keeps_bind; [apply keeps_get|intros s]. destruct (is_nil (bern s)); [apply keeps_raise|].
  apply keeps_bind; [apply keeps_upd; reflexivity|intros _]. apply keeps_bind; [destruct (is_nil (d s)); [apply keeps_ret|apply L]|intros x; apply keeps_upd; reflexivity].
Qed.
Lemma pv_bern q al n s g : pv s -> wp o (bb_random_bernoullis q al n) (fun _ s' _ => pv s') s g.
Proof.
  intros H. eapply wp_mono; [exact (keeps_wp o _ _ s g (bern_keeps q al n))|]. intros r s' g' K. simpl in K. injection K as K1 K2. eapply pv_same; eassumption.
Qed.
Lemma pv_bb_random q al z s g : pv s -> wp o (bb_random q al z) (fun _ s' _ => pv s') s g.
Proof.
  intros H. unfold bb_random. wstep. wstep; [wstep; exact H|]. wstep. wstep.
  - wstep; [|pt]. wstep; [wstep; pt|].
    eapply wp_call; [apply pv_bern; pt| | |]; [|auto|auto].
    intros u s1 g1 K. cbv beta in K. wstep. wstep; [wstep; exact K|]. wstep; [|exact K]. wstep.
    wstep; [|wstep; pt]. wsteps.
    split; simpl; [|apply K]. eapply Forall_gather; [|eassumption]. apply (draws_P P o Ho).
  - eapply wp_call; [apply pv_bern; pt| | |]; [|auto|auto].
    intros u s1 g1 K. cbv beta in K. wstep. wstep; [|exact K]. wstep. wstep; [|wstep; pt]. wstep. wstep.
    eapply wp_call; [apply (pv_bb_complete P o Ho)| | |]; [|intros; assumption|auto|auto].
    split; simpl; [|apply K]. eapply Forall_gather; [|eassumption]. apply (draws_P P o Ho).
Qed.
Lemma pv_bbin_random n al z s g : pv s -> wp o (bbin_random n al z) (fun _ s' _ => pv s') s g.
Proof.
  intros H. unfold bbin_random. wstep. wstep; [wstep; exact H|]. wstep. wstep.
  - eapply wp_call; [apply (pv_bbin_complete P o Ho); pt| | |]; intros; assumption.
  - unfold bbin_random_binomials.
    repeat first [(eapply wp_call; [apply (pv_bbin_complete P o Ho); pt| | |]; intros; assumption) | wstep]; pt.
Qed.
Lemma pv_random c z s g : drawn_sticks c -> pv s -> wp o (wm_random c z) (fun _ s' _ => pv s') s g.
Proof.
  intros Hc H. destruct c; try contradiction; simpl wm_random;
  [apply pv_dp_random|apply pv_py_random|apply pv_bib_random|apply pv_bid_random|apply pv_bb_random|apply pv_bbin_random]; assumption.
Qed.
End Pr.
