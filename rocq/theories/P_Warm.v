(* Warm starts on other data (C88). *)
From Verif Require Import Prelude Numpy Rng M_Weights M_Niw M_Utils M_Mix M_Query S_Oracle S_Mix S_Flags P_Lists P_Wp P_Mix P_Mix33 P_Mix37 P_Map P_Fail P_Shape.
Open Scope Q_scope.
Open Scope m_scope.

Lemma two_loops {B} (n1 n2 : nat) E c fuel (k : M ms B) o s g e t g1 : (1 <= n1 + n2)%nat -> sweep E c fuel o s g = (Err e, t, g1) ->
  (burn_loop E c fuel n1 ;; train_loop E c fuel n2 0 ;; k) o s g = (Err e, t, g1).
Proof.
  intros N H. destruct n1 as [|n1].
  - destruct n2 as [|n2]; [lia|]. cbn [burn_loop train_loop]. unfold bind at 1, ret at 1. unfold bind at 1 2. rewrite H. reflexivity.
  - cbn [burn_loop]. unfold bind at 1 2. rewrite H. reflexivity.
Qed.
Lemma warm_settings y o s g s1 g1 : init_common y o s g = (Ok tt, s1, g1) ->
  (s_total s1, s_burn s1, s_d s1, s_sims s1, s_gfit s1, s_theta s1, s_wm s1) = (s_total s, s_burn s, s_d s, s_sims s, s_gfit s, s_theta s, s_wm s).
Proof.
  intros I. eapply (keeps_ok (fun s => (s_total s, s_burn s, s_d s, s_sims s, s_gfit s, s_theta s, s_wm s))); [|exact I].
  apply (keeps_init_common (fun s => (s_total s, s_burn s, s_d s, s_sims s, s_gfit s, s_theta s, s_wm s))); reflexivity.
Qed.
Lemma c88_length_proof E c fuel y ig meth o s g l : is_data y = true -> has_nu s y -> s_d s = Some l -> l <> [] -> length l <> length (rows_of y) ->
  (0 < s_burn s \/ 0 < s_total s - s_burn s)%Z ->
  exists s', fit_gibbs E c fuel y ig true meth o s g = (Err IndexError, s', g) /\ s_y s' = rows_of y /\ s_sims s' = s_sims s /\ s_d s' = s_d s /\
    s_theta s' = s_theta s /\ s_wm s' = s_wm s /\ s_gfit s' = s_gfit s.
Proof.
  intros D N Hd Hl Ln Hn. destruct (init_common_ok y o s g D N) as (s1 & I). pose proof (init_common_shape _ _ _ _ _ _ I) as (_ & Y & _).
  pose proof (warm_settings _ _ _ _ _ _ I) as K. injection K as K1 K2 K3 K4 K5 K6 K7.
  unfold fit_gibbs. rewrite (ok_bind _ _ _ _ _ _ _ _ I). exists s1. split; [|rewrite Y; auto 8].
  change ((burn_loop E c fuel (Z.to_nat (s_burn s1)) ;; train_loop E c fuel (Z.to_nat (s_total s1 - s_burn s1)) 0 ;; upd (fun s => upd_flags true (s_vfit s) (s_vconv s) s)) o s1 g = (Err IndexError, s1, g)).
  rewrite K1, K2. apply two_loops; [lia|].
  unfold sweep, gibbs_step, update_all_atoms. assert (L1 : labels_of s1 = l) by (unfold labels_of; rewrite K3, Hd; reflexivity).
  destruct (nunique l) as [|j js] eqn:Nu; [apply nunique_nil in Nu; congruence|].
  assert (Mk : masked j o s1 g = (Err IndexError, s1, g)).
  { unfold masked, bind, get. rewrite L1, Y. destruct (Nat.eqb_spec (length l) (length (rows_of y))); [contradiction|]. reflexivity. }
  assert (U : update_atoms (nunique (labels_of s1)) o s1 g = (Err IndexError, s1, g)).
  { rewrite L1, Nu. cbn [update_atoms]. unfold bind at 1. rewrite Mk. reflexivity. }
  unfold bind at 1 2 3, get at 1. rewrite U. reflexivity.
Qed.
Lemma c88_unfitted_proof E c fuel y ig meth o s g r s' g' : s_d s = None -> (0 < s_burn s \/ 0 < s_total s - s_burn s)%Z ->
  fit_gibbs E c fuel y ig true meth o s g = (r, s', g') -> is_ok r = false.
Proof.
  intros Hd Hn H. destruct r as [[]|e|]; try reflexivity. exfalso. unfold fit_gibbs in H. apply bind_ok in H as ([] & s1 & g1 & I & H).
  pose proof (warm_settings _ _ _ _ _ _ I) as K. injection K as K1 K2 K3 K4 K5 K6 K7.
  apply bind_ok in H as ([] & s2 & g2 & A & H). injection A as <- <-. apply bind_ok in H as (u & s2 & g2 & A & H). injection A as <- <- <-.
  assert (X : forall t h, sweep E c fuel o s1 g1 <> (Ok tt, t, h)).
  { intros t h X. unfold sweep, gibbs_step, update_all_atoms in X. apply bind_ok in X as ([] & a & ga & X & _). apply bind_ok in X as ([] & b & gb & X1 & X).
    apply bind_ok in X1 as (u & t1 & h1 & A & X1). injection A as <- <- <-. assert (L : labels_of s1 = []) by (unfold labels_of; rewrite K3, Hd; reflexivity). rewrite L in X1. injection X1 as <- <-.
    apply bind_ok in X as ([] & d & gd & X & _). unfold update_weights in X. apply bind_ok in X as (u & t1 & h1 & A & X). injection A as <- <- <-.
    apply bind_ok in X as (? & t1 & h1 & A & X). apply bind_ok in X as (xx & t2 & h2 & B & X). rewrite K3, Hd in X. discriminate X. }
  apply bind_ok in H as ([] & s2 & g2 & A & H). rewrite K1, K2 in *.
  destruct (Z.to_nat (s_burn s)) as [|n] eqn:Eb.
  - injection A as <- <-. apply bind_ok in H as ([] & s2 & g2 & A & H). destruct (Z.to_nat (s_total s - s_burn s)) as [|n] eqn:Et; [lia|].
    cbn [train_loop] in A. apply bind_ok in A as ([] & t & h & A & _). exact (X _ _ A).
  - cbn [burn_loop] in A. apply bind_ok in A as ([] & t & h & A & _). exact (X _ _ A).
Qed.
