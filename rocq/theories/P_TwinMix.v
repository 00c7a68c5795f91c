(* Mixtures over weight models that behave alike: the two pairs. *)
From Coq Require Import Lqa.
From Verif Require Import Prelude Numpy Rng M_Weights M_Niw M_Utils M_Mix M_Query S_Weights S_Hist S_Twin S_MixEx S_Oracle P_Lists P_Hoare P_Wp P_Random P_Rel P_Twin P_TwinPy P_MixEx.
Open Scope Q_scope.
Open Scope m_scope.

Lemma bib_tail x al a b pm f y : x == 0 -> rel same_view same_view same_view (wm_tail (CBIB x al a b pm) f y) (wm_tail (CDP al) f y).
Proof.
  intros Hx. simpl wm_tail. unfold base_tail. destruct (qleb 1 y || qltb y 0); [apply rel_raise; auto|].
  apply rel_get. intros s1 s2 Hs. apply (rel_at same_view _ _ _ _ _ _ Hs). destruct Hs as (Hw & Hd & Hv). rewrite Hw.
  eapply (rel_bind same_view same_view).
  { destruct (is_nil (w s2)); [apply c13_random; simpl; auto|apply rel_ret; reflexivity]. }
  intros _. eapply rel_bind; [apply c13_tail_loop, Hx|]. intros _.
  apply rel_get. intros t1 t2 Ht. apply (rel_at same_view _ _ _ _ _ _ Ht). apply rel_ret, Ht.
Qed.
Lemma sv_w x y : same_view x y -> w x = w y. Proof. intros (A & _). exact A. Qed.
Lemma sv_d x y dd : same_view x y -> same_view (set_d dd x) (set_d dd y).
Proof. intros (A & B & C). repeat split; assumption. Qed.

Lemma bib_fit E fuel x al a b pm y ig warm meth : x == 0 -> meth <> IVariational ->
  mrel same_view (fit_gibbs E (CBIB x al a b pm) fuel y ig warm meth) (fit_gibbs E (CDP al) fuel y ig warm meth).
Proof.
  intros Hx N. apply m_fit_gibbs; auto using sv_w, sv_d.
  - apply c13_random; simpl; auto.
  - intros. apply bib_tail, Hx.
  - intros. apply c13_wm_complete, Hx.
Qed.
Lemma py_fit E fuel pd al y ig warm meth : pd == 0 -> 0 < al -> meth <> IVariational ->
  mrel psim (fit_gibbs E (CPY pd al) fuel y ig warm meth) (fit_gibbs E (CDP al) fuel y ig warm meth).
Proof.
  intros Hx Ha N. apply m_fit_gibbs; auto using psim_w, psim_d.
  - apply py_random_twin; simpl; auto.
  - intros. apply py_tail; assumption.
  - intros. apply py_wm_complete; assumption.
Qed.
Lemma mrel_same_fit (I : srel) (m1 m2 : M ms unit) : (forall x y, I x y -> same_view x y) -> mrel I m1 m2 ->
  forall o s1 s2 g, s1 = upd_wm (s_wm s1) s2 -> I (s_wm s1) (s_wm s2) -> same_fit (m1 o s1 g) (m2 o s2 g).
Proof.
  intros HI H o s1 s2 g E Hi. specialize (H o (s_wm s1) s2 g Hi). rewrite <- E in H. unfold same_fit, twins.
  destruct (m1 o s1 g) as [[r1 t1] g1], (m2 o s2 g) as [[r2 t2] g2]. destruct H as (A & B & C & D). auto.
Qed.
Lemma run_snoc E c fuel ops op o s g : run_mops E c fuel (ops ++ [op]) o s g =
  let q := run_mops E c fuel ops o s g in let '(_, s', g') := exec_mop E c fuel op o (fst q) (snd q) in (s', g').
Proof.
  revert s g. induction ops as [|a t IH]; intros s g; cbn [run_mops app].
  - simpl. destruct (exec_mop E c fuel op o s g) as [[? ?] ?]. reflexivity.
  - destruct (exec_mop E c fuel a o s g) as [[r s'] g']. apply IH.
Qed.

Lemma c79_fit_proof : forall E fuel x al a b pm y ig warm meth o s1 s2 g, x == 0 -> meth <> IVariational -> twins s1 s2 ->
  same_fit (fit_gibbs E (CBIB x al a b pm) fuel y ig warm meth o s1 g) (fit_gibbs E (CDP al) fuel y ig warm meth o s2 g).
Proof.
  intros E fuel x al a b pm y ig warm meth o s1 s2 g Hx N [H K]. apply (mrel_same_fit same_view); auto. apply bib_fit; assumption.
Qed.
Lemma born_bib x al a b pm o s1 s2 g1 g2 : born_twins (CBIB x al a b pm) (CDP al) o s1 s2 g1 g2 ->
  g1 = g2 /\ s1 = upd_wm (s_wm s1) s2 /\ same_view (s_wm s1) (s_wm s2).
Proof.
  intros (p1 & p2 & n1 & n2 & mu & lam & psi & nu & t & bn & k & H1 & H2). unfold new_mix in *. cbn [new_ws class_n] in *.
  destruct (qltb bn t); [|discriminate]. injection H1 as <- <-. injection H2 as <- <-. repeat split.
Qed.
Lemma born_py pd al o s1 s2 g1 g2 : pd == 0 -> born_twins (CPY pd al) (CDP al) o s1 s2 g1 g2 ->
  0 < al /\ g1 = g2 /\ s1 = upd_wm (s_wm s1) s2 /\ psim (s_wm s1) (s_wm s2).
Proof.
  intros Hp (p1 & p2 & n1 & n2 & mu & lam & psi & nu & t & bn & k & H1 & H2). unfold new_mix in *. cbn [new_ws class_n] in *.
  destruct (qltb (- pd) al) eqn:L; [|discriminate]. apply qltb_lt in L.
  destruct (qltb bn t); [|discriminate]. injection H1 as <- <-. injection H2 as <- <-. split; [rewrite Hp in L; exact L|]. repeat split.
Qed.
Lemma c79_bib_proof : forall E fuel x al a b pm o s1 s2 g1 g2 ops op, x == 0 -> born_twins (CBIB x al a b pm) (CDP al) o s1 s2 g1 g2 ->
  Forall plain_gibbs ops -> plain_gibbs op ->
  let q1 := run_mops E (CBIB x al a b pm) fuel ops o s1 g1 in let q2 := run_mops E (CDP al) fuel ops o s2 g2 in
  snd q1 = snd q2 /\ twins (fst q1) (fst q2) /\
  same_fit (exec_mop E (CBIB x al a b pm) fuel op o (fst q1) (snd q1)) (exec_mop E (CDP al) fuel op o (fst q2) (snd q2)).
Proof.
  intros E fuel x al a b pm o s1 s2 g1 g2 ops op Hx Hb Hops Hop. destruct (born_bib _ _ _ _ _ _ _ _ _ _ Hb) as (<- & Es & Hi).
  pose proof (m_run same_view E (CBIB x al a b pm) (CDP al) fuel) as R. cbv zeta.
  specialize (R sv_w sv_d (c13_random x al a b pm SNone Hx Logic.I) (fun y => bib_tail x al a b pm fuel y Hx) (fun z => c13_wm_complete x al a b pm z Hx)
    ops Hops o (s_wm s1) s2 g1 Hi). rewrite <- Es in R. destruct R as (R1 & R2 & R3).
  split; [exact R1|]. split; [split; assumption|]. rewrite <- R1. destruct op as [y ig warm meth|]; [|contradiction].
  apply c79_fit_proof; [assumption|assumption|split; assumption].
Qed.
Lemma c79_py_proof : forall E fuel pd al o s1 s2 g1 g2 ops op, pd == 0 -> born_twins (CPY pd al) (CDP al) o s1 s2 g1 g2 ->
  Forall plain_gibbs ops -> plain_gibbs op ->
  let q1 := run_mops E (CPY pd al) fuel ops o s1 g1 in let q2 := run_mops E (CDP al) fuel ops o s2 g2 in
  snd q1 = snd q2 /\ twins (fst q1) (fst q2) /\
  same_fit (exec_mop E (CPY pd al) fuel op o (fst q1) (snd q1)) (exec_mop E (CDP al) fuel op o (fst q2) (snd q2)).
Proof.
  intros E fuel pd al o s1 s2 g1 g2 ops op Hp Hb Hops Hop. destruct (born_py _ _ _ _ _ _ _ Hp Hb) as (Ha & <- & Es & Hi).
  pose proof (m_run psim E (CPY pd al) (CDP al) fuel) as R. cbv zeta.
  specialize (R psim_w psim_d (py_random_twin pd al Hp Ha SNone Logic.I) (py_tail pd al Hp Ha fuel) (py_wm_complete pd al Hp Ha)
    ops Hops o (s_wm s1) s2 g1 Hi). rewrite <- Es in R. destruct R as (R1 & R2 & R3).
  split; [exact R1|]. split; [split; [assumption|apply R3]|]. rewrite <- R1. destruct op as [y ig warm meth|]; [|contradiction].
  apply (mrel_same_fit psim); [intros ? ? H; apply H|apply py_fit; assumption|assumption|assumption].
Qed.
Lemma c79_queries_proof : forall Q s1 s2, twins s1 s2 ->
  (forall y dim comp periods, gibbs_eap_density Q s1 y dim comp periods = gibbs_eap_density Q s2 y dim comp periods) /\
  (forall y dim comp, gibbs_map_density Q s1 y dim comp = gibbs_map_density Q s2 y dim comp) /\
  (forall y, gibbs_map_cluster Q s1 y = gibbs_map_cluster Q s2 y) /\
  (forall y, gibbs_eap_affinity_matrix Q s1 y = gibbs_eap_affinity_matrix Q s2 y) /\
  (forall y k, gibbs_spectral Q s1 y k = gibbs_spectral Q s2 y k) /\
  get_n_groups s1 = get_n_groups s2 /\ get_n_theta s1 = get_n_theta s2 /\ get_sim_params s1 = get_sim_params s2.
Proof.
  intros Q s1 s2 [H _]. rewrite H. generalize (s_wm s1). intros x. repeat split.
Qed.

(* weight models *)
Lemma py_exec pd al op : pd == 0 -> 0 < al -> plain_sized op -> rel psim psim psim (exec_op (CPY pd al) op) (exec_op (CDP al) op).
Proof.
  intros Hp Ha Hop. destruct op as [z|z|f y|dd| |dd|z]; cbn [exec_op].
  - apply (rel_map _ _ _ _ _ (fun _ => tt)). apply py_random_twin; auto. 
  - apply (rel_map _ _ _ _ _ (fun _ => tt)). apply py_wm_complete; assumption.
  - apply (rel_map _ _ _ _ _ (fun _ => tt)). apply py_tail; assumption.
  - apply rel_upd'. intros s t H. apply psim_d, H.
  - apply rel_upd'. intros s t H. apply psim_d, H.
  - apply (rel_map _ _ _ _ _ (fun _ => tt)). unfold wm_assign_weights.
    apply rel_get. intros s1 s2 Hs. apply (rel_at psim _ _ _ _ _ _ Hs). destruct Hs as ((Hw & Hd & Hv) & L). rewrite Hd. cbv zeta.
    destruct (is_nil _); [apply rel_raise; auto|].
    eapply rel_bind; [apply py_wm_complete; assumption|]. intros _.
    apply rel_get. intros t1 t2 Ht. apply (rel_at psim _ _ _ _ _ _ Ht). rewrite (psim_w _ _ Ht).
    destruct (gather (w t2) _); [apply rel_ret; reflexivity|apply rel_raise; auto].
  - apply (rel_map _ _ _ _ _ (fun _ => tt)). unfold wm_random_assignment. destruct z as [|z|z|].
    + eapply (rel_bind psim psim); [apply rel_blind; [apply blind_unif1|auto|auto]|]. intros _. apply rel_raise; auto.
    + destruct (z <? 0)%Z; [apply rel_raise; auto|].
      eapply (rel_bind psim psim); [apply rel_blind; [apply blind_unif_many|auto|auto]|]. intros us.
      apply rel_get. intros t1 t2 Ht. apply (rel_at psim _ _ _ _ _ _ Ht). apply rel_ret. rewrite (psim_w _ _ Ht); reflexivity.
    + destruct (z <? 0)%Z; [apply rel_raise; auto|].
      eapply (rel_bind psim psim); [apply rel_blind; [apply blind_unif_many|auto|auto]|]. intros us.
      apply rel_get. intros t1 t2 Ht. apply (rel_at psim _ _ _ _ _ _ Ht). apply rel_ret. rewrite (psim_w _ _ Ht); reflexivity.
    + apply rel_raise; auto.
Qed.
Lemma c79_weights_proof : forall pd al p1 p2 n1 n2 o ops s1 s2 g1 g2, pd == 0 -> Forall plain_sized ops ->
  new_ws (CPY pd al) p1 n1 o = Ok (s1, g1) -> new_ws (CDP al) p2 n2 o = Ok (s2, g2) ->
  same_view (fst (run_ops (CPY pd al) ops o s1 g1)) (fst (run_ops (CDP al) ops o s2 g2)) /\
  snd (run_ops (CPY pd al) ops o s1 g1) = snd (run_ops (CDP al) ops o s2 g2).
Proof.
  intros pd al p1 p2 n1 n2 o ops s1 s2 g1 g2 Hp Hf N1 N2. cbn [new_ws] in *. destruct (qltb (- pd) al) eqn:L; [|discriminate]. apply qltb_lt in L. rewrite Hp in L.
  injection N1 as <- <-. injection N2 as <- <-.
  assert (G : forall s1 s2 g, psim s1 s2 -> psim (fst (run_ops (CPY pd al) ops o s1 g)) (fst (run_ops (CDP al) ops o s2 g)) /\
    snd (run_ops (CPY pd al) ops o s1 g) = snd (run_ops (CDP al) ops o s2 g)).
  { induction Hf as [|op t Hop _ IH]; intros s1 s2 g Hs; simpl; [auto|].
    pose proof (py_exec pd al op Hp L Hop o s1 s2 g Hs) as E. unfold run_op.
    destruct (exec_op (CPY pd al) op o s1 g) as [[r1 t1] g1], (exec_op (CDP al) op o s2 g) as [[r2 t2] g2].
    destruct E as (<- & <- & E). apply IH; auto. destruct r1; exact E. }
  destruct (G (ws_init 0 0) (ws_init 0 0) []) as [A B]; [repeat split|]. split; [apply A|exact B].
Qed.
(* random(0) *)
Lemma c79_zero_proof : exists o al, valid_oracle o /\ 0 < al /\
  w (fst (run_ops (CPY 0 al) [OpRandom (SInt 1); OpRandom (SInt 0)] o (ws_init 0 0) [])) = [] /\
  w (fst (run_ops (CDP al) [OpRandom (SInt 1); OpRandom (SInt 0)] o (ws_init 0 0) [])) <> [].
Proof. exists o_half, 1. split; [apply o_half_valid|]. split; [reflexivity|]. split; [vm_compute; reflexivity|vm_compute; discriminate]. Qed.
(* starting from a variational fit *)
Lemma c79_variational_proof : exists E fuel o al a b pm s1 s2 g1 g2 t1 h1 t2 h2, valid_oracle o /\
  born_twins (CBIB 0 al a b pm) (CDP al) o s1 s2 g1 g2 /\
  fit_gibbs E (CBIB 0 al a b pm) fuel y3 SNone false IVariational o s1 g1 = (Err NotImplementedError, t1, h1) /\
  fit_gibbs E (CDP al) fuel y3 SNone false IVariational o s2 g2 = (Ok tt, t2, h2).
Proof.
  exists flat_env, 60%nat, o_half, 1, 1, 1, PStatic. eexists _, _, _, _, _, _, _, _. split; [apply o_half_valid|].
  split. { exists 0, 0, 0%Z, 0%Z, None, 1, None, None, 2, 1, 1. split; [vm_compute; reflexivity|vm_compute; reflexivity]. }
  split; [vm_compute; reflexivity|vm_compute; reflexivity].
Qed.
Lemma twin_example : exists s1 s2 g, born_twins (CPY 0 1) (CDP 1) o_half s1 s2 g g /\
  fst (fst (fit_gibbs flat_env (CPY 0 1) 60 y3 SNone false IKmeans o_half s1 g)) = Ok tt /\
  (1 < length (w (s_wm (snd (fst (fit_gibbs flat_env (CPY 0 1) 60 y3 SNone false IKmeans o_half s1 g))))))%nat.
Proof.
  eexists _, _, _. split. { exists 0, 0, 0%Z, 0%Z, None, 1, None, None, 2, 1, 1. split; [vm_compute; reflexivity|vm_compute; reflexivity]. }
  split; [vm_compute; reflexivity|vm_compute; lia].
Qed.
