(* Proofs about the rng argument. *)
From Verif Require Import Prelude M_Seed S_Seed.

Lemma set_nth_eq {A} : forall (l : list A) n x, n < length l -> nth_error (set_nth n x l) n = Some x.
Proof. induction l as [|y t IH]; intros [|n] x H; simpl in *; try lia; [reflexivity|]. apply IH. lia. Qed.
Lemma set_nth_neq {A} : forall (l : list A) n m x, n <> m -> nth_error (set_nth n x l) m = nth_error l m.
Proof. induction l as [|y t IH]; intros [|n] [|m] x H; simpl; try reflexivity; try congruence. apply IH. congruence. Qed.
Lemma nth_error_lt {A} (l : list A) n x : nth_error l n = Some x -> n < length l.
Proof. intros H. apply nth_error_Some. congruence. Qed.

Lemma c25_accepted_proof v h : is_ok (fst (rng_parser v h)) = true <->
  v = VNone \/ (exists z, (0 <= z)%Z /\ v = VInt z) \/ exists a, v = VGen a.
Proof.
  destruct v; simpl; split; intros H; try discriminate; eauto.
  all: try (destruct H as [H|[(q & _ & H)|(q & H)]]; discriminate).
  - right; left. exists z. split; [|reflexivity]. destruct (z <? 0)%Z eqn:E; [discriminate|]. apply Z.ltb_ge in E. exact E.
  - destruct H as [H|[(q & Hq & [= ->])|(q & H)]]; try discriminate. apply Z.ltb_ge in Hq. rewrite Hq. reflexivity.
Qed.
Lemma c25_error_proof v h e : fst (rng_parser v h) = Err e ->
  snd (rng_parser v h) = h /\ ((exists z, (z < 0)%Z /\ v = VInt z /\ e = ValueError) \/ ((forall z, v <> VInt z) /\ e = TypeError)).
Proof.
  destruct v; simpl; intros H; try discriminate.
  - destruct (z <? 0)%Z eqn:E; [|discriminate]. injection H as <-. split; [reflexivity|]. left. exists z. apply Z.ltb_lt in E. auto.
  - injection H as <-. split; [reflexivity|right; split; [discriminate|reflexivity]].
  - injection H as <-. split; [reflexivity|right; split; [discriminate|reflexivity]].
  - injection H as <-. split; [reflexivity|right; split; [discriminate|reflexivity]].
  - injection H as <-. split; [reflexivity|right; split; [discriminate|reflexivity]].
Qed.

Lemma c25_shared_proof a g h l : nth_error h a = Some g ->
  mixture_rngs (VGen a) h = (Ok (a, a), h) /\
  map snd (fst (draws a a l h)) = map (fun i => Some (gsrc g, (gpos g + i)%nat)) (seq 0 (length l)).
Proof.
  intros H. split; [reflexivity|]. revert g h H. induction l as [|x t IH]; intros g h H; [reflexivity|].
  cbn [draws]. unfold draw. replace (match x with Weight => a | Mixture => a end) with a by (destruct x; reflexivity).
  rewrite H. pose proof (IH (Gen (gsrc g) (S (gpos g))) (set_nth a (Gen (gsrc g) (S (gpos g))) h)) as X.
  destruct (draws a a t _) as [rs h2]. simpl. f_equal; [rewrite Nat.add_0_r; reflexivity|].
  rewrite <- seq_shift, map_map. simpl in X. rewrite X by (apply set_nth_eq; eapply nth_error_lt; exact H).
  apply map_ext. intros i. rewrite Nat.add_succ_r. reflexivity.
Qed.

(* two different objects: each sees its own stream, whatever the other does *)
Lemma draws_own wa ma : wa <> ma -> forall l h gw gm, nth_error h wa = Some gw -> nth_error h ma = Some gm ->
  let r := fst (draws wa ma l h) in
  of_who Weight r = map (fun i => Some (gsrc gw, (gpos gw + i)%nat)) (seq 0 (length (of_who Weight r))) /\
  of_who Mixture r = map (fun i => Some (gsrc gm, (gpos gm + i)%nat)) (seq 0 (length (of_who Mixture r))).
Proof.
  intros N. induction l as [|x t IH]; intros h gw gm Hw Hm; [split; reflexivity|].
  cbn [draws]. unfold draw. destruct x.
  - rewrite Hw. set (h1 := set_nth wa _ h).
    assert (A : nth_error h1 wa = Some (Gen (gsrc gw) (S (gpos gw)))) by (apply set_nth_eq; eapply nth_error_lt; exact Hw).
    assert (B : nth_error h1 ma = Some gm) by (unfold h1; rewrite set_nth_neq by exact N; exact Hm).
    specialize (IH h1 _ _ A B). destruct (draws wa ma t h1) as [rs h2]. cbn in *. destruct IH as [I1 I2]. split; [|exact I2].
    rewrite map_length in I1. unfold of_who in *. rewrite map_length. rewrite I1 at 1. rewrite Nat.add_0_r. f_equal. rewrite <- seq_shift, map_map. apply map_ext.
    intros i. rewrite Nat.add_succ_r. reflexivity.
  - rewrite Hm. set (h1 := set_nth ma _ h).
    assert (A : nth_error h1 ma = Some (Gen (gsrc gm) (S (gpos gm)))) by (apply set_nth_eq; eapply nth_error_lt; exact Hm).
    assert (B : nth_error h1 wa = Some gw) by (unfold h1; rewrite set_nth_neq by congruence; exact Hw).
    specialize (IH h1 _ _ B A). destruct (draws wa ma t h1) as [rs h2]. cbn in *. destruct IH as [I1 I2]. split; [exact I1|].
    rewrite map_length in I2. unfold of_who in *. rewrite map_length. rewrite I2 at 1. rewrite Nat.add_0_r. f_equal. rewrite <- seq_shift, map_map. apply map_ext.
    intros i. rewrite Nat.add_succ_r. reflexivity.
Qed.

(* how many of the draws in l are made by x *)
Lemma of_who_len x wa ma : forall l h, length (of_who x (fst (draws wa ma l h))) = turns x l.
Proof.
  unfold of_who. induction l as [|y t IH]; intros h; [reflexivity|]. cbn [draws].
  destruct (draw _ h) as [r h1]. specialize (IH h1). destruct (draws wa ma t h1) as [rs h2]. cbn in *.
  destruct x, y; cbn; first [exact IH | f_equal; exact IH].
Qed.
Lemma draws_turns wa ma : wa <> ma -> forall l h gw gm, nth_error h wa = Some gw -> nth_error h ma = Some gm ->
  let r := fst (draws wa ma l h) in
  of_who Weight r = map (fun i => Some (gsrc gw, (gpos gw + i)%nat)) (seq 0 (turns Weight l)) /\
  of_who Mixture r = map (fun i => Some (gsrc gm, (gpos gm + i)%nat)) (seq 0 (turns Mixture l)).
Proof. intros N l h gw gm Hw Hm. cbv zeta. rewrite <- !(of_who_len _ wa ma l h). apply draws_own; assumption. Qed.
Lemma nth_two {A} (h : list A) x y : nth_error ((h ++ [x]) ++ [y]) (length h) = Some x /\ nth_error ((h ++ [x]) ++ [y]) (length (h ++ [x])) = Some y.
Proof.
  split.
  - rewrite <- app_assoc, nth_error_app2, Nat.sub_diag by lia. reflexivity.
  - rewrite nth_error_app2, Nat.sub_diag by lia. reflexivity.
Qed.
Lemma nth_old {A} (h : list A) x y a : a < length h -> nth_error ((h ++ [x]) ++ [y]) a = nth_error h a.
Proof. intros H. rewrite !nth_error_app1; auto. rewrite app_length. lia. Qed.

Lemma c25_seed_proof z h l : (0 <= z)%Z -> exists wa ma h', mixture_rngs (VInt z) h = (Ok (wa, ma), h') /\ wa <> ma /\
  (forall a, a < length h -> nth_error h' a = nth_error h a) /\
  let r := fst (draws wa ma l h') in
  of_who Weight r = map (fun i => Some (Seed z, i)) (seq 0 (turns Weight l)) /\
  of_who Mixture r = map (fun i => Some (Seed z, i)) (seq 0 (turns Mixture l)).
Proof.
  intros Hz. unfold mixture_rngs, rng_parser. apply Z.ltb_ge in Hz. rewrite Hz. unfold default_rng.
  eexists _, _, _. split; [reflexivity|]. split; [rewrite app_length; simpl; lia|]. split; [apply nth_old|].
  destruct (nth_two h (Gen (Seed z) 0) (Gen (Seed z) 0)) as [A B].
  refine (draws_turns _ _ _ l _ _ _ A B). rewrite app_length; simpl; lia.
Qed.
Lemma c25_none_proof h l : exists wa ma h' sw sm, mixture_rngs VNone h = (Ok (wa, ma), h') /\ wa <> ma /\ sw <> sm /\
  (forall a, a < length h -> nth_error h' a = nth_error h a) /\
  let r := fst (draws wa ma l h') in
  of_who Weight r = map (fun i => Some (sw, i)) (seq 0 (turns Weight l)) /\
  of_who Mixture r = map (fun i => Some (sm, i)) (seq 0 (turns Mixture l)).
Proof.
  unfold mixture_rngs, rng_parser, default_rng. eexists _, _, _, (Entropy (length h)), (Entropy (length (h ++ [Gen (Entropy (length h)) 0]))).
  split; [reflexivity|]. split; [rewrite app_length; simpl; lia|]. split; [rewrite app_length; simpl; intros [= E]; lia|]. split; [apply nth_old|].
  destruct (nth_two h (Gen (Entropy (length h)) 0) (Gen (Entropy (length (h ++ [Gen (Entropy (length h)) 0]))) 0)) as [A B].
  refine (draws_turns _ _ _ l _ _ _ A B). rewrite app_length; simpl; lia.
Qed.
