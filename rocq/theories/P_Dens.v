(* Densities of Gibbs fits (C43, C65). *)
From Coq Require Import Lqa.
From Verif Require Import Prelude Numpy Rng M_Weights M_Niw M_Utils M_Mix M_Query S_Oracle S_Weights S_Niw S_Mix S_Query P_Lists P_Niw P_Mix34 P_MixOk.
Open Scope Q_scope.

(* ---- res ---- *)
Lemma rbind_ok {A B} (r : res A) (k : A -> res B) b : rbind r k = Ok b -> exists a, r = Ok a /\ k a = Ok b.
Proof. destruct r; simpl; intros H; try discriminate H. eauto. Qed.
Lemma rmap_ok {A B} (f : A -> res B) : forall l r, rmap f l = Ok r ->
  length r = length l /\ forall i x y, (i < length l)%nat -> f (nth i l x) = Ok (nth i r y).
Proof.
  induction l as [|a l IH]; intros r H; simpl in H; [injection H as <-; split; [reflexivity|simpl; intros; lia]|].
  apply rbind_ok in H as (b & Hb & H). apply rbind_ok in H as (t & Ht & H). injection H as <-.
  destruct (IH t Ht) as [L K]. split; [simpl; congruence|]. intros [|i] x y Hi; simpl; [exact Hb|apply K; simpl in Hi; lia].
Qed.
Lemma rmap_all {A B} (f : A -> res B) (h : A -> B) : forall l, (forall x, In x l -> f x = Ok (h x)) -> rmap f l = Ok (map h l).
Proof.
  induction l as [|a l IH]; intros H; simpl; [reflexivity|]. rewrite (H a) by (left; reflexivity). simpl. rewrite IH by (intros; apply H; right; assumption). reflexivity.
Qed.
Lemma dict_get_of {A} (t : list (nat * A)) j : dict_get t (Z.of_nat j) = match option_map snd (find (fun q => Nat.eqb (fst q) j) t) with Some a => Ok a | None => Err KeyError end.
Proof.
  unfold dict_get. destruct (Z.ltb_spec (Z.of_nat j) 0); [lia|]. rewrite Nat2Z.id.
  assert (E : lookup j t = option_map snd (find (fun q => Nat.eqb (fst q) j) t)) by (induction t as [|[i a] t IH]; simpl; [reflexivity|]; destruct (Nat.eqb i j); [reflexivity|exact IH]).
  rewrite E. reflexivity.
Qed.
Lemma py_nth_nat {A} (l : list A) j x : (j < length l)%nat -> py_nth l (Z.of_nat j) = Ok (nth j l x).
Proof.
  intros H. unfold py_nth, py_index. destruct (Z.ltb_spec (Z.of_nat j) 0); [lia|]. destruct (Z.leb_spec (Z.of_nat (length l)) (Z.of_nat j)); [lia|].
  rewrite orb_false_r. destruct (Z.ltb_spec (Z.of_nat j) 0); [lia|]. rewrite Nat2Z.id. rewrite (nth_error_nth' l x H). reflexivity.
Qed.
Lemma py_nth_over {A} (l : list A) j : (length l <= j)%nat -> py_nth l (Z.of_nat j) = Err IndexError.
Proof.
  intros H. unfold py_nth, py_index. destruct (Z.ltb_spec (Z.of_nat j) 0); [lia|]. destruct (Z.leb_spec (Z.of_nat (length l)) (Z.of_nat j)); [|lia].
  rewrite orb_true_r. reflexivity.
Qed.

(* ---- one mixture ---- *)
Lemma qsum_over l : qsum l = sum_over (fun x => x) l.
Proof. induction l; simpl; congruence. Qed.
Lemma sum_map {A B} (f : B -> Q) (h : A -> B) l : sum_over f (map h l) = sum_over (fun x => f (h x)) l.
Proof. induction l; simpl; congruence. Qed.
Lemma qsum_map {A} (h : A -> Q) l : qsum (map h l) = sum_over h l.
Proof. rewrite qsum_over, sum_map. reflexivity. Qed.
Lemma sum_nth {A} (f : A -> Q) l x : sum_over f l = sum_over (fun i => f (nth i l x)) (seq 0 (length l)).
Proof. induction l as [|a l IH]; [reflexivity|]. cbn [length seq sum_over nth]. rewrite <- seq_shift, sum_map. cbn [nth]. rewrite <- IH. reflexivity. Qed.
Lemma somes_all {A} (l : list (option A)) m : l = map Some m -> somes l = m.
Proof. intros ->. induction m; simpl; congruence. Qed.
Lemma comp_density QE x fl r dim j c : component_density QE x fl (r_w r) (r_theta r) dim j = Ok c -> dim <> DOther -> exists l, c = Some l.
Proof.
  intros H D. destruct dim; [| | |congruence]; simpl in H; try (destruct fl; [discriminate H|]);
    repeat (apply rbind_ok in H as (? & ? & H)); injection H as <-; eauto.
Qed.
Lemma comp_none QE x fl r j c : component_density QE x fl (r_w r) (r_theta r) DNone (Z.of_nat j) = Ok c ->
  exists a l, atom_of j (r_theta r) = Some a /\ q_pdf QE x (fst a) (snd a) = Ok l /\ (j < length (r_w r))%nat /\ c = Some (map (fun v => v * nth j (r_w r) 0) l).
Proof.
  simpl. intros H. apply rbind_ok in H as (a & Ha & H). apply rbind_ok in H as (l & Hl & H). apply rbind_ok in H as (q & Hq & H). injection H as <-.
  rewrite dict_get_of in Ha. fold (atom_of j (r_theta r)) in Ha. destruct (atom_of j (r_theta r)) as [a'|]; [|discriminate Ha]. injection Ha as <-.
  destruct (Nat.lt_ge_cases j (length (r_w r))) as [L|L].
  - rewrite (py_nth_nat _ j 0 L) in Hq. injection Hq as <-. eauto 10.
  - rewrite py_nth_over in Hq by exact L. discriminate Hq.
Qed.
Lemma nth_scaled q l i : nth i (map (fun v => v * q) l) 0 == nth i l 0 * q.
Proof.
  destruct (Nat.lt_ge_cases i (length l)) as [L|L]; [rewrite (nth_map_lt _ _ _ _ 0) by exact L; reflexivity|].
  rewrite !nth_overflow by (rewrite ?map_length; exact L). ring.
Qed.
Lemma zseq_nth n j : (j < n)%nat -> nth j (map Z.of_nat (seq 0 n)) 0%Z = Z.of_nat j.
Proof. intros H. rewrite (nth_map_lt _ _ _ _ 0%nat) by (rewrite seq_length; exact H). rewrite seq_nth by exact H. reflexivity. Qed.
Lemma c43_mixture_proof : forall QE x fl r v, r_w r <> [] -> mixture_density QE x fl (r_w r) (r_theta r) DNone None = Ok v -> mixes QE x r v.
Proof.
  intros QE x fl r v NE H. unfold mixture_density in H. apply rbind_ok in H as (cols & Hc & H). injection H as <-.
  set (n := length (r_w r)) in *. destruct (rmap_ok _ _ _ Hc) as [L K]. rewrite map_length, seq_length in L, K.
  assert (K' : forall j, (j < n)%nat -> exists a l, atom_of j (r_theta r) = Some a /\ q_pdf QE x (fst a) (snd a) = Ok l /\ nth j cols None = Some (map (fun v => v * nth j (r_w r) 0) l)).
  { intros j Hj. specialize (K j 0%Z None Hj). rewrite zseq_nth in K by exact Hj. apply comp_none in K as (a & l & A & B & _ & D). eauto. }
  set (ls := map (fun j => match atom_of j (r_theta r) with Some a => match q_pdf QE x (fst a) (snd a) with Ok l => l | _ => [] end | None => [] end) (seq 0 n)).
  assert (Ls : forall j, (j < n)%nat -> exists a, atom_of j (r_theta r) = Some a /\ q_pdf QE x (fst a) (snd a) = Ok (nth j ls []) /\ nth j cols None = Some (map (fun v => v * nth j (r_w r) 0) (nth j ls []))).
  { intros j Hj. destruct (K' j Hj) as (a & l & A & B & D). exists a. unfold ls. rewrite nth_map_seq by exact Hj. rewrite A, B. auto. }
  exists ls. split; [split; [unfold ls; rewrite map_length, seq_length; reflexivity|intros j Hj; destruct (Ls j Hj) as (a & A & B & _); eauto]|].
  assert (Ec : cols = map Some (map (fun j => map (fun v => v * nth j (r_w r) 0) (nth j ls [])) (seq 0 n))).
  { apply (nth_ext _ _ None None); [rewrite !map_length, seq_length; exact L|]. intros j Hj. rewrite L in Hj.
    destruct (Ls j Hj) as (a & _ & _ & D). rewrite D, map_map, nth_map_seq by exact Hj. reflexivity. }
  rewrite (somes_all _ _ Ec). unfold sum_columns.
  assert (Nn : exists m, n = S m) by (destruct (r_w r) eqn:Ew; [congruence|exists (length l); reflexivity]). destruct Nn as (m & En).
  destruct (map (fun j => map (fun v => v * nth j (r_w r) 0) (nth j ls [])) (seq 0 n)) as [|c0 cs] eqn:Em; [rewrite En in Em; discriminate Em|]. rewrite <- Em.
  split; [rewrite map_length, seq_length; reflexivity|]. intros i Hi. rewrite nth_map_seq by exact Hi. rewrite qsum_map, sum_map.
  apply sum_ext. intros j _. rewrite nth_scaled. ring.
Qed.

(* the full density is the sum of the component densities *)
Lemma nth_sum_columns n cols i : nth i (sum_columns n cols) 0 == if (i <? n)%nat then sum_over (fun c => nth i c 0) cols else 0.
Proof.
  unfold sum_columns. destruct cols as [|c cs].
  - destruct (i <? n)%nat; simpl; destruct i as [|[|i]]; reflexivity.
  - destruct (Nat.ltb_spec i n); [rewrite nth_map_seq by assumption; rewrite qsum_map; reflexivity|].
    rewrite nth_overflow by (rewrite map_length, seq_length; assumption). reflexivity.
Qed.
Lemma rmap_one {A B} (f : A -> res B) x y : f x = Ok y -> rmap f [x] = Ok [y].
Proof. intros H. simpl. rewrite H. reflexivity. Qed.
Lemma sum_somes {A} (f : A -> Q) (l : list (option A)) : sum_over f (somes l) == sum_over (fun o => match o with Some a => f a | None => 0 end) l.
Proof. induction l as [|[a|] t IH]; cbn [somes sum_over]; [reflexivity|rewrite IH; reflexivity|rewrite IH; ring]. Qed.
Lemma c43_components_proof : forall QE x fl r dim v, mixture_density QE x fl (r_w r) (r_theta r) dim None = Ok v ->
  exists vs, length vs = length (r_w r) /\
    (forall j, (j < length (r_w r))%nat -> mixture_density QE x fl (r_w r) (r_theta r) dim (Some (Z.of_nat j)) = Ok (nth j vs [])) /\
    forall i, nth i v 0 == sum_over (fun vj => nth i vj 0) vs.
Proof.
  intros QE x fl r dim v H. unfold mixture_density in H. apply rbind_ok in H as (cols & Hc & H). injection H as <-.
  destruct (rmap_ok _ _ _ Hc) as [L K]. rewrite map_length, seq_length in L, K. set (n := length (r_w r)) in *.
  exists (map (fun c => sum_columns (length x) (somes [c])) cols). split; [rewrite map_length; exact L|]. split.
  - intros j Hj. specialize (K j 0%Z None Hj). rewrite zseq_nth in K by exact Hj. unfold mixture_density. rewrite (rmap_one _ _ _ K). cbn [rbind].
    rewrite (nth_map_lt _ _ _ _ None) by (rewrite L; exact Hj). reflexivity.
  - intros i. rewrite sum_map, nth_sum_columns.
    rewrite (sum_ext (fun c => nth i (sum_columns (length x) (somes [c])) 0) (fun c => if (i <? length x)%nat then match c with Some a => nth i a 0 | None => 0 end else 0)).
    + destruct (i <? length x)%nat; [apply sum_somes|symmetry; apply sum_zero].
    + intros c _. rewrite nth_sum_columns. destruct (i <? length x)%nat; [|reflexivity]. destruct c; simpl; ring.
Qed.

(* ---- the average ---- *)
Lemma last_n_skip {A} k (l : list A) : last_n k l = skipn (length l - k) l.
Proof. unfold last_n. rewrite firstn_rev, rev_involutive. reflexivity. Qed.
Lemma last_periods_pos {A} (l : list A) p : (1 <= p)%Z -> last_periods l (Some p) = last_n (Z.to_nat p) l.
Proof.
  intros H. rewrite last_n_skip. unfold last_periods. destruct (Z.leb_spec (Z.min p (Z.of_nat (length l))) 0).
  - assert (length l = 0)%nat by lia. destruct l; [|discriminate]. rewrite !skipn_nil. reflexivity.
  - f_equal. lia.
Qed.
Lemma mean_rows_ok rows v : mean_rows rows = Ok (Some v) -> rows <> [] /\ is_mean rows v /\ forall r, In r rows -> length r = length v.
Proof.
  unfold mean_rows. destruct rows as [|r0 t] eqn:Er; [discriminate|]. rewrite <- Er. 
  destruct (forallb _ rows) eqn:F; [|discriminate]. intros [= <-]. split; [rewrite Er; discriminate|]. rewrite forallb_forall in F. split.
  - intros i Hi. rewrite map_length, seq_length in Hi. rewrite nth_map_seq by exact Hi. rewrite qsum_map.
    assert (0 < nq (length rows)) by (rewrite Er; unfold nq, Qlt; simpl; lia). field. lra.
  - intros r Hr. rewrite map_length, seq_length. apply Nat.eqb_eq, F, Hr.
Qed.
Lemma c43_average_proof : forall QE s y dim comp periods v, gibbs_eap_density QE s y dim comp periods = Ok (Some v) ->
  (forall p, periods = Some p -> (1 <= p)%Z) ->
  let window := match periods with None => get_sim_params s | Some p => last_n (Z.to_nat p) (get_sim_params s) end in
  window <> [] /\ exists x fl rows, cast_obs s y = Ok (x, fl) /\ length rows = length window /\
    (forall t r0, (t < length window)%nat -> let r := nth t window r0 in mixture_density QE x fl (r_w r) (r_theta r) dim comp = Ok (nth t rows [])) /\
    is_mean rows v /\ (forall r, In r rows -> length r = length v).
Proof.
  intros QE s y dim comp periods v H Hp window. unfold gibbs_eap_density in H. destruct (s_gfit s); [|discriminate H]. cbn [negb] in H.
  apply rbind_ok in H as ([x fl] & Hx & H). apply rbind_ok in H as (rows & Hr & H).
  assert (W : last_periods (s_sims s) periods = window) by (unfold window; destruct periods; [apply last_periods_pos, Hp; reflexivity|reflexivity]).
  rewrite W in Hr. destruct (rmap_ok _ _ _ Hr) as [L K]. apply mean_rows_ok in H as (N & M & Le).
  split; [intros Z; rewrite Z in L; apply N; destruct rows; [reflexivity|discriminate L]|]. exists x, fl, rows. split; [exact Hx|]. split; [exact L|].
  split; [|split; assumption]. intros t r0 Ht. apply (K t r0 [] Ht).
Qed.
Lemma c43_zero_periods_proof : forall QE s y dim comp, gibbs_eap_density QE s y dim comp (Some 0%Z) = gibbs_eap_density QE s y dim comp None.
Proof.
  intros. unfold gibbs_eap_density. assert (E : last_periods (s_sims s) (Some 0%Z) = s_sims s).
  { unfold last_periods. rewrite Z.min_l by lia. reflexivity. }
  rewrite E. reflexivity.
Qed.
Lemma c43_negative_periods_proof : forall QE s y dim comp k, gibbs_eap_density QE s y dim comp (Some (- Z.of_nat k)%Z) =
  gibbs_eap_density QE (upd_sims (s_saved s) (skipn k (get_sim_params s)) (s_groups s) (s_atoms s) s) y dim comp None.
Proof.
  intros. unfold gibbs_eap_density. assert (E : last_periods (s_sims s) (Some (- Z.of_nat k)%Z) = skipn k (s_sims s)).
  { unfold last_periods. rewrite Z.min_l by lia. destruct (Z.leb_spec (- Z.of_nat k) 0); [|lia]. f_equal. lia. }
  rewrite E. reflexivity.
Qed.
(* additivity of the average *)
Lemma sum_swap' {A B} (f : A -> B -> Q) l m : sum_over (fun a => sum_over (fun b => f a b) m) l == sum_over (fun b => sum_over (fun a => f a b) l) m.
Proof. apply sum_swap. Qed.
Lemma density_len QE x fl r dim comp v : mixture_density QE x fl (r_w r) (r_theta r) dim comp = Ok v -> dim <> DOther -> (comp = None -> r_w r <> []) -> length v = length x.
Proof.
  intros H D NE. unfold mixture_density in H. apply rbind_ok in H as (cols & Hc & H). injection H as <-. unfold sum_columns.
  assert (S : somes cols <> []).
  { destruct (rmap_ok _ _ _ Hc) as [L K]. assert (Lc : (0 < length cols)%nat).
    { rewrite L. destruct comp; [simpl; lia|]. rewrite map_length, seq_length. destruct (r_w r); [destruct (NE eq_refl eq_refl)|simpl; lia]. }
    specialize (K 0%nat 0%Z None ltac:(lia)). apply comp_density in K as (l & K); [|exact D]. destruct cols as [|c cs]; [simpl in Lc; lia|]. simpl in K. subst c. discriminate. }
  destruct (somes cols) eqn:E; [congruence|]. rewrite map_length, seq_length. reflexivity.
Qed.
Lemma c43_average_components_proof : forall QE s y dim periods v k, dim <> DOther -> gibbs_eap_density QE s y dim None periods = Ok (Some v) ->
  (0 < k)%nat -> (forall r, In r (get_sim_params s) -> length (r_w r) = k) ->
  exists vs, length vs = k /\
    (forall j, (j < k)%nat -> gibbs_eap_density QE s y dim (Some (Z.of_nat j)) periods = Ok (Some (nth j vs []))) /\
    forall i, (i < length v)%nat -> nth i v 0 == sum_over (fun vj => nth i vj 0) vs.
Proof.
  intros QE s y dim periods v k D H Hk Hs. unfold gibbs_eap_density in *. destruct (s_gfit s); [|discriminate H]. cbn [negb] in *.
  apply rbind_ok in H as ([x fl] & Hx & H). rewrite Hx. cbn [rbind fst snd] in *. apply rbind_ok in H as (rows & Hr & H).
  set (win := last_periods (s_sims s) periods) in *. destruct (rmap_ok _ _ _ Hr) as [L K].
  assert (Hw : forall r, In r win -> length (r_w r) = k) by (intros r Hin; apply Hs; eapply last_periods_in, Hin).
  pose proof (mean_rows_ok _ _ H) as (NE & Mn & Le).
  set (part := fun j r => match mixture_density QE x fl (r_w r) (r_theta r) dim (Some (Z.of_nat j)) with Ok l => l | _ => [] end).
  assert (P : forall r, In r win -> exists f, mixture_density QE x fl (r_w r) (r_theta r) dim None = Ok f /\ In f rows /\
     (forall j, (j < k)%nat -> mixture_density QE x fl (r_w r) (r_theta r) dim (Some (Z.of_nat j)) = Ok (part j r) /\ length (part j r) = length x) /\
     forall i, nth i f 0 == sum_over (fun j => nth i (part j r) 0) (seq 0 k)).
  { intros r Hin. destruct (In_nth win r r Hin) as (t & Ht & Et). exists (nth t rows []). specialize (K t r [] Ht). rewrite Et in K.
    split; [exact K|]. split; [apply nth_In; lia|]. destruct (c43_components_proof _ _ _ _ _ _ K) as (vs & Lv & Kv & Sv). rewrite (Hw r Hin) in Lv, Kv.
    assert (Ev : forall j, (j < k)%nat -> part j r = nth j vs []) by (intros j Hj; unfold part; rewrite (Kv j Hj); reflexivity).
    split.
    - intros j Hj. rewrite (Ev j Hj). split; [apply Kv, Hj|]. eapply density_len; [apply Kv, Hj|exact D|discriminate].
    - intros i. rewrite Sv, (sum_nth _ vs []), Lv. apply sum_ext. intros j Hj. apply in_seq in Hj. rewrite Ev by lia. reflexivity. }
  assert (Lx : forall r, In r win -> length v = length x).
  { intros r Hin. destruct (P r Hin) as (f & F1 & F2 & _). rewrite <- (Le f F2). eapply density_len; [exact F1|exact D|]. intros _ Z. specialize (Hw r Hin). rewrite Z in Hw. simpl in Hw. lia. }
  assert (Wne : win <> []) by (intros Z; apply NE; destruct rows; [reflexivity|rewrite Z in L; discriminate L]).
  destruct win as [|r1 wt] eqn:Ew; [congruence|]. rewrite <- Ew in *. clear Wne. assert (Hin1 : In r1 win) by (rewrite Ew; left; reflexivity).
  set (mv := fun j => map (fun i => qsum (map (fun r => nth i r 0) (map (part j) win)) / nq (length (map (part j) win))) (seq 0 (length x))).
  assert (Mv : forall j, (j < k)%nat -> mean_rows (map (part j) win) = Ok (Some (mv j))).
  { intros j Hj. unfold mean_rows. destruct (map (part j) win) as [|p0 pt] eqn:Ep; [rewrite Ew in Ep; discriminate Ep|]. rewrite <- Ep.
    assert (Lp : forall p, In p (map (part j) win) -> length p = length x).
    { intros p Hp. apply in_map_iff in Hp as (r & <- & Hin). destruct (P r Hin) as (_ & _ & _ & Q & _). apply Q, Hj. }
    assert (L0 : length p0 = length x) by (apply Lp; rewrite Ep; left; reflexivity).
    rewrite (proj2 (forallb_forall _ _)); [rewrite L0; reflexivity|]. intros p Hp. apply Nat.eqb_eq. rewrite (Lp p Hp). symmetry. exact L0. }
  exists (map mv (seq 0 k)). split; [rewrite map_length, seq_length; reflexivity|]. split.
  - intros j Hj. rewrite nth_map_seq by exact Hj. rewrite (rmap_all _ (part j)); [cbn [rbind]; apply Mv, Hj|].
    intros r Hin. destruct (P r Hin) as (_ & _ & _ & Q & _). apply Q, Hj.
  - intros i Hi. rewrite sum_map. assert (Hix : (i < length x)%nat) by (rewrite <- (Lx r1 Hin1); exact Hi).
    assert (Nw : ~ nq (length win) == 0) by (rewrite Ew; unfold nq, Qeq; simpl; lia).
    rewrite (sum_ext _ (fun j => (1 / nq (length win)) * sum_over (fun r => nth i (part j r) 0) win)).
    2: { intros j Hj. unfold mv. rewrite nth_map_seq by exact Hix. rewrite qsum_map, map_length, sum_map. field. exact Nw. }
    rewrite sum_scale, sum_swap'. specialize (Mn i Hi). rewrite L in Mn.
    assert (Er : sum_over (fun r => nth i r 0) rows == sum_over (fun r => sum_over (fun j => nth i (part j r) 0) (seq 0 k)) win).
    { rewrite (sum_nth _ rows []), L, (sum_nth _ win r1). apply sum_ext. intros t Ht. apply in_seq in Ht.
      specialize (K t r1 [] ltac:(lia)). destruct (P (nth t win r1)) as (f & F1 & _ & _ & F3); [apply nth_In; lia|]. rewrite K in F1. injection F1 as <-. apply F3. }
    rewrite <- Er, <- Mn. field. exact Nw.
Qed.
Lemma c43_missing_component_proof : forall QE s y dim periods r j, dim <> DOther -> In r (last_periods (get_sim_params s) periods) -> (length (r_w r) <= j)%nat ->
  forall v, gibbs_eap_density QE s y dim (Some (Z.of_nat j)) periods <> Ok v.
Proof.
  intros QE s y dim periods r j D Hin Hj v H. unfold gibbs_eap_density in H. destruct (s_gfit s); [|discriminate H]. cbn [negb] in H.
  apply rbind_ok in H as ([x fl] & Hx & H). apply rbind_ok in H as (rows & Hr & H). destruct (rmap_ok _ _ _ Hr) as [L K].
  destruct (In_nth _ r r Hin) as (t & Ht & Et). specialize (K t r [] Ht). unfold get_sim_params in Et. rewrite Et in K. simpl in K. unfold mixture_density in K.
  apply rbind_ok in K as (cols & Hc & _). destruct (rmap_ok _ _ _ Hc) as [_ K]. specialize (K 0%nat 0%Z None ltac:(simpl; lia)). simpl in K.
  destruct dim; [| | |congruence]; simpl in K; try (destruct fl; [discriminate K|]);
    repeat (apply rbind_ok in K as (? & ?X & K)); match goal with X : py_nth (r_w r) _ = Ok _ |- _ => rewrite py_nth_over in X by exact Hj; discriminate X end.
Qed.

(* ---- signs ---- *)
Lemma comp_nonneg QE x fl r dim j l : pdf_ok QE -> nonneg (r_w r) -> component_density QE x fl (r_w r) (r_theta r) dim j = Ok (Some l) -> nonneg l.
Proof.
  intros [P1 P2] W H.
  assert (Q : forall z q, py_nth (r_w r) z = Ok q -> 0 <= q).
  { intros z q. unfold py_nth. destruct (py_index _ z); [|discriminate]. destruct (nth_error _ n) eqn:E; [|discriminate]. intros [= <-].
    apply nth_error_In in E. unfold nonneg in W. rewrite Forall_forall in W. apply W, E. }
  assert (R : forall l0 q, nonneg l0 -> 0 <= q -> nonneg (map (fun v => v * q) l0)).
  { intros l0 q N Hq. apply Forall_forall. intros z Hz. apply in_map_iff in Hz as (u & <- & Hu). unfold nonneg in N. rewrite Forall_forall in N. apply Qmult_le_0_compat; [apply N, Hu|exact Hq]. }
  destruct dim; simpl in H; [| | |discriminate H].
  - apply rbind_ok in H as (a & Ha & H). apply rbind_ok in H as (lz & Hl & H). apply rbind_ok in H as (q & Hq & H). injection H as <-. apply R; [apply (P1 _ _ _ _ Hl)|eapply Q, Hq].
  - apply rbind_ok in H as (a & Ha & H). apply rbind_ok in H as (m & Hm & H). apply rbind_ok in H as (c & Hc & H). apply rbind_ok in H as (lz & Hl & H). apply rbind_ok in H as (q & Hq & H). injection H as <-. apply R; [apply (P1 _ _ _ _ Hl)|eapply Q, Hq].
  - destruct fl; [discriminate H|]. apply rbind_ok in H as (a & Ha & H). apply rbind_ok in H as (m & Hm & H). apply rbind_ok in H as (c & Hc & H). apply rbind_ok in H as (d & Hd & H). apply rbind_ok in H as (lz & Hl & H). apply rbind_ok in H as (q & Hq & H). injection H as <-. apply R; [apply (P2 _ _ _ _ Hl)|eapply Q, Hq].
Qed.
Lemma nth_nonneg l i : nonneg l -> 0 <= nth i l 0.
Proof. intros H. destruct (Nat.lt_ge_cases i (length l)) as [L|L]; [unfold nonneg in H; rewrite Forall_forall in H; apply H, nth_In, L|rewrite nth_overflow by exact L; lra]. Qed.
Lemma density_nonneg QE x fl r dim comp v : pdf_ok QE -> nonneg (r_w r) -> mixture_density QE x fl (r_w r) (r_theta r) dim comp = Ok v -> nonneg v.
Proof.
  intros P W H. unfold mixture_density in H. apply rbind_ok in H as (cols & Hc & H). injection H as <-. destruct (rmap_ok _ _ _ Hc) as [L K].
  assert (N : forall c, In c (somes cols) -> nonneg c).
  { intros c Hin. assert (I : In (Some c) cols) by (clear -Hin; induction cols as [|[a|] t IH]; simpl in *; [destruct Hin|destruct Hin as [->|Hin]; auto|auto]).
    destruct (In_nth cols _ None I) as (t & Ht & Et). rewrite L in Ht. specialize (K t 0%Z None Ht). rewrite Et in K. eapply comp_nonneg; [exact P|exact W|exact K]. }
  unfold sum_columns. destruct (somes cols) as [|c0 cs] eqn:E; [repeat constructor; lra|]. rewrite <- E in *. apply Forall_forall. intros z Hz. apply in_map_iff in Hz as (i & <- & Hi).
  rewrite qsum_map. apply sum_nonneg. intros c Hin. apply nth_nonneg, N, Hin.
Qed.
Lemma c43_nonnegative_proof : forall E QE c fuel parg narg mu lam psi nu t b k o s0 g0 ops s g y dim comp periods v, valid_oracle o ->
  (forall x al a b pm, c = CBIB x al a b pm -> in01 parg) -> pdf_ok QE ->
  new_mix c parg narg mu lam psi nu t b k o = Ok (s0, g0) -> run_mops E c fuel ops o s0 g0 = (s, g) ->
  gibbs_eap_density QE s y dim comp periods = Ok (Some v) -> nonneg v.
Proof.
  intros E QE c fuel parg narg mu lam psi nu t b k o s0 g0 ops s g y dim comp periods v V P Pd N R H.
  destruct (c64_subprob_proof E c fuel _ _ _ _ _ _ _ _ _ _ _ _ _ _ _ V P N R) as (_ & Ws & _).
  unfold gibbs_eap_density in H. destruct (s_gfit s); [|discriminate H]. cbn [negb] in H.
  apply rbind_ok in H as ([x fl] & Hx & H). apply rbind_ok in H as (rows & Hr & H). destruct (rmap_ok _ _ _ Hr) as [L K]. apply mean_rows_ok in H as (NE & Mn & Le).
  assert (Nr : forall r, In r rows -> nonneg r).
  { intros r Hin. destruct (In_nth rows r [] Hin) as (i & Hi & Ei). rewrite L in Hi.
    destruct (last_periods (s_sims s) periods) as [|r1 wt] eqn:Ew; [simpl in Hi; lia|]. rewrite <- Ew in *.
    specialize (K i r1 [] Hi). rewrite Ei in K. eapply density_nonneg; [exact Pd| |exact K]. apply Ws. eapply last_periods_in, nth_In, Hi. }
  apply Forall_forall. intros z Hz. destruct (In_nth v z 0 Hz) as (i & Hi & <-). specialize (Mn i Hi).
  assert (0 <= sum_over (fun r => nth i r 0) rows) by (apply sum_nonneg; intros r Hin; apply nth_nonneg, Nr, Hin).
  assert (0 < nq (length rows)) by (destruct rows; [congruence|unfold nq, Qlt; simpl; lia]).
  apply (Qmult_le_r _ _ (nq (length rows))); [assumption|]. rewrite Mn. lra.
Qed.
Lemma c43_map_nonnegative_proof : forall E QE c fuel parg narg mu lam psi nu t b k o s0 g0 ops s g y dim comp v, valid_oracle o ->
  (forall x al a b pm, c = CBIB x al a b pm -> in01 parg) -> pdf_ok QE ->
  new_mix c parg narg mu lam psi nu t b k o = Ok (s0, g0) -> run_mops E c fuel ops o s0 g0 = (s, g) ->
  gibbs_map_density QE s y dim comp = Ok v -> nonneg v.
Proof.
  intros E QE c fuel parg narg mu lam psi nu t b k o s0 g0 ops s g y dim comp v V P Pd N R H.
  destruct (c64_subprob_proof E c fuel _ _ _ _ _ _ _ _ _ _ _ _ _ _ _ V P N R) as (_ & _ & Wm).
  unfold gibbs_map_density in H. destruct (s_gfit s); [|discriminate H]. cbn [negb] in H.
  apply rbind_ok in H as ([x fl] & Hx & H). apply rbind_ok in H as (r & Hr & H). unfold get_map in Hr. destruct (s_map s) eqn:Em; [|discriminate Hr]. injection Hr as ->.
  eapply density_nonneg; [exact Pd| |exact H]. apply Wm. reflexivity.
Qed.

(* ---- C65: the marginal density ---- *)
Lemma c65_first_column_proof : forall QE x x' r i comp, map (coord 0) x = map (coord 0) x' ->
  mixture_density QE x false (r_w r) (r_theta r) (DInt i) comp = mixture_density QE x' false (r_w r) (r_theta r) (DInt i) comp.
Proof.
  intros QE x x' r i comp H. assert (L : length x = length x') by (rewrite <- (map_length (coord 0) x), H, map_length; reflexivity).
  unfold mixture_density. rewrite L. 
  assert (E : forall l, rmap (component_density QE x false (r_w r) (r_theta r) (DInt i)) l = rmap (component_density QE x' false (r_w r) (r_theta r) (DInt i)) l).
  { assert (X : map (fun v => vat v 0) x = map (fun v => vat v 0) x') by exact H.
    intros l. induction l as [|j t IH]; simpl; [reflexivity|]. rewrite IH, X. reflexivity. }
  rewrite E. reflexivity.
Qed.
Lemma c65_column0_proof : forall QE x r i v, r_w r <> [] ->
  mixture_density QE x false (r_w r) (r_theta r) (DInt (Z.of_nat i)) None = Ok v -> marginal_at 0 QE x r i v.
Proof.
  intros QE x r i v NE H. unfold mixture_density in H. apply rbind_ok in H as (cols & Hc & H). injection H as <-.
  set (n := length (r_w r)) in *. destruct (rmap_ok _ _ _ Hc) as [L K]. rewrite map_length, seq_length in L, K.
  assert (K' : forall j, (j < n)%nat -> exists a l, atom_of j (r_theta r) = Some a /\ (i < length (fst a))%nat /\ q_norm QE (map (coord 0) x) (coord i (fst a)) (entry (snd a) i i) = Ok l /\ nth j cols None = Some (map (fun v => v * nth j (r_w r) 0) l)).
  { intros j Hj. specialize (K j 0%Z None Hj). rewrite zseq_nth in K by exact Hj. simpl in K.
    apply rbind_ok in K as (a & Ha & K). apply rbind_ok in K as (m & Hm & K). apply rbind_ok in K as (rr & Hrr & K). apply rbind_ok in K as (cc & Hcc & K). apply rbind_ok in K as (l & Hl & K). apply rbind_ok in K as (q & Hq & K). injection K as K.
    rewrite dict_get_of in Ha. fold (atom_of j (r_theta r)) in Ha. destruct (atom_of j (r_theta r)) as [a'|]; [|discriminate Ha]. injection Ha as <-.
    assert (Py : forall A (l : list A) z b d, py_nth l (Z.of_nat z) = Ok b -> (z < length l)%nat /\ b = nth z l d).
    { intros A l1 z b d0 P. destruct (Nat.lt_ge_cases z (length l1)) as [Lt|Ge]; [rewrite (py_nth_nat _ z d0 Lt) in P; injection P as <-; auto|rewrite py_nth_over in P by exact Ge; discriminate P]. }
    apply (Py _ _ _ _ 0) in Hm as [Lm ->]. apply (Py _ _ _ _ []) in Hrr as [_ ->]. apply (Py _ _ _ _ 0) in Hcc as [_ ->]. apply (Py _ _ _ _ 0) in Hq as [_ ->].
    exists a', l. split; [reflexivity|]. split; [exact Lm|]. split; [exact Hl|symmetry; exact K]. }
  set (ls := map (fun j => match atom_of j (r_theta r) with Some a => match q_norm QE (map (coord 0) x) (coord i (fst a)) (entry (snd a) i i) with Ok l => l | _ => [] end | None => [] end) (seq 0 n)).
  assert (Ls : forall j, (j < n)%nat -> exists a, atom_of j (r_theta r) = Some a /\ (i < length (fst a))%nat /\ q_norm QE (map (coord 0) x) (coord i (fst a)) (entry (snd a) i i) = Ok (nth j ls []) /\ nth j cols None = Some (map (fun v => v * nth j (r_w r) 0) (nth j ls []))).
  { intros j Hj. destruct (K' j Hj) as (a & l & A & A' & B & D). exists a. unfold ls. rewrite nth_map_seq by exact Hj. rewrite A, B. auto. }
  exists ls. split; [unfold ls; rewrite map_length, seq_length; reflexivity|]. split; [intros j Hj; destruct (Ls j Hj) as (a & A & A' & B & _); eauto|].
  assert (Ec : cols = map Some (map (fun j => map (fun v => v * nth j (r_w r) 0) (nth j ls [])) (seq 0 n))).
  { apply (nth_ext _ _ None None); [rewrite !map_length, seq_length; exact L|]. intros j Hj. rewrite L in Hj.
    destruct (Ls j Hj) as (a & _ & _ & _ & D). rewrite D, map_map, nth_map_seq by exact Hj. reflexivity. }
  rewrite (somes_all _ _ Ec). unfold sum_columns.
  assert (Nn : exists m, n = S m) by (destruct (r_w r) eqn:Ew; [congruence|exists (length l); reflexivity]). destruct Nn as (m & En).
  destruct (map (fun j => map (fun v => v * nth j (r_w r) 0) (nth j ls [])) (seq 0 n)) as [|c0 cs] eqn:Em; [rewrite En in Em; discriminate Em|]. rewrite <- Em.
  split; [rewrite map_length, seq_length; reflexivity|]. intros t Ht. rewrite nth_map_seq by exact Ht. rewrite qsum_map, sum_map.
  apply sum_ext. intros j _. rewrite nth_scaled. ring.
Qed.
