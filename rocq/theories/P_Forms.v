From Verif Require Import Prelude Numpy Rng M_Weights M_Niw M_Utils M_Mix M_Query S_Forms.
Open Scope Q_scope.

Lemma as_matrix_cast s ya x k : as_matrix ya = Some (x, k) -> cast_obs s (Some ya) = Ok (x, false) /\ cast_obs s (Some (YArr2 x k)) = Ok (x, false).
Proof. destruct ya; simpl; intro H; try discriminate; injection H as <- <-; split; reflexivity. Qed.
Lemma c83_gibbs_forms_proof : forall QE s ya x k dim comp per n, as_matrix ya = Some (x, k) ->
  gibbs_eap_density QE s (Some ya) dim comp per = gibbs_eap_density QE s (Some (YArr2 x k)) dim comp per /\
  gibbs_map_density QE s (Some ya) dim comp = gibbs_map_density QE s (Some (YArr2 x k)) dim comp /\
  gibbs_map_cluster QE s (Some ya) = gibbs_map_cluster QE s (Some (YArr2 x k)) /\
  gibbs_eap_affinity_matrix QE s (Some ya) = gibbs_eap_affinity_matrix QE s (Some (YArr2 x k)) /\
  gibbs_spectral QE s (Some ya) n = gibbs_spectral QE s (Some (YArr2 x k)) n.
Proof.
  intros QE s ya x k dim comp per n H. destruct (as_matrix_cast s ya x k H) as [E1 E2].
  assert (A : gibbs_eap_affinity_matrix QE s (Some ya) = gibbs_eap_affinity_matrix QE s (Some (YArr2 x k))) by (unfold gibbs_eap_affinity_matrix; rewrite E1, E2; reflexivity).
  split; [unfold gibbs_eap_density; rewrite E1, E2; reflexivity|]. split; [unfold gibbs_map_density; rewrite E1, E2; reflexivity|].
  split; [unfold gibbs_map_cluster; rewrite E1, E2; reflexivity|]. split; [exact A|]. unfold gibbs_spectral. rewrite A. reflexivity.
Qed.
Lemma c83_var_forms_proof : forall QE s ya x k dim comp, as_matrix ya = Some (x, k) ->
  var_eap_density QE s (Some ya) dim comp = var_eap_density QE s (Some (YArr2 x k)) dim comp /\
  var_map_density QE s (Some ya) dim comp = var_map_density QE s (Some (YArr2 x k)) dim comp.
Proof.
  intros QE s ya x k dim comp H. destruct (as_matrix_cast s ya x k H) as [E1 E2]. split.
  - unfold var_eap_density. rewrite E1, E2. cbn [snd fst]. destruct ya; simpl in H; try discriminate; injection H as <- <-; reflexivity.
  - unfold var_map_density. rewrite E1, E2. reflexivity.
Qed.
Lemma c83_stored_proof : forall QE s dim comp per, s_1d s = false ->
  gibbs_eap_density QE s None dim comp per = gibbs_eap_density QE s (Some (YArr2 (s_y s) (s_dim s))) dim comp per /\
  gibbs_map_density QE s None dim comp = gibbs_map_density QE s (Some (YArr2 (s_y s) (s_dim s))) dim comp /\
  gibbs_map_cluster QE s None = gibbs_map_cluster QE s (Some (YArr2 (s_y s) (s_dim s))) /\
  var_eap_density QE s None dim comp = var_eap_density QE s (Some (YArr2 (s_y s) (s_dim s))) dim comp /\
  var_map_density QE s None dim comp = var_map_density QE s (Some (YArr2 (s_y s) (s_dim s))) dim comp.
Proof.
  intros QE s dim comp per H. assert (E : cast_obs s None = cast_obs s (Some (YArr2 (s_y s) (s_dim s)))) by (simpl; rewrite H; reflexivity).
  split; [unfold gibbs_eap_density; rewrite E; reflexivity|]. split; [unfold gibbs_map_density; rewrite E; reflexivity|]. split; [unfold gibbs_map_cluster; rewrite E; reflexivity|].
  split; [unfold var_eap_density; rewrite E; reflexivity|]. unfold var_map_density; rewrite E; reflexivity.
Qed.
Lemma c83_other_proof : forall QE s ya dim comp per n full, as_matrix ya = None ->
  (s_gfit s = true -> gibbs_eap_density QE s (Some ya) dim comp per = Err TypeError /\ gibbs_map_density QE s (Some ya) dim comp = Err TypeError /\
     gibbs_map_cluster QE s (Some ya) = Err TypeError /\ gibbs_eap_affinity_matrix QE s (Some ya) = Err TypeError /\ gibbs_spectral QE s (Some ya) n = Err TypeError) /\
  (s_vfit s = true -> var_eap_density QE s (Some ya) dim comp = Err TypeError /\ var_map_density QE s (Some ya) dim comp = Err TypeError /\
     var_map_cluster QE s (Some ya) full = Err TypeError /\ var_eap_affinity_matrix QE s (Some ya) = Err TypeError /\ var_spectral QE s (Some ya) n = Err TypeError).
Proof.
  intros QE s ya dim comp per n full H. assert (E : cast_obs s (Some ya) = Err TypeError) by (destruct ya; simpl in H; try discriminate; reflexivity). split; intro F.
  - assert (A : gibbs_eap_affinity_matrix QE s (Some ya) = Err TypeError) by (unfold gibbs_eap_affinity_matrix; rewrite F, E; reflexivity).
    split; [unfold gibbs_eap_density; rewrite F, E; reflexivity|]. split; [unfold gibbs_map_density; rewrite F, E; reflexivity|]. split; [unfold gibbs_map_cluster; rewrite F, E; reflexivity|].
    split; [exact A|]. unfold gibbs_spectral. rewrite F, A. reflexivity.
  - assert (A : var_eap_affinity_matrix QE s (Some ya) = Err TypeError) by (unfold var_eap_affinity_matrix; rewrite F, E; reflexivity).
    split; [unfold var_eap_density; rewrite F, E; reflexivity|]. split; [unfold var_map_density; rewrite F, E; reflexivity|]. split; [unfold var_map_cluster; rewrite F, E; reflexivity|].
    split; [exact A|]. unfold var_spectral. rewrite F, A. reflexivity.
Qed.

(* ---- indices from the end ---- *)
Lemma py_nth_start {A} (l : list A) z : in_axis (length l) z -> py_nth l z = py_nth l (from_start (length l) z).
Proof.
  intro H. unfold in_axis in H. unfold py_nth, py_index, from_start. destruct (Z.ltb z 0) eqn:E.
  - assert (F : (z + Z.of_nat (length l) <? 0)%Z = false) by (apply Z.ltb_ge; lia). rewrite F. rewrite F. reflexivity.
  - rewrite E. rewrite E. reflexivity.
Qed.
Lemma py_nth_out {A} (l : list A) z : ~ in_axis (length l) z -> py_nth l z = Err IndexError.
Proof.
  intro H. unfold in_axis in H. unfold py_nth, py_index. destruct (Z.ltb_spec z 0).
  - destruct (Z.ltb_spec (z + Z.of_nat (length l)) 0); [reflexivity|]. lia.
  - destruct (Z.ltb_spec z 0); [lia|]. destruct (Z.leb_spec (Z.of_nat (length l)) z); [reflexivity|lia].
Qed.
Lemma py_nth_in {A} (l : list A) z : in_axis (length l) z -> exists a, py_nth l z = Ok a /\ nth_error l (Z.to_nat (from_start (length l) z)) = Some a.
Proof.
  intro H. unfold in_axis in H. unfold py_nth, py_index, from_start. set (i := (if (z <? 0)%Z then z + Z.of_nat (length l) else z)%Z).
  assert (I : (0 <= i < Z.of_nat (length l))%Z) by (unfold i; destruct (Z.ltb_spec z 0); lia).
  destruct (Z.ltb_spec i 0); [lia|]. destruct (Z.leb_spec (Z.of_nat (length l)) i); [lia|]. simpl.
  destruct (nth_error l (Z.to_nat i)) as [a|] eqn:E; [exists a; split; reflexivity|]. apply nth_error_None in E. lia.
Qed.
Lemma rmap_ext_in {A B} (f g : A -> res B) l : (forall x, In x l -> f x = g x) -> rmap f l = rmap g l.
Proof. induction l as [|x l IH]; intro H; [reflexivity|]. simpl. rewrite (H x (or_introl eq_refl)), IH; [reflexivity|]. intros; apply H; right; assumption. Qed.
Lemma rmap_map {A B C} (f : B -> res C) (g : A -> B) l : rmap f (map g l) = rmap (fun x => f (g x)) l.
Proof. induction l as [|x l IH]; [reflexivity|]. simpl. rewrite IH. reflexivity. Qed.
Lemma rmap_len {A B} (f : A -> res B) l r : rmap f l = Ok r -> length r = length l.
Proof.
  revert r. induction l as [|x l IH]; intros r H; simpl in H; [injection H as <-; reflexivity|]. destruct (f x); try discriminate. simpl in H. destruct (rmap f l); try discriminate.
  injection H as <-. simpl. rewrite (IH _ eq_refl). reflexivity.
Qed.
Lemma sub_vec_start idx x d : length x = d -> Forall (in_axis d) idx -> sub_vec idx x = sub_vec (map (from_start d) idx) x.
Proof.
  intros L F. unfold sub_vec. rewrite rmap_map. apply rmap_ext_in. intros z Hz. rewrite Forall_forall in F. subst d. apply py_nth_start, F. exact Hz.
Qed.
Lemma sub_mat_start idx m d : length m = d -> Forall (fun r => length r = d) m -> Forall (in_axis d) idx -> sub_mat idx m = sub_mat (map (from_start d) idx) m.
Proof.
  intros L W F. unfold sub_mat. rewrite (rmap_ext_in (sub_vec idx) (sub_vec (map (from_start d) idx))).
  - destruct (rmap (sub_vec (map (from_start d) idx)) m) as [cols| |] eqn:E; try reflexivity. simpl. rewrite rmap_map. apply rmap_ext_in. intros z Hz. rewrite Forall_forall in F.
    apply rmap_len in E. assert (E2 : length cols = d) by (unfold matr, vec in *; congruence). subst d. unfold matr, vec in *. rewrite <- E. apply py_nth_start. rewrite E. apply F. exact Hz.
  - intros r Hr. apply sub_vec_start; [|exact F]. rewrite Forall_forall in W. apply W. exact Hr.
Qed.
Lemma lookup_in {A} j (t : list (nat * A)) a : lookup j t = Some a -> exists i, In (i, a) t.
Proof.
  induction t as [|[i b] t IH]; simpl; [discriminate|]. destruct (Nat.eqb i j); intro H; [injection H as <-; exists i; left; reflexivity|]. destruct (IH H) as [q Q]. exists q. right. exact Q.
Qed.
Lemma dict_get_in {A} (t : list (nat * A)) j a : dict_get t j = Ok a -> exists i, In (i, a) t.
Proof. unfold dict_get. destruct (j <? 0)%Z; [discriminate|]. destruct (lookup (Z.to_nat j) t) eqn:E; [|discriminate]. intro H. injection H as <-. eapply lookup_in. exact E. Qed.
Lemma component_start QE x flat ww theta dim j d : Forall (fun p : nat * atom => square_atom d (snd p)) theta -> dim_in_axis d dim ->
  component_density QE x flat ww theta dim j = component_density QE x flat ww theta (dim_from_start d dim) j.
Proof.
  intros T D. rewrite Forall_forall in T. destruct dim as [|idx|i|]; simpl; try reflexivity.
  - destruct (dict_get theta j) as [a| |] eqn:E; try reflexivity. simpl. destruct (dict_get_in _ _ _ E) as [q Hq]. destruct (T _ Hq) as (A & B & C). simpl in A, B, C.
    rewrite <- (sub_vec_start idx (fst a) d A D), <- (sub_mat_start idx (snd a) d B C D). reflexivity.
  - destruct flat; [reflexivity|]. destruct (dict_get theta j) as [a| |] eqn:E; try reflexivity. simpl. destruct (dict_get_in _ _ _ E) as [q Hq]. destruct (T _ Hq) as (A & B & C). simpl in A, B, C. simpl in D.
    rewrite (py_nth_start (fst a) i) by (rewrite A; exact D). rewrite A. destruct (py_nth (fst a) (from_start d i)) as [m| |]; try reflexivity. simpl.
    rewrite (py_nth_start (snd a) i) by (rewrite B; exact D). rewrite B. destruct (py_nth (snd a) (from_start d i)) as [r| |] eqn:Er; try reflexivity. simpl.
    assert (Lr : length r = d).
    { rewrite Forall_forall in C. apply C. unfold py_nth in Er. destruct (py_index (length (snd a)) (from_start d i)); [|discriminate]. destruct (nth_error (snd a) n) eqn:N; [|discriminate]. injection Er as <-. eapply nth_error_In. exact N. }
    rewrite (py_nth_start r i) by (rewrite Lr; exact D). rewrite Lr. reflexivity.
Qed.
Lemma mixture_start QE x flat ww theta dim comp d : Forall (fun p : nat * atom => square_atom d (snd p)) theta -> dim_in_axis d dim ->
  mixture_density QE x flat ww theta dim comp = mixture_density QE x flat ww theta (dim_from_start d dim) comp.
Proof. intros T D. unfold mixture_density. f_equal. apply rmap_ext_in. intros j _. apply component_start; assumption. Qed.
Lemma last_periods_in {A} (l : list A) p x : In x (last_periods l p) -> In x l.
Proof.
  assert (G : forall n, In x (skipn n l) -> In x l) by (intros n Hn; rewrite <- (firstn_skipn n l); apply in_or_app; right; exact Hn).
  unfold last_periods. destruct p as [p|]; [|tauto]. destruct (Z.min p (Z.of_nat (length l)) <=? 0)%Z; apply G.
Qed.
Lemma c83_gibbs_dim_proof : forall QE s y dim comp per d, dim_in_axis d dim -> Forall (state_dim d) (s_sims s) -> (forall r, s_map s = Some r -> state_dim d r) ->
  gibbs_eap_density QE s y dim comp per = gibbs_eap_density QE s y (dim_from_start d dim) comp per /\
  gibbs_map_density QE s y dim comp = gibbs_map_density QE s y (dim_from_start d dim) comp.
Proof.
  intros QE s y dim comp per d D F M. split.
  - unfold gibbs_eap_density. destruct (s_gfit s); [|reflexivity]. cbn [negb]. destruct (cast_obs s y) as [x| |]; try reflexivity. cbn [rbind]. f_equal. apply rmap_ext_in. intros r Hr. apply mixture_start; [|exact D].
    rewrite Forall_forall in F. apply F. eapply last_periods_in. exact Hr.
  - unfold gibbs_map_density, get_map. destruct (s_gfit s); [|reflexivity]. cbn [negb]. destruct (cast_obs s y) as [x| |]; try reflexivity. cbn [rbind]. destruct (s_map s) as [r|]; [|reflexivity]. cbn [rbind]. apply mixture_start; [apply M; reflexivity|exact D].
Qed.
Lemma v_sub_start dim a d : vatom_dim d a -> dim_in_axis d dim -> v_sub dim a = v_sub (dim_from_start d dim) a.
Proof.
  destruct a as [[[mu lam] prec] sc]. intros (A & B & C) D. simpl in A, B, C. destruct dim as [|idx|i|]; simpl; try reflexivity.
  - rewrite <- (sub_vec_start idx mu d A D), <- (sub_mat_start idx prec d B C D). reflexivity.
  - simpl in D. rewrite (py_nth_start mu i) by (rewrite A; exact D). rewrite A. reflexivity.
Qed.
Lemma v_sum_ext f g l : forall acc, (forall x, In x l -> f x = g x) -> v_sum f acc l = v_sum g acc l.
Proof.
  induction l as [|x l IH]; intros acc H; [reflexivity|]. simpl. rewrite (H x (or_introl eq_refl)). destruct (g x); try reflexivity. simpl. apply IH. intros; apply H; right; assumption.
Qed.
Lemma v_iter_in s comp it j a : v_iter s comp = Ok it -> In (j, a) it -> In a (vtheta (s_var s)).
Proof.
  unfold v_iter, get_vtheta. destruct (vk (s_var s)) as [kk|]; [|discriminate]. cbn [rbind]. destruct comp as [z|].
  - destruct (py_nth (vtheta (s_var s)) z) as [b| |] eqn:E; try discriminate. simpl. intro H. injection H as <-. intros [H|[]]. injection H as _ <-.
    unfold py_nth in E. destruct (py_index (length (vtheta (s_var s))) z); [|discriminate]. destruct (nth_error (vtheta (s_var s)) n) eqn:N; [|discriminate]. injection E as <-. eapply nth_error_In. exact N.
  - intro H. injection H as <-. apply in_combine_r.
Qed.
Lemma c83_var_dim_proof : forall QE s y dim comp d, dim <> DNone -> dim_in_axis d dim -> Forall (vatom_dim d) (vtheta (s_var s)) ->
  var_eap_density QE s y dim comp = var_eap_density QE s y (dim_from_start d dim) comp /\
  var_map_density QE s y dim comp = var_map_density QE s y (dim_from_start d dim) comp.
Proof.
  intros QE s y dim comp d N D F. rewrite Forall_forall in F. assert (L : len_dim dim = len_dim (dim_from_start d dim)) by (destruct dim; simpl; try reflexivity; rewrite map_length; reflexivity). split.
  - unfold var_eap_density. destruct (s_vfit s); [|reflexivity]. cbn [negb]. destruct (cast_obs s y) as [x| |]; try reflexivity. cbn [rbind].
    replace (match dim with DNone => _ | _ => Ok dim end) with (Ok dim) by (destruct dim; [contradiction|reflexivity..]).
    replace (match dim_from_start d dim with DNone => _ | _ => Ok (dim_from_start d dim) end) with (Ok (dim_from_start d dim)) by (destruct dim; [contradiction|reflexivity..]).
    cbn [rbind]. rewrite <- L. destruct (len_dim dim) as [ld| |]; try reflexivity. cbn [rbind]. destruct (v_iter s comp) as [it| |] eqn:E; try reflexivity. cbn [rbind]. apply v_sum_ext. intros [j a] Hj.
    cbn [fst snd]. rewrite (v_sub_start dim a d); [reflexivity| |exact D]. apply F. eapply v_iter_in; [exact E|exact Hj].
  - unfold var_map_density. destruct (s_vfit s); [|reflexivity]. cbn [negb]. destruct (cast_obs s y) as [x| |]; try reflexivity. cbn [rbind].
    rewrite <- L. destruct (len_dim dim) as [ld| |]; try reflexivity. cbn [rbind]. destruct (v_iter s comp) as [it| |] eqn:E; try reflexivity. cbn [rbind]. apply v_sum_ext. intros [j a] Hj.
    cbn [fst snd]. rewrite (v_sub_start dim a d); [reflexivity| |exact D]. apply F. eapply v_iter_in; [exact E|exact Hj].
Qed.
Lemma rmap_bad {A B} (f : A -> res B) l x e : In x l -> f x = Err e -> forall r, rmap f l <> Ok r.
Proof.
  induction l as [|z l IH]; intros Hx Hf r; [contradiction|]. simpl. destruct Hx as [->|Hx]; [rewrite Hf; discriminate|]. destruct (f z); try discriminate. simpl. specialize (IH Hx Hf).
  destruct (rmap f l); try discriminate. exfalso. eapply IH. reflexivity.
Qed.
Lemma sub_vec_out idx x d : length x = d -> ~ Forall (in_axis d) idx -> forall r, sub_vec idx x <> Ok r.
Proof.
  intros L F. assert (X : exists z, In z idx /\ ~ in_axis d z).
  { induction idx as [|z idx IH]; [exfalso; apply F; constructor|]. assert (Dz : in_axis d z \/ ~ in_axis d z) by (unfold in_axis; lia). destruct Dz as [Dz|Dz].
    - destruct IH as (q & Q1 & Q2); [intro X; apply F; constructor; assumption|]. exists q. split; [right; exact Q1|exact Q2].
    - exists z. split; [left; reflexivity|exact Dz]. }
  destruct X as (z & Z1 & Z2). unfold sub_vec. apply (rmap_bad _ _ z IndexError Z1). apply py_nth_out. rewrite L. exact Z2.
Qed.
Lemma component_out QE x flat ww theta dim j d : Forall (fun p : nat * atom => square_atom d (snd p)) theta -> ~ dim_in_axis d dim ->
  forall r, component_density QE x flat ww theta dim j <> Ok r.
Proof.
  intros T D r. rewrite Forall_forall in T. destruct dim as [|idx|i|]; simpl in *; try (exfalso; apply D; exact I).
  - destruct (dict_get theta j) as [a| |] eqn:E; try discriminate. simpl. destruct (dict_get_in _ _ _ E) as [q Hq]. destruct (T _ Hq) as (A & _). simpl in A.
    pose proof (sub_vec_out idx (fst a) d A D) as X. destruct (sub_vec idx (fst a)); try discriminate. exfalso. eapply X. reflexivity.
  - destruct flat; [discriminate|]. destruct (dict_get theta j) as [a| |] eqn:E; try discriminate. simpl. destruct (dict_get_in _ _ _ E) as [q Hq]. destruct (T _ Hq) as (A & _). simpl in A.
    rewrite py_nth_out by (rewrite A; exact D). discriminate.
Qed.
Lemma c83_dim_out_proof : forall QE s y dim comp per d, ~ dim_in_axis d dim ->
  (forall r, s_map s = Some r -> state_dim d r -> r_w r <> [] -> forall v, gibbs_map_density QE s y dim comp <> Ok v) /\
  (forall r, In r (last_periods (s_sims s) per) -> state_dim d r -> r_w r <> [] -> forall v, gibbs_eap_density QE s y dim comp per <> Ok v).
Proof.
  intros QE s y dim comp per d D.
  assert (G : forall x fl r, state_dim d r -> r_w r <> [] -> forall v, mixture_density QE x fl (r_w r) (r_theta r) dim comp <> Ok v).
  { intros x fl r Sd Nw v. unfold mixture_density.
    assert (J : exists j, In j (match comp with None => map Z.of_nat (seq 0 (length (r_w r))) | Some j => [j] end)).
    { destruct comp as [j|]; [exists j; left; reflexivity|]. destruct (r_w r); [contradiction|]. exists 0%Z. left. reflexivity. }
    destruct J as [j Hj]. set (l := match comp with None => map Z.of_nat (seq 0 (length (r_w r))) | Some j => [j] end) in *.
    assert (X : forall q, rmap (component_density QE x fl (r_w r) (r_theta r) dim) l <> Ok q).
    { clearbody l. revert Hj. induction l as [|z l IH]; intros Hj q; [contradiction|]. cbn [rmap]. pose proof (component_out QE x fl (r_w r) (r_theta r) dim z d Sd D) as C.
      destruct (component_density QE x fl (r_w r) (r_theta r) dim z); try discriminate. exfalso. eapply C. reflexivity. }
    destruct (rmap (component_density QE x fl (r_w r) (r_theta r) dim) l); try discriminate. exfalso. eapply X. reflexivity. }
  split.
  - intros r M Sd Nw v. unfold gibbs_map_density, get_map. destruct (s_gfit s); [|discriminate]. cbn [negb]. destruct (cast_obs s y) as [x| |]; try discriminate. cbn [rbind]. rewrite M. cbn [rbind]. apply G; assumption.
  - intros r I Sd Nw v. unfold gibbs_eap_density. destruct (s_gfit s); [|discriminate]. cbn [negb]. destruct (cast_obs s y) as [x| |]; try discriminate. cbn [rbind].
    assert (X : forall q, rmap (fun r => mixture_density QE (fst x) (snd x) (r_w r) (r_theta r) dim comp) (last_periods (s_sims s) per) <> Ok q).
    { revert I. generalize (last_periods (s_sims s) per) as l. induction l as [|z l IH]; intros I q; [contradiction|]. cbn [rmap]. destruct I as [->|I].
      - pose proof (G (fst x) (snd x) r Sd Nw) as C. destruct (mixture_density QE (fst x) (snd x) (r_w r) (r_theta r) dim comp); try discriminate. exfalso. eapply C. reflexivity.
      - destruct (mixture_density QE (fst x) (snd x) (r_w z) (r_theta z) dim comp); try discriminate. cbn [rbind]. specialize (IH I). destruct (rmap _ l); try discriminate. exfalso. eapply IH. reflexivity. }
    destruct (rmap _ (last_periods (s_sims s) per)); try discriminate. exfalso. eapply X. reflexivity.
Qed.
Lemma c83_negative_component_proof : forall QE s y x k dim j per, (j < 0)%Z -> s_gfit s = true -> as_matrix y = Some (x, k) -> dim <> DOther ->
  (forall r, s_map s = Some r -> gibbs_map_density QE s (Some y) dim (Some j) = Err KeyError) /\
  (last_periods (s_sims s) per <> [] -> gibbs_eap_density QE s (Some y) dim (Some j) per = Err KeyError).
Proof.
  intros QE s y x k dim j per Hj F A Nd. destruct (as_matrix_cast s y x k A) as [E _].
  assert (G : forall ww theta, mixture_density QE x false ww theta dim (Some j) = Err KeyError).
  { intros ww theta. unfold mixture_density. cbn [rmap]. destruct dim; simpl; [..|contradiction]; unfold dict_get; (destruct (Z.ltb_spec j 0); [reflexivity|lia]). }
  split.
  - intros r M. unfold gibbs_map_density, get_map. rewrite F, E, M. cbn [negb rbind fst snd]. apply G.
  - intro N. unfold gibbs_eap_density. rewrite F, E. cbn [negb rbind fst snd]. destruct (last_periods (s_sims s) per) as [|r l]; [contradiction|]. cbn [rmap]. rewrite G. reflexivity.
Qed.
(* a negative component of a variational density: the atom from the end, the weight asked for as given *)
Lemma c83_var_component_proof : forall QE s y dim j n, length (vtheta (s_var s)) = n -> in_axis n j -> 
  (q_mean_w QE (s_var s) (s_wm s) j = q_mean_w QE (s_var s) (s_wm s) (from_start n j) -> var_eap_density QE s y dim (Some j) = var_eap_density QE s y dim (Some (from_start n j))) /\
  (q_mode_w QE (s_var s) (s_wm s) j = q_mode_w QE (s_var s) (s_wm s) (from_start n j) -> var_map_density QE s y dim (Some j) = var_map_density QE s y dim (Some (from_start n j))).
Proof.
  intros QE s y dim j n L I. assert (P : py_nth (vtheta (s_var s)) (from_start n j) = py_nth (vtheta (s_var s)) j) by (rewrite (py_nth_start (vtheta (s_var s)) j) by (rewrite L; exact I); rewrite L; reflexivity).
  split; intro H.
  - unfold var_eap_density. destruct (negb (s_vfit s)); [reflexivity|]. destruct (cast_obs s y) as [x| |]; try reflexivity. cbn [rbind].
    match goal with |- context [rbind ?a _] => destruct a as [dm| |]; try reflexivity end. cbn [rbind]. destruct (len_dim dm) as [ld| |]; try reflexivity. cbn [rbind].
    unfold v_iter. destruct (get_vtheta s) as [t| |] eqn:T; try reflexivity. cbn [rbind]. assert (Et : t = vtheta (s_var s)) by (unfold get_vtheta in T; destruct (vk (s_var s)); [injection T as <-; reflexivity|discriminate]). subst t.
    rewrite P. destruct (py_nth (vtheta (s_var s)) j) as [a| |]; try reflexivity. cbn [rbind v_sum fst snd]. rewrite H. reflexivity.
  - unfold var_map_density. destruct (negb (s_vfit s)); [reflexivity|]. destruct (cast_obs s y) as [x| |]; try reflexivity. cbn [rbind].
    destruct (len_dim dim) as [ld| |]; try reflexivity. cbn [rbind].
    unfold v_iter. destruct (get_vtheta s) as [t| |] eqn:T; try reflexivity. cbn [rbind]. assert (Et : t = vtheta (s_var s)) by (unfold get_vtheta in T; destruct (vk (s_var s)); [injection T as <-; reflexivity|discriminate]). subst t.
    rewrite P. destruct (py_nth (vtheta (s_var s)) j) as [a| |]; try reflexivity. cbn [rbind v_sum fst snd]. rewrite H. reflexivity.
Qed.
