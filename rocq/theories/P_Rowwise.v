From Coq Require Import Lqa.
From Verif Require Import Prelude Numpy Rng M_Weights M_Niw M_Utils M_Mix M_Query S_Niw S_Mix S_Sort S_Query S_MixEx S_Rowwise P_Lists P_Dens P_Plot P_Sort P_Clu P_QueryEx P_Renumber.
Open Scope Q_scope.

Section Uniform.
Context {A B C X : Type} (P : X -> Prop) (F : X -> A -> res B) (sh : C -> X -> B).
Definition uniform (G : X -> res B) : Prop := (exists e, forall x, P x -> G x = Err e) \/ exists f, forall x, P x -> G x = Ok (sh f x).
Lemma rmap_uniform l : (forall a, In a l -> uniform (fun x => F x a)) ->
  (exists e, forall x, P x -> rmap (F x) l = Err e) \/ exists fs, length fs = length l /\ forall x, P x -> rmap (F x) l = Ok (map (fun f => sh f x) fs).
Proof.
  induction l as [|a l IH]; intros H.
  - right. exists []. split; [reflexivity|]. intros x _. reflexivity.
  - destruct (H a (or_introl eq_refl)) as [(e & E)|(f & E)].
    + left. exists e. intros x Hx. cbn. rewrite (E x Hx). reflexivity.
    + destruct IH as [(e & E')|(fs & L & E')]; [intros b Hb; apply H; right; exact Hb| |].
      * left. exists e. intros x Hx. cbn. rewrite (E x Hx). cbn. rewrite (E' x Hx). reflexivity.
      * right. exists (f :: fs). split; [cbn; congruence|]. intros x Hx. cbn. rewrite (E x Hx). cbn. rewrite (E' x Hx). reflexivity.
Qed.
End Uniform.

Definition sh_some (f : vec -> Q) (x : list vec) : option (list Q) := Some (map f x).
Definition sh_map (f : vec -> Q) (x : list vec) : list Q := map f x.
Lemma bind_uniform {A B C X} (P : X -> Prop) (sh : C -> X -> B) (r : res A) (k : A -> X -> res B) : r <> Diverge ->
  (forall a, r = Ok a -> uniform P sh (k a)) -> uniform P sh (fun x => rbind r (fun a => k a x)).
Proof.
  intros N H. destruct r as [a|e|]; [apply H; reflexivity|left; exists e; reflexivity|congruence].
Qed.
Lemma py_nth_nd {A} (l : list A) z : py_nth l z <> Diverge.
Proof. unfold py_nth. destruct (py_index _ _); [destruct (nth_error _ _)|]; discriminate. Qed.
Lemma dict_get_nd {A} (t : list (nat * A)) j : dict_get t j <> Diverge.
Proof. unfold dict_get. destruct (j <? 0)%Z; [discriminate|]. destruct (lookup _ _); discriminate. Qed.
Lemma rmap_nd {A B} (f : A -> res B) l : (forall a, f a <> Diverge) -> rmap f l <> Diverge.
Proof.
  intros H. induction l as [|a l IH]; [discriminate|]. cbn. specialize (H a). destruct (f a); [|discriminate|congruence]. cbn. destruct (rmap f l); [discriminate|discriminate|congruence].
Qed.
Lemma sub_vec_nd l x : sub_vec l x <> Diverge.
Proof. apply rmap_nd. intros. apply py_nth_nd. Qed.
Lemma sub_mat_nd l m : sub_mat l m <> Diverge.
Proof.
  unfold sub_mat. pose proof (rmap_nd (sub_vec l) m (sub_vec_nd l)) as H. destruct (rmap (sub_vec l) m); [|discriminate|congruence]. cbn. apply rmap_nd. intros. apply py_nth_nd.
Qed.
Section K.
Variable k : nat.
Definition cols (x : list vec) : Prop := filled (has_columns k) x.
(* a row function followed by a weight *)
Lemma weighted_row {A} (PA : A -> Prop) (F : list A -> res (list Q)) (g : list vec -> list A) (h : vec -> A) (w : res Q) : row_function PA F -> (forall x, g x = map h x) -> (forall x, cols x -> filled PA (g x)) -> w <> Diverge ->
  uniform cols sh_some (fun x => l <~ F (g x) ;; q <~ w ;; Ok (Some (map (fun v => v * q) l))).
Proof.
  intros [(e & E)|(f & E)] G HP N.
  - left. exists e. intros x Hx. rewrite (E _ (HP x Hx)). reflexivity.
  - destruct w as [q|e|]; [|left; exists e; intros x Hx; rewrite (E _ (HP x Hx)); reflexivity|congruence].
    right. exists (fun v => f (h v) * q). intros x Hx. rewrite (E _ (HP x Hx)), G. cbn [rbind]. unfold sh_some. rewrite !map_map. reflexivity.
Qed.
Lemma map_id' {A} (l : list A) : l = map (fun a => a) l.
Proof. induction l; cbn; congruence. Qed.
Lemma component_row QE ww th dim j : rowwise k QE -> dim <> DOther -> uniform cols sh_some (fun x => component_density QE x false ww th dim j).
Proof.
  intros (R1 & R2 & _) Nd. unfold component_density. destruct dim as [|idx|i|]; [| | |congruence].
  - apply (bind_uniform cols sh_some (dict_get th j)); [apply dict_get_nd|]. intros a _.
    apply (weighted_row (has_columns k) (fun x => q_pdf QE x (fst a) (snd a)) (fun x => x) (fun v => v)); [apply R1|apply map_id'|auto|apply py_nth_nd].
  - apply (bind_uniform cols sh_some (dict_get th j)); [apply dict_get_nd|]. intros a _.
    apply (bind_uniform cols sh_some (sub_vec idx (fst a))); [apply sub_vec_nd|]. intros m _.
    apply (bind_uniform cols sh_some (sub_mat idx (snd a))); [apply sub_mat_nd|]. intros c _.
    apply (weighted_row (has_columns k) (fun x => q_pdf QE x m c) (fun x => x) (fun v => v)); [apply R1|apply map_id'|auto|apply py_nth_nd].
  - apply (bind_uniform cols sh_some (dict_get th j)); [apply dict_get_nd|]. intros a _.
    apply (bind_uniform cols sh_some (py_nth (fst a) i)); [apply py_nth_nd|]. intros m _.
    apply (bind_uniform cols sh_some (py_nth (snd a) i)); [apply py_nth_nd|]. intros r _.
    apply (bind_uniform cols sh_some (py_nth r i)); [apply py_nth_nd|]. intros c _.
    apply (weighted_row (fun _ => True) (fun x => q_norm QE x m c) (map (fun v => vat v 0)) (fun v => vat v 0)); [apply R2|reflexivity|intros x [Hx _]; split; [intros H; apply map_eq_nil in H; contradiction|apply Forall_forall; auto]|apply py_nth_nd].
Qed.
Lemma somes_some (fs : list (vec -> Q)) x : somes (map (fun f => sh_some f x) fs) = map (fun f => map f x) fs.
Proof. induction fs; cbn; [reflexivity|]. rewrite IHfs. reflexivity. Qed.
Lemma nth_map_row (f : vec -> Q) x i : (i < length x)%nat -> nth i (map f x) 0 = f (nth i x []).
Proof. intros H. rewrite (nth_indep _ 0 (f [])) by (rewrite map_length; exact H). apply map_nth. Qed.
Lemma table_rows {B} (T : list Q -> B) (fs : list (vec -> Q)) x :
  map (fun i => T (map (fun c => nth i c 0) (map (fun f => map f x) fs))) (seq 0 (length x)) = map (fun row => T (map (fun f => f row) fs)) x.
Proof.
  rewrite (map_as_seq (fun row => T (map (fun f => f row) fs)) x []). apply map_ext_in. intros i Hi. apply in_seq in Hi. f_equal. rewrite map_map. apply map_ext. intros f. apply nth_map_row. apply (proj2 Hi).
Qed.
Definition comps (ww : list Q) (comp : option Z) : list Z := match comp with None => map Z.of_nat (seq 0 (length ww)) | Some j => [j] end.
Lemma mixture_row QE ww th dim comp : rowwise k QE -> dim <> DOther -> (ww <> [] \/ comp <> None) -> uniform cols sh_map (fun x => mixture_density QE x false ww th dim comp).
Proof.
  intros R Nd Nw. unfold mixture_density. fold (comps ww comp).
  destruct (rmap_uniform cols (fun x => component_density QE x false ww th dim) sh_some (comps ww comp)) as [(e & E)|(fs & L & E)].
  { intros j _. apply component_row; assumption. }
  - left. exists e. intros x Hx. rewrite (E x Hx). reflexivity.
  - right. exists (fun row => qsum (map (fun f => f row) fs)). intros x Hx. rewrite (E x Hx). cbn [rbind]. rewrite somes_some. unfold sum_columns, sh_map.
    assert (N : fs <> []). { intros ->. unfold comps in L. destruct comp; [discriminate L|]. rewrite map_length, seq_length in L. destruct ww; [destruct Nw; congruence|discriminate L]. }
    rewrite <- (table_rows qsum fs x). destruct fs; [congruence|]. reflexivity.
Qed.
Lemma mean_rows_row hs x : hs <> [] -> mean_rows (map (fun h => sh_map h x) hs) = Ok (Some (map (fun row => qsum (map (fun h => h row) hs) / nq (length hs)) x)).
Proof.
  intros N. destruct hs as [|h hs]; [congruence|]. unfold mean_rows, sh_map. cbn [map]. rewrite map_length.
  assert (F : forallb (fun z => Nat.eqb (length z) (length x)) (map h x :: map (fun h => map h x) hs) = true).
  { apply forallb_forall. intros z [<-|Hz]; [rewrite map_length; apply Nat.eqb_refl|]. apply in_map_iff in Hz as (g & <- & _). rewrite map_length. apply Nat.eqb_refl. }
  rewrite F. f_equal. f_equal. pose proof (table_rows (fun q => qsum q / nq (length (h :: hs))) (h :: hs) x) as T. cbn [map] in T. rewrite <- T. apply map_ext. intros i. f_equal.
  cbn [length]. rewrite map_length. reflexivity.
Qed.
Lemma skipn_In {A} (a : A) l : forall t, In a (skipn t l) -> In a l.
Proof. induction l as [|b l IH]; intros [|t] H; cbn in *; auto. right. apply (IH t H). Qed.
Lemma eap_row QE s dim comp periods : rowwise k QE -> dim <> DOther -> (comp = None -> Forall (fun r => r_w r <> []) (get_sim_params s)) ->
  by_rows k (fun l => gibbs_eap_density QE s (Some (YArr2 l k)) dim comp periods).
Proof.
  intros R Nd W. unfold by_rows, gibbs_eap_density. cbn [cast_obs rbind fst snd]. destruct (negb (s_gfit s)); [left; exists NotFittedError; reflexivity|].
  assert (U : forall r, In r (last_periods (s_sims s) periods) -> uniform cols sh_map (fun x => mixture_density QE x false (r_w r) (r_theta r) dim comp)).
  { intros r Hr. apply mixture_row; try assumption. destruct comp; [right; discriminate|left]. specialize (W eq_refl). unfold get_sim_params in W. rewrite Forall_forall in W. apply W.
    unfold last_periods in Hr. destruct periods; [|exact Hr]. destruct (_ <=? 0)%Z; eapply skipn_In; exact Hr. }
  destruct (rmap_uniform cols (fun x r => mixture_density QE x false (r_w r) (r_theta r) dim comp) sh_map _ U) as [(e & E)|(hs & L & E)].
  - left. exists e. intros l Hl. rewrite (E l Hl). reflexivity.
  - right. destruct hs as [|h hs].
    + left. intros l Hl. rewrite (E l Hl). reflexivity.
    + right. eexists. intros l Hl. rewrite (E l Hl). cbn [rbind]. apply mean_rows_row. discriminate.
Qed.
Lemma map_row QE s dim comp r : rowwise k QE -> dim <> DOther -> s_map s = Some r -> (comp = None -> r_w r <> []) ->
  row_function (has_columns k) (fun l => gibbs_map_density QE s (Some (YArr2 l k)) dim comp).
Proof.
  intros R Nd M W. unfold row_function, gibbs_map_density, get_map. rewrite M. cbn [cast_obs rbind fst snd]. destruct (negb (s_gfit s)); [left; exists NotFittedError; reflexivity|].
  destruct (mixture_row QE (r_w r) (r_theta r) dim comp R Nd) as [(e & E)|(f & E)].
  - destruct comp; [right; discriminate|left; auto].
  - left. exists e. intros l Hl. apply (E l Hl).
  - right. exists f. intros l Hl. apply (E l Hl).
Qed.

(* ---- clustering ---- *)
Definition sh_col (f : vec -> Q) (x : list vec) : list Q := map f x.
Lemma cluster_row QE ww th : rowwise k QE -> (exists e, forall x, cols x -> cluster QE x ww th = Err e) \/
  exists R : vec -> list Q, forall x, cols x -> cluster QE x ww th = if Nat.eqb (length x) 1 then Err AxisError else Ok (ranks (map (fun v => row_group (R v)) x), map (fun v => row_uncertainty (R v)) x).
Proof.
  intros (R1 & _). unfold cluster, prob_rows.
  destruct (rmap_uniform cols (fun x j => a <~ dict_get th j;; q_pdf QE x (fst a) (snd a)) sh_col (map Z.of_nat (seq 0 (length ww)))) as [(e & E)|(fs & L & E)].
  { intros j _. apply (bind_uniform cols sh_col (dict_get th j) (fun a x => q_pdf QE x (fst a) (snd a))); [apply dict_get_nd|]. intros a _. destruct (R1 (fst a) (snd a)) as [(e & E)|(f & E)]; [left; exists e; exact E|right; exists f; exact E]. }
  - left. exists e. intros x Hx. rewrite (E x Hx). reflexivity.
  - destruct (is_nil ww) eqn:B.
    + left. exists AxisError. intros x Hx. rewrite (E x Hx). reflexivity.
    + right. exists (fun row => qmul2 (map (fun f => f row) fs) ww). intros x Hx. rewrite (E x Hx). cbn [rbind orb]. destruct (Nat.eqb (length x) 1); [reflexivity|].
      unfold sh_col. rewrite (table_rows (fun q => qmul2 q ww) fs x), !map_map. reflexivity.
Qed.
Lemma map_cluster_row QE s r : rowwise k QE -> s_map s = Some r -> clusters_by_rows k (fun l => gibbs_map_cluster QE s (Some (YArr2 l k))).
Proof.
  intros R M. unfold clusters_by_rows, gibbs_map_cluster, get_map. rewrite M. cbn [cast_obs rbind fst snd]. destruct (negb (s_gfit s)); [left; exists NotFittedError; reflexivity|].
  destruct (cluster_row QE (r_w r) (r_theta r) R) as [(e & E)|(T & E)]; [left; exists e; exact E|]. right.
  exists (fun v => row_group (T v)), (fun v => row_uncertainty (T v)). intros l Hl. rewrite (E l Hl). destruct (Nat.eqb_spec (length l) 1) as [H|H]; (split; [intros H'|intros H']); try contradiction; try reflexivity.
  eexists. split; [reflexivity|apply ranks_same_partition].
Qed.
Definition sh_lab (g : vec -> nat * option Q) (x : list vec) : list nat * list (option Q) := (ranks (map (fun v => fst (g v)) x), map (fun v => snd (g v)) x).
Lemma add_form x (f g : vec -> vec -> nat) : add_matrix (map (fun a => map (f a) x) x) (map (fun a => map (g a) x) x) = map (fun a => map (fun b => (f a b + g a b)%nat) x) x.
Proof.
  unfold add_matrix.
  assert (C : forall {A B C} (u : A -> B) (v : A -> C) l, combine (map u l) (map v l) = map (fun a => (u a, v a)) l) by (intros A B C u v l; induction l; cbn; congruence).
  rewrite C, map_map. apply map_ext. intros a. cbn [fst snd]. rewrite C, map_map. reflexivity.
Qed.
Lemma equal_form x (g : vec -> nat) : equal_matrix (ranks (map g x)) = map (fun a => map (fun b => if Nat.eqb (g b) (g a) then 1%nat else 0%nat) x) x.
Proof. rewrite <- (partition_matrix _ _ (ranks_same_partition (map g x))). unfold equal_matrix. rewrite map_map. apply map_ext. intros a. rewrite map_map. reflexivity. Qed.
Lemma fold_form x (gs : list (vec -> nat * option Q)) : forall f : vec -> vec -> nat,
  fold_left (fun m g => add_matrix m (equal_matrix (fst g))) (map (fun g => sh_lab g x) gs) (map (fun a => map (f a) x) x) =
  map (fun a => map (fold_left (fun c g => fun b => (c b + if Nat.eqb (fst (g b)) (fst (g a)) then 1 else 0)%nat) gs (f a)) x) x.
Proof.
  induction gs as [|g gs IH]; intros f; [reflexivity|]. cbn [map fold_left]. unfold sh_lab at 2. cbn [fst]. rewrite (equal_form x (fun v => fst (g v))), add_form. rewrite IH. reflexivity.
Qed.
Lemma repeat_form {B} (x : list vec) (b : B) : repeat b (length x) = map (fun _ => b) x.
Proof. induction x; cbn; congruence. Qed.
Lemma affinity_row QE s : rowwise k QE -> affinity_by_rows k (fun l => gibbs_eap_affinity_matrix QE s (Some (YArr2 l k))).
Proof.
  intros R. unfold affinity_by_rows, gibbs_eap_affinity_matrix. cbn [cast_obs rbind fst snd]. destruct (negb (s_gfit s)); [left; exists NotFittedError; reflexivity|].
  destruct (rmap_uniform (fun x => cols x /\ length x <> 1%nat) (fun x r => cluster QE x (r_w r) (r_theta r)) sh_lab (s_sims s)) as [(e & E)|(gs & L & E)].
  { intros r _. destruct (cluster_row QE (r_w r) (r_theta r) R) as [(e & E)|(T & E)]; [left; exists e; intros x [Hx _]; apply (E x Hx)|right].
    exists (fun v => (row_group (T v), row_uncertainty (T v))). intros x [Hx Hx1]. rewrite (E x Hx). destruct (Nat.eqb_spec (length x) 1); [contradiction|reflexivity]. }
  - left. exists e. intros l Hl Hl1. rewrite (E l (conj Hl Hl1)). reflexivity.
  - right. exists (fun a b => let c := fold_left (fun c g => fun b => (c b + if Nat.eqb (fst (g b)) (fst (g a)) then 1 else 0)%nat) gs (fun _ => 0%nat) b in
      if Nat.eqb (length (s_sims s)) 0 then None else Some (nq c / nq (length (s_sims s)))).
    intros l Hl Hl1. rewrite (E l (conj Hl Hl1)). cbn [rbind]. f_equal. rewrite (repeat_form l 0%nat), (repeat_form l (map (fun _ => 0%nat) l)), (fold_form l gs (fun _ _ => 0%nat)).
    unfold div_count. rewrite map_map. apply map_ext. intros a. rewrite map_map. reflexivity.
Qed.

(* ---- variational densities ---- *)
Lemma v_sum_row (F : list vec -> Z * vatom -> res (list Q)) it : (forall ja, uniform cols sh_map (fun x => F x ja)) ->
  forall a, uniform cols sh_map (fun x => v_sum (F x) (map a x) it).
Proof.
  intros H. induction it as [|ja it IH]; intros a; [right; exists a; reflexivity|]. cbn [v_sum]. destruct (H ja) as [(e & E)|(f & E)].
  - left. exists e. intros x Hx. rewrite (E x Hx). reflexivity.
  - destruct (IH (fun v => a v + f v)) as [(e & E')|(g & E')]; [left; exists e|right; exists g]; intros x Hx; rewrite (E x Hx); cbn [rbind]; rewrite <- (E' x Hx); f_equal;
      unfold add_rows, sh_map; clear; induction x; cbn; congruence.
Qed.
Lemma uniform_fun (F : list vec -> res (list Q)) : uniform cols sh_map F -> row_function (has_columns k) F.
Proof. intros H. exact H. Qed.
Lemma weighted_vrow (F : list vec -> res (list Q)) (w : res Q) : row_function (has_columns k) F -> w <> Diverge ->
  uniform cols sh_map (fun x => l <~ F x ;; q <~ w ;; Ok (map (fun v => v * q) l)).
Proof.
  intros [(e & E)|(f & E)] N.
  - left. exists e. intros x Hx. rewrite (E x Hx). reflexivity.
  - destruct w as [q|e|]; [|left; exists e; intros x Hx; rewrite (E x Hx); reflexivity|congruence].
    right. exists (fun v => f v * q). intros x Hx. rewrite (E x Hx). cbn [rbind]. unfold sh_map. rewrite !map_map. reflexivity.
Qed.
Lemma v_sub_nd dim a : v_sub dim a <> Diverge.
Proof.
  destruct a as [[[mu lam] p] sc]. cbn. destruct dim as [|l|i|]; try discriminate.
  - pose proof (sub_vec_nd l mu). destruct (sub_vec l mu); [|discriminate|congruence]. cbn. pose proof (sub_mat_nd l p). destruct (sub_mat l p); [discriminate|discriminate|congruence].
  - pose proof (py_nth_nd mu i). destruct (py_nth mu i); [discriminate|discriminate|congruence].
Qed.
Lemma v_iter_nd s comp : v_iter s comp <> Diverge.
Proof. unfold v_iter, get_vtheta. destruct (vk (s_var s)); [|discriminate]. cbn. destruct comp; [|discriminate]. pose proof (py_nth_nd (vtheta (s_var s)) z0). destruct (py_nth _ _); [discriminate|discriminate|congruence]. Qed.
Lemma len_dim_nd dim : len_dim dim <> Diverge.
Proof. destruct dim; discriminate. Qed.
Lemma var_map_row QE s dim comp : rowwise k QE -> (forall v w j, q_mode_w QE v w j <> Diverge) -> row_function (has_columns k) (fun l => var_map_density QE s (Some (YArr2 l k)) dim comp).
Proof.
  intros (_ & _ & _ & R) W. unfold var_map_density. cbn [cast_obs rbind fst snd]. destruct (negb (s_vfit s)); [left; exists NotFittedError; reflexivity|]. apply uniform_fun.
  apply (bind_uniform cols sh_map (len_dim dim)); [apply len_dim_nd|]. intros ld _. apply (bind_uniform cols sh_map (v_iter s comp)); [apply v_iter_nd|]. intros it _.
  destruct (v_sum_row (fun x ja => p <~ v_sub dim (snd ja);; (let (p0, scale) := snd ja in let (p1, _) := p0 in let (_, _) := p1 in
       l <~ q_normal QE x (fst p) (scale_mat (scale - ld) (snd p));; q <~ q_mode_w QE (s_var s) (s_wm s) (fst ja);; Ok (map (fun v => v * q) l))) it) with (a := fun _ : vec => 0) as [(e & E)|(f & E)].
  { intros [j [[[mu lam] pr] sc]]. cbn [fst snd]. apply (bind_uniform cols sh_map (v_sub dim (mu, lam, pr, sc))); [apply v_sub_nd|]. intros p _. apply (weighted_vrow (fun x => q_normal QE x (fst p) (scale_mat (sc - ld) (snd p)))); [apply R|apply W]. }
  - left. exists e. intros x Hx. rewrite repeat_form. apply (E x Hx).
  - right. exists f. intros x Hx. rewrite repeat_form. apply (E x Hx).
Qed.
Lemma var_eap_row QE s dim comp : rowwise k QE -> (forall v w j, q_mean_w QE v w j <> Diverge) -> row_function (has_columns k) (fun l => var_eap_density QE s (Some (YArr2 l k)) dim comp).
Proof.
  intros (_ & _ & R & _) W. unfold var_eap_density. cbn [cast_obs rbind fst snd]. destruct (negb (s_vfit s)); [left; exists NotFittedError; reflexivity|]. apply uniform_fun.
  match goal with |- uniform _ _ (fun x => rbind ?r _) => apply (bind_uniform cols sh_map r) end; [destruct dim; discriminate|]. intros dim' _.
  apply (bind_uniform cols sh_map (len_dim dim')); [apply len_dim_nd|]. intros ld _. apply (bind_uniform cols sh_map (v_iter s comp)); [apply v_iter_nd|]. intros it _.
  destruct (v_sum_row (fun x ja => p <~ v_sub dim' (snd ja);; (let (p0, scale) := snd ja in let (p1, _) := p0 in let (_, lam) := p1 in
       l <~ q_student QE x (fst p) (scale_mat ((scale + 1 - ld) * lam / (1 + lam)) (snd p)) (scale + 1 - ld);; q <~ q_mean_w QE (s_var s) (s_wm s) (fst ja);; Ok (map (fun v => v * q) l))) it) with (a := fun _ : vec => 0) as [(e & E)|(f & E)].
  { intros [j [[[mu lam] pr] sc]]. cbn [fst snd]. apply (bind_uniform cols sh_map (v_sub dim' (mu, lam, pr, sc))); [apply v_sub_nd|]. intros p _. apply (weighted_vrow (fun x => q_student QE x (fst p) (scale_mat ((sc + 1 - ld) * lam / (1 + lam)) (snd p)) (sc + 1 - ld))); [apply R|apply W]. }
  - left. exists e. intros x Hx. rewrite repeat_form. apply (E x Hx).
  - right. exists f. intros x Hx. rewrite repeat_form. apply (E x Hx).
Qed.
End K.

(* ---- witnesses ---- *)
Lemma near_rowwise k lo : rowwise k (near_qenv lo).
Proof.
  split; [|split; [|split]]; intros; right.
  - exists (fun r => near lo r m). reflexivity.
  - exists (fun r => near lo [r] [m]). reflexivity.
  - exists (fun r => near lo r m). reflexivity.
  - exists (fun r => near lo r m). reflexivity.
Qed.
(* a label number depends on the other rows *)
Lemma label_proof : exists QE s l l' i j lab unc lab' unc', rowwise 1 QE /\ filled (has_columns 1) l /\ filled (has_columns 1) l' /\ nth_error l i = nth_error l' j /\ nth_error l i <> None /\
  gibbs_map_cluster QE s (Some (YArr2 l 1)) = Ok (lab, unc) /\ gibbs_map_cluster QE s (Some (YArr2 l' 1)) = Ok (lab', unc') /\
  nth_error lab i <> nth_error lab' j.
Proof.
  exists (near_qenv (1 # 2)), (ren_s [two_a]), [[0]; [1]], [[1]; [1]], 1%nat, 1%nat. eexists _, _, _, _. split; [apply near_rowwise|]. do 2 (split; [split; [discriminate|constructor; [reflexivity|constructor; [reflexivity|constructor]]]|]). split; [reflexivity|]. split; [discriminate|].
  split; [vm_compute; reflexivity|]. split; [vm_compute; reflexivity|]. discriminate.
Qed.
(* a dim of another type: one number, whatever the rows *)
Lemma other_proof : exists QE s v, rowwise 1 QE /\ get_sim_params s <> [] /\
  forall l, gibbs_eap_density QE s (Some (YArr2 l 1)) DOther None None = Ok (Some v) /\ length v = 1%nat.
Proof.
  exists (near_qenv (1 # 2)), (ren_s [two_a]). eexists. split; [apply near_rowwise|]. split; [discriminate|]. intros l. split; [vm_compute; reflexivity|reflexivity].
Qed.
(* a density that refuses rows of another length than the mean *)
Definition strict_qenv (lo : Q) : qenv :=
  let f x (m : vec) := if forallb (fun r : vec => Nat.eqb (length r) (length m)) x then Ok (map (fun r => near lo r m) x) else Err ValueError in
  {| q_pdf := fun x m _ => f x m; q_norm := q_norm (near_qenv lo); q_spectral := q_spectral (near_qenv lo);
     q_student := fun x m _ _ => f x m; q_normal := fun x m _ => f x m; q_mean_w := q_mean_w (near_qenv lo);
     q_mode_w := q_mode_w (near_qenv lo); q_resp := q_resp (near_qenv lo) |}.
Lemma strict_rowwise k lo : rowwise k (strict_qenv lo).
Proof.
  assert (G : forall m, row_function (has_columns k) (fun x => if forallb (fun r : vec => Nat.eqb (length r) (length m)) x then Ok (map (fun r => near lo r m) x) else Err ValueError)).
  { intros m. destruct (Nat.eq_dec k (length m)) as [E|E].
    - right. exists (fun r => near lo r m). intros l [_ H]. assert (forallb (fun r : vec => Nat.eqb (length r) (length m)) l = true) as ->; [|reflexivity].
      apply forallb_forall. intros r Hr. rewrite Forall_forall in H. rewrite (H r Hr). apply Nat.eqb_eq. exact E.
    - left. exists ValueError. intros [|r l] [N H]; [congruence|]. inversion H as [|? ? Hr _]; subst. cbn [forallb]. rewrite Hr. apply Nat.eqb_neq in E. rewrite E. reflexivity. }
  split; [intros; apply G|]. split; [intros m v; right; exists (fun r => near lo [r] [m]); reflexivity|]. split; intros; apply G.
Qed.
