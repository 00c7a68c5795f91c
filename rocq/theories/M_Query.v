(* Model of the query methods of mixture_models/_base.py and of
   mixture_density and cluster in mixture_models/_utils.py.  Queries change
   nothing; densities come from arbitrary functions. *)
From Verif Require Import Prelude Numpy Rng M_Weights M_Niw M_Utils M_Mix.
Open Scope Q_scope.

Definition rbind {A B} (r : res A) (k : A -> res B) : res B :=
  match r with Ok a => k a | Err e => Err e | Diverge => Diverge end.
Notation "x <~ r ;; k" := (rbind r (fun x => k)) (at level 61, r at next level, right associativity).
Fixpoint rmap {A B} (f : A -> res B) (l : list A) : res (list B) :=
  match l with [] => Ok [] | x :: t => y <~ f x ;; r <~ rmap f t ;; Ok (y :: r) end.

Record qenv := {
  q_pdf : list vec -> vec -> matr -> res (list Q);   (* multivariate_normal.pdf(x, mean, cov, 1), one value per row *)
  q_norm : list Q -> Q -> Q -> res (list Q);         (* norm.pdf(x, mean, np.sqrt(var)) *)
  q_spectral : list (list (option Q)) -> Z -> res (list nat);  (* SpectralClustering.fit_predict *)
  q_student : list vec -> vec -> matr -> Q -> res (list Q);  (* density_students_t, utils/functions.py:31-38 *)
  q_normal : list vec -> vec -> matr -> res (list Q);        (* density_normal, utils/functions.py:41-47 *)
  q_mean_w : vst -> ws -> Z -> res Q;                       (* weight_model.variational_mean_w_j *)
  q_mode_w : vst -> ws -> Z -> res Q;                       (* weight_model.variational_mode_w_j *)
  q_resp : yarg -> vst -> ws -> res matr             (* responsibilities of new points, _base.py:672-688, 599-616 *)
}.

(* the argument dim: None, a list or array of indices, a Python int, anything else *)
Inductive dimarg := DNone | DList (l : list Z) | DInt (i : Z) | DOther.

(* a Python index; None is IndexError *)
Definition py_index (n : nat) (z : Z) : option nat :=
  let i := (if z <? 0 then z + Z.of_nat n else z)%Z in
  if ((i <? 0) || (Z.of_nat n <=? i))%Z then None else Some (Z.to_nat i).
Definition py_nth {A} (l : list A) (z : Z) : res A :=
  match py_index (length l) z with
  | Some i => match nth_error l i with Some a => Ok a | None => Err IndexError end
  | None => Err IndexError
  end.
(* theta[j][0][dim] and theta[j][1][:, dim][dim, :] for a list dim *)
Definition sub_vec (l : list Z) (x : vec) : res vec := rmap (py_nth x) l.
Definition sub_mat (l : list Z) (m : matr) : res matr :=
  cols <~ rmap (sub_vec l) m ;; rmap (py_nth cols) l.

Section Q.
Variable E : qenv.

(* _base.py:1099-1120: rows, and whether the array is one-dimensional *)
Definition cast_obs (s : ms) (y : option yarg) : res (list vec * bool) :=
  match y with
  | None => Ok (s_y s, s_1d s)
  | Some (YFrame l _) | Some (YList2 l _) | Some (YArr2 l _) => Ok (l, false)
  | Some (YList1 l) | Some (YArr1 l) => Ok (column l, false)
  | Some (YNum x) => Ok ([[x]], false)
  | Some (YSeries _) | Some YOther => Err TypeError
  end.

Definition dict_get {A} (t : list (nat * A)) (j : Z) : res A :=
  if (j <? 0)%Z then Err KeyError
  else match lookup (Z.to_nat j) t with Some a => Ok a | None => Err KeyError end.

(* one pass of the loop at _utils.py:72-86; nothing is appended for a dim that
   is neither None, list, array nor int *)
Definition component_density (x : list vec) (flat : bool) (ww : list Q) (theta : list (nat * atom)) (dim : dimarg) (j : Z)
  : res (option (list Q)) :=
  match dim with
  | DOther => Ok None
  | DNone =>
      a <~ dict_get theta j ;; l <~ q_pdf E x (fst a) (snd a) ;;
      q <~ py_nth ww j ;; Ok (Some (map (fun v => v * q) l))
  | DList idx =>
      a <~ dict_get theta j ;; m <~ sub_vec idx (fst a) ;; c <~ sub_mat idx (snd a) ;; l <~ q_pdf E x m c ;;
      q <~ py_nth ww j ;; Ok (Some (map (fun v => v * q) l))
  | DInt i =>
      if flat then Err IndexError else
      a <~ dict_get theta j ;;
      m <~ py_nth (fst a) i ;; r <~ py_nth (snd a) i ;; c <~ py_nth r i ;;
      l <~ q_norm E (map (fun v => vat v 0) x) m c ;;
      q <~ py_nth ww j ;; Ok (Some (map (fun v => v * q) l))
  end.
Fixpoint somes {A} (l : list (option A)) : list A :=
  match l with [] => [] | Some a :: t => a :: somes t | None :: t => somes t end.
(* np.atleast_2d(np.array(ret).T).sum(1): with no column it is [0.] *)
Definition sum_columns (n : nat) (cols : list (list Q)) : list Q :=
  match cols with [] => [0] | _ => map (fun i => qsum (map (fun c => nth i c 0) cols)) (seq 0 n) end.
(* _utils.py:64-89 *)
Definition mixture_density (x : list vec) (flat : bool) (ww : list Q) (theta : list (nat * atom)) (dim : dimarg) (comp : option Z)
  : res (list Q) :=
  cols <~ rmap (component_density x flat ww theta dim)
            (match comp with None => map Z.of_nat (seq 0 (length ww)) | Some j => [j] end) ;;
  Ok (sum_columns (length x) (somes cols)).

(* sim_params[-i_start:] with i_start = min(periods, len), _base.py:263-267 *)
Definition last_periods {A} (sims : list A) (periods : option Z) : list A :=
  match periods with
  | None => sims
  | Some p =>
      let i := Z.min p (Z.of_nat (length sims)) in
      if (i <=? 0)%Z then skipn (Z.to_nat (- i)) sims else skipn (length sims - Z.to_nat i) sims
  end.
(* np.array(rows).mean(axis=0); the mean of no rows is nan *)
Definition mean_rows (rows : list (list Q)) : res (option (list Q)) :=
  match rows with
  | [] => Ok None
  | r :: _ => if forallb (fun x => Nat.eqb (length x) (length r)) rows
              then Ok (Some (map (fun i => qsum (map (fun x => nth i x 0) rows) / nq (length rows)) (seq 0 (length r))))
              else Err ValueError
  end.
(* _base.py:236-274 *)
Definition gibbs_eap_density (s : ms) (y : option yarg) (dim : dimarg) (comp : option Z) (periods : option Z) : res (option (list Q)) :=
  if negb (s_gfit s) then Err NotFittedError else
  x <~ cast_obs s y ;;
  rows <~ rmap (fun r => mixture_density (fst x) (snd x) (r_w r) (r_theta r) dim comp) (last_periods (s_sims s) periods) ;;
  mean_rows rows.
(* self.map_sim_params["w"]: None is not subscriptable *)
Definition get_map (s : ms) : res rparams := match s_map s with Some r => Ok r | None => Err TypeError end.
(* _base.py:276-302 *)
Definition gibbs_map_density (s : ms) (y : option yarg) (dim : dimarg) (comp : option Z) : res (list Q) :=
  if negb (s_gfit s) then Err NotFittedError else
  x <~ cast_obs s y ;; r <~ get_map s ;;
  mixture_density (fst x) (snd x) (r_w r) (r_theta r) dim comp.

(* rows of assign_prob before normalisation, _utils.py:94-101 *)
Definition prob_rows (x : list vec) (ww : list Q) (theta : list (nat * atom)) : res (list (list Q)) :=
  cols <~ rmap (fun j => a <~ dict_get theta j ;; q_pdf E x (fst a) (snd a)) (map Z.of_nat (seq 0 (length ww))) ;;
  Ok (map (fun i => qmul2 (map (fun c => nth i c 0) cols) ww) (seq 0 (length x))).
(* one row of lines 102-104: a row that sums to 0 becomes NaN, whose argmax is 0 *)
Definition row_group (r : list Q) : nat :=
  if Qeq_bool (qsum r) 0 then 0%nat else argmax (map (fun q => q / qsum r) r).
Definition row_uncertainty (r : list Q) : option Q :=
  if Qeq_bool (qsum r) 0 then None else Some (1 - nth (row_group r) r 0 / qsum r).
(* _utils.py:92-106; for a single row (or no component) assign_prob has one
   dimension and .sum(1) raises AxisError *)
Definition cluster (x : list vec) (ww : list Q) (theta : list (nat * atom)) : res (list nat * list (option Q)) :=
  rows <~ prob_rows x ww theta ;;
  if is_nil ww || Nat.eqb (length x) 1 then Err AxisError else
  Ok (ranks (map row_group rows), map row_uncertainty rows).
(* _base.py:357-384 *)
Definition gibbs_map_cluster (s : ms) (y : option yarg) : res (list nat * list (option Q)) :=
  if negb (s_gfit s) then Err NotFittedError else
  x <~ cast_obs s y ;; r <~ get_map s ;; cluster (fst x) (r_w r) (r_theta r).

(* x / n for an array; 0 / 0 is nan (the entries are sums of n zeros or ones) *)
Definition div_count (n : nat) (m : list (list nat)) : list (list (option Q)) :=
  map (map (fun x => if Nat.eqb n 0 then None else Some (nq x / nq n))) m.
(* _base.py:304-330 *)
Definition gibbs_eap_affinity_matrix (s : ms) (y : option yarg) : res (list (list (option Q))) :=
  if negb (s_gfit s) then Err NotFittedError else
  match y with
  | None => Ok (div_count (s_saved s) (s_aff s))
  | Some _ =>
      x <~ cast_obs s y ;;
      gs <~ rmap (fun r => cluster (fst x) (r_w r) (r_theta r)) (s_sims s) ;;
      let n := length (fst x) in
      Ok (div_count (length (s_sims s))
            (fold_left (fun m g => add_matrix m (equal_matrix (fst g))) gs (repeat (repeat 0%nat n) n)))
  end.
(* _base.py:332-355 *)
Definition gibbs_spectral (s : ms) (y : option yarg) (k : Z) : res (list nat) :=
  if negb (s_gfit s) then Err NotFittedError else
  m <~ gibbs_eap_affinity_matrix s y ;; q_spectral E m k.

(* ------------------------------------------------------------------ *)
(* variational queries *)

(* var_theta and var_d are None until a fit has set them, i.e. while var_k is
   None *)
Definition get_vtheta (s : ms) : res (list vatom) :=
  match vk (s_var s) with None => Err TypeError | Some _ => Ok (vtheta (s_var s)) end.
Definition v_iter (s : ms) (comp : option Z) : res (list (Z * vatom)) :=
  t <~ get_vtheta s ;;
  match comp with
  | None => Ok (combine (map Z.of_nat (seq 0 (length t))) t)
  | Some j => a <~ py_nth t j ;; Ok [(j, a)]
  end.
(* v_mu_j[dim] and v_precision_j[:, dim][dim, :]: an int dim makes the second a
   vector indexed with two indices *)
Definition v_sub (dim : dimarg) (a : vatom) : res (vec * matr) :=
  match a with (mu, _, prec, _) =>
    match dim with
    | DList l => m <~ sub_vec l mu ;; p <~ sub_mat l prec ;; Ok (m, p)
    | DInt i => m <~ py_nth mu i ;; Err IndexError
    | DNone | DOther => Err TypeError
    end
  end.
Definition scale_mat (q : Q) (m : matr) : matr := map (map (fun x => x * q)) m.
Definition add_rows (a b : list Q) : list Q := map (fun q => fst q + snd q) (combine a b).
Fixpoint v_sum (f : Z * vatom -> res (list Q)) (acc : list Q) (l : list (Z * vatom)) : res (list Q) :=
  match l with [] => Ok acc | x :: t => r <~ f x ;; v_sum f (add_rows acc r) t end.
(* isinstance(dim, int) / len(dim); len(None) and len(other) raise *)
Definition len_dim (dim : dimarg) : res Q :=
  match dim with DInt _ => Ok 1 | DList l => Ok (nq (length l)) | DNone | DOther => Err TypeError end.
(* _base.py:489-535 *)
Definition var_eap_density (s : ms) (y : option yarg) (dim : dimarg) (comp : option Z) : res (list Q) :=
  if negb (s_vfit s) then Err NotFittedError else
  x <~ cast_obs s y ;;
  dim <~ (match dim with
          | DNone => if snd x then Err IndexError
                     else Ok (DList (map Z.of_nat (seq 0 (match y with
                          | None => s_dim s
                          | Some (YFrame _ k) | Some (YList2 _ k) | Some (YArr2 _ k) => k
                          | _ => 1%nat end))))
          | _ => Ok dim end) ;;
  ld <~ len_dim dim ;;
  it <~ v_iter s comp ;;
  v_sum (fun ja =>
     p <~ v_sub dim (snd ja) ;;
     match snd ja with (_, lam, _, scale) =>
       l <~ q_student E (fst x) (fst p) (scale_mat ((scale + 1 - ld) * lam / (1 + lam)) (snd p)) (scale + 1 - ld) ;;
       q <~ q_mean_w E (s_var s) (s_wm s) (fst ja) ;; Ok (map (fun v => v * q) l)
     end) (repeat 0 (length (fst x))) it.
(* _base.py:537-573 *)
Definition var_map_density (s : ms) (y : option yarg) (dim : dimarg) (comp : option Z) : res (list Q) :=
  if negb (s_vfit s) then Err NotFittedError else
  x <~ cast_obs s y ;;
  ld <~ len_dim dim ;;
  it <~ v_iter s comp ;;
  v_sum (fun ja =>
     p <~ v_sub dim (snd ja) ;;
     match snd ja with (_, _, _, scale) =>
       l <~ q_normal E (fst x) (fst p) (scale_mat (scale - ld) (snd p)) ;;
       q <~ q_mode_w E (s_var s) (s_wm s) (fst ja) ;; Ok (map (fun v => v * q) l)
     end) (repeat 0 (length (fst x))) it.

(* var_d.T @ var_d *)
Definition gram (D : matr) (n : nat) : matr :=
  map (fun i => map (fun j => qsum (map (fun r => nth i r 0 * nth j r 0) D)) (seq 0 n)) (seq 0 n).
Definition ncols (D : matr) : nat := match D with [] => 0%nat | r :: _ => length r end.
(* _base.py:575-618: y.shape is read from the argument itself *)
Definition var_eap_affinity_matrix (s : ms) (y : option yarg) : res matr :=
  if negb (s_vfit s) then Err NotFittedError else
  match y with
  | None => match vk (s_var s) with
            | None => Err AttributeError
            | Some _ => Ok (gram (vresp (s_var s)) (ncols (vresp (s_var s))))
            end
  | Some ya =>
      _ <~ cast_obs s y ;;
      match ya with
      | YArr2 l _ | YFrame l _ => t <~ get_vtheta s ;; D <~ q_resp E ya (s_var s) (s_wm s) ;; Ok (gram D (length l))
      | YArr1 _ => Err IndexError
      | _ => Err AttributeError
      end
  end.
(* _base.py:620-642 *)
Definition var_spectral (s : ms) (y : option yarg) (k : Z) : res (list nat) :=
  if negb (s_vfit s) then Err NotFittedError else
  m <~ var_eap_affinity_matrix s y ;; q_spectral E (map (map Some) m) k.

(* the second result of var_map_cluster(full=True): a vector for the training
   data, a matrix of rows for explicit data *)
Inductive vcluster := VCPlain (l : list nat) | VCVec (l : list nat) (u : list Q) | VCMat (l : list nat) (m : matr).
(* _base.py:644-693 *)
Definition var_map_cluster (s : ms) (y : option yarg) (full : bool) : res vcluster :=
  if negb (s_vfit s) then Err NotFittedError else
  match y with
  | None =>
      match vk (s_var s) with
      | None => Err AttributeError
      | Some _ =>
          let D := vresp (s_var s) in
          if is_nil D then Err ValueError else
          let lab := argmax0 D (ncols D) in
          Ok (if full then VCVec lab (map (fun ij => 1 - mat_at D (snd ij) (fst ij)) (combine (seq 0 (length lab)) lab))
              else VCPlain lab)
      end
  | Some ya =>
      x <~ cast_obs s y ;; t <~ get_vtheta s ;;
      D <~ q_resp E ya (s_var s) (s_wm s) ;;
      if is_nil D then Err ValueError else
      let lab := argmax0 D (length (fst x)) in
      if full then rows <~ rmap (fun j => match nth_error D j with Some r => Ok r | None => Err IndexError end) lab ;; Ok (VCMat lab rows)
      else Ok (VCPlain lab)
  end.
End Q.
(* _base.py:695-702 *)
Definition get_n_groups (s : ms) : list nat := s_groups s.
Definition get_n_theta (s : ms) : list nat := s_atoms s.
Definition get_sim_params (s : ms) : list rparams := s_sims s.
