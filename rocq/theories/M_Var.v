(* The variational half of the weight models. *)
From Coq Require Import Reals Qreals.
From Verif Require Import Prelude Numpy Rng M_Weights M_Ext.
Open Scope R_scope.

(* variational_d: a k x N array, given by its rows; cols = N *)
Record mat := Mat { rows : list (list R); cols : nat }.
Definition row_sums (D : mat) : list R := map rsum (rows D).   (* np.sum(D, 1) *)
Definition mat_sum (D : mat) : R := rsum (row_sums D).         (* D.sum() *)

(* variational_params: None, a (k, 2) array, a pair, or a vector *)
Inductive vparams := PNone | PBeta (l : list (R * R)) | PPair (a b : R) | PDir (l : list R).

(* variational_d, variational_k, variational_params (weight_models/_base.py:20-22)
   and the attribute n of EqualWeighting/FrequencyWeighting/DirichletDistribution *)
Record vs := VS { vd : option mat; vk : option Z; vpar : vparams; vn : Z }.
Definition vs_init (n : Z) : vs := VS None None PNone n.

(* np.cumsum, and np.concatenate((np.cumsum(a_c[::-1])[-2::-1], [0])) *)
Fixpoint rcumsum_from (acc : R) (l : list R) : list R :=
  match l with [] => [] | x :: t => (acc + x) :: rcumsum_from (acc + x) t end.
Definition rtail (a : list R) : list R := rev (removelast (rcumsum_from 0 (rev a))) ++ [0].

Fixpoint pair2 (a b : list R) : list (R * R) :=
  match a, b with x :: a', y :: b' => (x, y) :: pair2 a' b' | _, _ => [] end.
(* numpy addition of two vectors; None is the shape error *)
Definition radd2 (a b : list R) : option (list R) :=
  match a, b with
  | _, [y] => Some (map (fun x => x + y) a)
  | [x], _ => Some (map (fun y => x + y) b)
  | _, _ => if Nat.eqb (length a) (length b) then Some (map (fun p => fst p + snd p) (pair2 a b)) else None
  end.

(* fit_variational; the state is returned with the outcome *)
Definition fit_var (c : cls) (D : mat) (s : vs) : res unit * vs :=
  let k := Z.of_nat (length (rows D)) in
  match c with
  | CDP alpha =>             (* _dirichlet_process.py:59-67 *)
      let a_c := row_sums D in
      (Ok tt, VS (Some D) (Some k) (PBeta (pair2 (map (fun x => 1 + x) a_c) (map (fun y => Q2R alpha + y) (rtail a_c)))) (vn s))
  | CPY pyd alpha =>         (* _pitman_yor_process.py:73-83 *)
      let a_c := row_sums D in
      (Ok tt, VS (Some D) (Some k) (PBeta (pair2 (map (fun x => 1 - Q2R pyd + x) a_c)
         (map (fun jy => Q2R alpha + (1 + INR (fst jy)) * Q2R pyd + snd jy)
              (combine (seq 0 (length (rows D))) (rtail a_c))))) (vn s))
  | CGeom a b =>             (* _geometric_process.py:47-56; without rows
                                variational_d[0] raises and the parameters stay
                                uninitialised (written PNone; what a
                                query then computes is not modelled) *)
      match rows D with
      | [] => (Err IndexError, VS (Some D) (Some k) PNone (vn s))
      | _ => (Ok tt, VS (Some D) (Some k)
               (PPair (Q2R a + INR (Nat.max (cols D) 1) - 1)
                      (Q2R b + rsum (map (fun jn => INR (fst jn) * snd jn)
                          (combine (seq 1 (length (rows D) - 1)) (tl (row_sums D)))))) (vn s))
      end
  | CDirDist n alpha =>      (* _dirichlet_distribution.py:46-53 *)
      if (k =? n)%Z then
        match radd2 (map Q2R alpha) (row_sums D) with
        | Some l => (Ok tt, VS (Some D) (Some n) (PDir l) (vn s))
        | None => (Err ValueError, VS (Some D) (Some n) (vpar s) (vn s))
        end
      else (Err AssertionError, s)
  | CEqual =>                (* _equal.py:22-25 *)
      (Ok tt, VS (Some D) (Some k) (vpar s) k)
  | CFreq _ =>               (* _frequency.py:26-30 *)
      (Ok tt, VS (Some D) (Some (if Nat.eqb (cols D) 0 then vn s else Z.of_nat (cols D))) (vpar s) (vn s))
  | CBIB _ _ _ _ _ | CBID _ _ | CBB _ _ | CBBin _ _ => (Err NotImplementedError, s)  (* _base.py:160-169 *)
  end.

Definition beta_at (s : vs) (j : nat) : option (R * R) :=
  match vpar s with PBeta l => nth_error l j | _ => None end.

Section Special.
Variables (digamma lgamma : R -> R).

(* utils/functions.py:27-28.  Only used with positive arguments. *)
Definition mean_log_beta (a b : R) : R := digamma a - digamma (a + b).

(* sum over jj in range(j) of mean_log_beta(params[jj][1], params[jj][0]);
   None is IndexError *)
Fixpoint log_rest (s : vs) (j : nat) : option R :=
  match j with
  | O => Some 0
  | S i => match log_rest s i, beta_at s i with
           | Some x, Some (a, b) => Some (x + mean_log_beta b a)
           | _, _ => None
           end
  end.
Definition opt_res {A} (x : option A) : res A := match x with Some a => Ok a | None => Err IndexError end.
Definition rmap {A B} (f : A -> B) (x : res A) : res B :=
  match x with Ok a => Ok (f a) | Err e => Err e | Diverge => Diverge end.

(* variational_mean_log_w_j, j >= 0 *)
Definition mean_log_w (c : cls) (j : nat) (s : vs) : res ext :=
  match c with
  | CDP _ =>                 (* _dirichlet_process.py:69-81 *)
      match vd s, vk s with
      | None, _ => Err NotFittedError
      | _, None => Err TypeError
      | _, Some k =>
          if (k <=? Z.of_nat j)%Z then Ok ENI else
          match log_rest s j with
          | None => Err IndexError
          | Some x =>
              if (Z.of_nat j <? k - 1)%Z then
                opt_res (option_map (fun ab => EF (x + mean_log_beta (fst ab) (snd ab))) (beta_at s j))
              else Ok (EF x)
          end
      end
  | CPY _ _ =>               (* _pitman_yor_process.py:85-95 *)
      match vd s with
      | None => Err NotFittedError
      | _ => match log_rest s j, beta_at s j with
             | Some x, Some (a, b) => Ok (EF (x + mean_log_beta a b))
             | _, _ => Err IndexError
             end
      end
  | CGeom _ _ =>             (* _geometric_process.py:58-68 *)
      match vd s, vpar s with
      | None, _ => Err NotFittedError
      | _, PPair a b => Ok (EF (if Nat.eqb j 0 then mean_log_beta a b else mean_log_beta a b + mean_log_beta b a * INR j))
      | _, _ => Err IndexError
      end
  | CDirDist _ _ =>          (* _dirichlet_distribution.py:55-59 *)
      match vd s, vpar s with
      | None, _ => Err NotFittedError
      | _, PDir l => opt_res (option_map (fun a => EF (mean_log_beta a (rsum l))) (nth_error l j))
      | _, _ => Err TypeError
      end
  | CEqual =>                (* _equal.py:27-28; False * NaN is NaN *)
      if (vn s =? 0)%Z then Err ZeroDivisionError else
      Ok (ext_scale (if (Z.of_nat j <? vn s)%Z then 1 else 0) (ext_log (EF (1 / IZR (vn s)))))
  | CFreq _ =>               (* _frequency.py:32-39 *)
      match vd s, vk s with
      | None, _ => Err NotFittedError
      | _, None => Err TypeError
      | Some D, Some k =>
          if (k <=? Z.of_nat j)%Z then Ok ENI else
          if Nat.eqb (cols D) 0 then
            (if (k =? 0)%Z then Err ZeroDivisionError else Ok (ext_log (EF (1 / IZR k))))
          else opt_res (option_map (fun x => ext_div x (mat_sum D)) (nth_error (row_sums D) j))
      end
  | _ => Err NotImplementedError
  end.

(* for j, nj in enumerate(np.sum(D, 1)): res += nj * variational_mean_log_w_j(j) *)
Fixpoint weigh_logs (f : nat -> res ext) (j : nat) (l : list R) (acc : ext) : res ext :=
  match l with
  | [] => Ok acc
  | n :: t => match f j with
              | Ok x => weigh_logs f (S j) t (ext_add acc (ext_scale n x))
              | Err e => Err e
              | Diverge => Diverge
              end
  end.

(* variational_mean_log_p_d__w; FrequencyWeighting replaces variational_d *)
Definition mean_log_pd (c : cls) (arg : option mat) (s : vs) : res ext * vs :=
  let D := match arg with Some D => Some D | None => vd s end in
  match c with
  | CDP _ | CPY _ _ | CDirDist _ _ =>   (* _dirichlet_process.py:83-93, _pitman_yor_process.py:97-107,
                                           _dirichlet_distribution.py:61-71 *)
      match D with
      | None => (Err NotFittedError, s)
      | Some D => (weigh_logs (fun j => mean_log_w c j s) 0 (row_sums D) (EF 0), s)
      end
  | CGeom _ _ =>             (* _geometric_process.py:70-85 *)
      match D with
      | None => (Err NotFittedError, s)
      | Some D => match vpar s with
          | PPair a b =>
              match rows D with
              | [] => (Err IndexError, s)
              | _ => (Ok (EF (fold_left (fun r n => r + n * mean_log_beta b a) (row_sums D)
                               (mean_log_beta a b * INR (cols D)))), s)
              end
          | _ => (Err TypeError, s)
          end
      end
  | CEqual =>                (* _equal.py:30-36 *)
      match D with
      | None => (Err NotFittedError, s)
      | Some D => (Ok (ext_scale (INR (cols D)) (ext_log (EF (IZR (vn s))))), s)
      end
  | CFreq _ =>               (* _frequency.py:41-49 *)
      match D with
      | None => (Err NotFittedError, s)
      | Some D => (Ok (ext_sum (map (fun n => ext_mul (EF n) (ext_log (ext_div n (mat_sum D)))) (row_sums D))),
                   VS (Some D) (vk s) (vpar s) (vn s))
      end
  | _ => (Err NotImplementedError, s)
  end.

(* the terms of the two log-densities of q *)
Definition q_term (ab : R * R) : R :=
  let (a, b) := ab in
  (a - 1) * mean_log_beta a b + (b - 1) * mean_log_beta b a + lgamma (a + b) - (lgamma a + lgamma b).
(* _dirichlet_distribution.py:116-124 *)
Definition log_norm (l : list R) : R := lgamma (rsum l) - rsum (map lgamma l).

(* variational_mean_log_p_w *)
Definition mean_log_p (c : cls) (s : vs) : res ext :=
  match c, vd s with
  | CEqual, _ => Ok (EF 0)                (* _equal.py:38-39 *)
  | (CBIB _ _ _ _ _ | CBID _ _ | CBB _ _ | CBBin _ _), _ => Err NotImplementedError
  | _, None => Err NotFittedError
  | CFreq _, _ => Ok (EF 0)               (* _frequency.py:51-54 *)
  | CDP alpha, _ =>                       (* _dirichlet_process.py:95-103 *)
      match vpar s, vk s with
      | PBeta l, Some k =>
          Ok (ext_add (EF (rsum (map (fun ab => mean_log_beta (snd ab) (fst ab)) (removelast l)) * (Q2R alpha - 1)))
                      (ext_scale (IZR k) (ext_log (EF (Q2R alpha)))))
      | _, _ => Err TypeError
      end
  | CPY pyd alpha, _ =>                   (* _pitman_yor_process.py:109-121 *)
      match vpar s with
      | PBeta l => Ok (EF (rsum (map (fun jab =>
            let '(j, (a, b)) := jab in
            mean_log_beta a b * - Q2R pyd + mean_log_beta b a * (Q2R alpha + (INR j + 1) * Q2R pyd - 1)
            + lgamma (Q2R alpha + INR j * Q2R pyd + 1) - lgamma (Q2R alpha + (INR j + 1) * Q2R pyd + 1)
            - lgamma (1 - Q2R pyd)) (combine (seq 0 (length l)) l))))
      | _ => Err TypeError
      end
  | CGeom a b, _ =>                       (* _geometric_process.py:87-95 *)
      match vpar s with
      | PPair x y => Ok (EF (mean_log_beta x y * (Q2R a - 1) + mean_log_beta y x * (Q2R b - 1)
                             + lgamma (Q2R a + Q2R b) - (lgamma (Q2R a) + lgamma (Q2R b))))
      | _ => Err TypeError
      end
  | CDirDist n alpha, _ =>                (* _dirichlet_distribution.py:73-82 *)
      match vpar s with
      | PDir l => if (n <=? Z.of_nat (length l))%Z
          then Ok (EF (log_norm (map Q2R alpha)
                       + rsum (map (fun a => mean_log_beta a (rsum l)) (firstn (Z.to_nat n) l)) * (rsum (map Q2R alpha) - 1)))
          else Err IndexError
      | _ => Err TypeError
      end
  end.

(* variational_mean_log_q_w *)
Definition mean_log_q (c : cls) (s : vs) : res ext :=
  match c, vd s with
  | CEqual, _ => Ok (EF 0)                (* _equal.py:41-42 *)
  | (CBIB _ _ _ _ _ | CBID _ _ | CBB _ _ | CBBin _ _), _ => Err NotImplementedError
  | _, None => Err NotFittedError
  | CFreq _, _ => Ok (EF 0)               (* _frequency.py:56-59 *)
  | CDP _, _ =>                           (* _dirichlet_process.py:105-114 *)
      match vpar s with PBeta l => Ok (EF (rsum (map q_term (removelast l)))) | _ => Err TypeError end
  | CPY _ _, _ =>                         (* _pitman_yor_process.py:123-132 *)
      match vpar s with PBeta l => Ok (EF (rsum (map q_term l))) | _ => Err TypeError end
  | CGeom _ _, _ =>                       (* _geometric_process.py:97-105 *)
      match vpar s with PPair a b => Ok (EF (q_term (a, b))) | _ => Err TypeError end
  | CDirDist n _, _ =>                    (* _dirichlet_distribution.py:84-94 *)
      match vpar s with
      | PDir l => if (n <=? Z.of_nat (length l))%Z
          then Ok (EF (rsum (map (fun a => (a - 1) * mean_log_beta a (rsum l)) (firstn (Z.to_nat n) l)) + log_norm l))
          else Err IndexError
      | _ => Err TypeError
      end
  end.
End Special.

(* product over jj in range(j) of params[jj][1] / params[jj].sum() *)
Fixpoint mean_rest (s : vs) (j : nat) : option ext :=
  match j with
  | O => Some (EF 1)
  | S i => match mean_rest s i, beta_at s i with
           | Some x, Some (a, b) => Some (ext_mul x (ext_div b (a + b)))
           | _, _ => None
           end
  end.
Definition py_bool (b : bool) : R := if b then 1 else 0.

(* variational_mean_w_j, j >= 0 *)
Definition mean_w (c : cls) (j : nat) (s : vs) : res ext :=
  let jz := Z.of_nat j in
  match c, vk s with
  | CEqual, _ =>             (* _equal.py:44-45 *)
      if (vn s =? 0)%Z then Err ZeroDivisionError else Ok (EF (1 / IZR (vn s) * py_bool (jz <? vn s)%Z))
  | (CBIB _ _ _ _ _ | CBID _ _ | CBB _ _ | CBBin _ _), _ => Err NotImplementedError
  | _, None => Err TypeError                     (* j >= None *)
  | CDP _, Some k =>         (* _dirichlet_process.py:116-126 *)
      if (k <=? jz)%Z then Ok (EF 0) else
      match mean_rest s j with
      | None => Err IndexError
      | Some x => if (jz <? k - 1)%Z
                  then opt_res (option_map (fun ab => ext_mul x (ext_div (fst ab) (fst ab + snd ab))) (beta_at s j))
                  else Ok x
      end
  | CPY _ _, Some k =>       (* _pitman_yor_process.py:134-142 *)
      if (k <? jz)%Z then Ok (EF 0) else
      match mean_rest s j, beta_at s j with
      | Some x, Some (a, b) => Ok (ext_mul x (ext_div a (a + b)))
      | _, _ => Err IndexError
      end
  | CGeom _ _, Some k =>     (* _geometric_process.py:107-111; a zero sum of
                                parameters is written NaN *)
      if (k <=? jz)%Z then Ok (EF 1) else
      match vpar s with
      | PPair a b => Ok (match ext_div a (a + b) with EF p => EF (p * (1 - p) ^ j) | _ => ENaN end)
      | _ => Err TypeError
      end
  | CDirDist _ _, Some k =>  (* _dirichlet_distribution.py:96-99 *)
      if (k <? jz)%Z then Ok (EF 0) else
      match vpar s with
      | PDir l => opt_res (option_map (fun a => ext_div a (rsum l)) (nth_error l j))
      | _ => Err TypeError
      end
  | CFreq _, Some k =>       (* _frequency.py:61-64 *)
      if (k <=? jz)%Z then Ok (EF 0) else
      match vd s with
      | Some D => opt_res (option_map (fun x => ext_div x (mat_sum D)) (nth_error (row_sums D) j))
      | None => Err AttributeError
      end
  end.

(* The loop of variational_mode_w_j over jj in range(j), _dirichlet_process.py:132-141,
   _pitman_yor_process.py:148-157: raise, return 0 at once, or go on with res *)
Inductive mloop := MRaise (e : exn) | MZero | MGo (r : R).
Fixpoint mode_rest (s : vs) (j : nat) : mloop :=
  match j with
  | O => MGo 1
  | S i => match mode_rest s i with
           | MGo r => match beta_at s i with
               | None => MRaise IndexError
               | Some (a, b) =>
                   if rleb b 1 then if rleb a 1 then MRaise ValueError else MZero
                   else if rleb a 1 then MGo r else MGo (r * ((b - 1) / (a + b - 2)))
               end
           | x => x
           end
  end.
(* the last part: _dirichlet_process.py:144-153, _pitman_yor_process.py:159-168 *)
Definition mode_last (a b r : R) : res R :=
  if rleb a 1 then if rleb b 1 then Err ValueError else Ok 0
  else if rleb b 1 then Ok r else Ok (r * ((a - 1) / (a + b - 2))).

(* variational_mode_w_j, j >= 0; None is Python's None *)
Definition mode_w (c : cls) (j : nat) (s : vs) : res (option ext) :=
  let jz := Z.of_nat j in
  let num := rmap (fun x => Some (EF x)) in
  match c, vk s with
  | CEqual, _ =>             (* _equal.py:47-48 *)
      if (vn s =? 0)%Z then Err ZeroDivisionError else num (Ok (1 / IZR (vn s) * py_bool (jz <? vn s)%Z))
  | (CBIB _ _ _ _ _ | CBID _ _ | CBB _ _ | CBBin _ _), _ => Err NotImplementedError
  | _, None => Err TypeError
  | CDP _, Some k =>         (* _dirichlet_process.py:128-153 *)
      if (k <=? jz)%Z then num (Ok 0) else
      match mode_rest s j with
      | MRaise e => Err e
      | MZero => num (Ok 0)
      | MGo r => if (jz =? k - 1)%Z then num (Ok r) else
          match beta_at s j with Some (a, b) => num (mode_last a b r) | None => Err IndexError end
      end
  | CPY _ _, Some k =>       (* _pitman_yor_process.py:144-168 *)
      if (k <? jz)%Z then num (Ok 0) else
      match mode_rest s j with
      | MRaise e => Err e
      | MZero => num (Ok 0)
      | MGo r => match beta_at s j with Some (a, b) => num (mode_last a b r) | None => Err IndexError end
      end
  | CGeom _ _, Some k =>     (* _geometric_process.py:113-126 *)
      if (k <? jz)%Z then Ok None else
      match vpar s with
      | PPair a b =>
          if rleb a 1 then if rleb b 1 then Err ValueError else num (Ok 0)
          else if rleb b 1 then num (Ok (py_bool (Nat.eqb j 0)))
          else let p := (a - 1) / (a + b - 2) in num (Ok ((1 - p) ^ j * p))
      | _ => Err TypeError
      end
  | CDirDist _ _, Some k =>  (* _dirichlet_distribution.py:101-114 *)
      if (k <? jz)%Z then num (Ok 0) else
      match vpar s with
      | PDir l => match nth_error l j with
          | None => Err IndexError
          | Some a =>
              if rleb a 1 then if rleb (rsum l - a) 1 then Err ValueError else num (Ok 0)
              else if rleb (rsum l - a) 1 then num (Ok 1) else num (Ok ((a - 1) / (rsum l - 2)))
          end
      | _ => Err TypeError
      end
  | CFreq _, Some k =>       (* _frequency.py:66-69 *)
      if (k <? jz)%Z then num (Ok 0) else
      match vd s with
      | Some D => opt_res (option_map (fun x => Some (ext_div x (mat_sum D))) (nth_error (row_sums D) j))
      | None => Err AttributeError
      end
  end.
