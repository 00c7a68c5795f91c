(* The variational weight methods for a negative j, as Python evaluates them;
   M_Var has j >= 0. *)
From Coq Require Import Reals.
From Verif Require Import Prelude Numpy Rng M_Weights M_Ext M_Var.
Open Scope R_scope.

(* l[-i], i >= 1; None is IndexError *)
Definition from_end {A} (l : list A) (i : nat) : option A :=
  if Nat.leb i (length l) then nth_error l (length l - i) else None.
Definition beta_end (s : vs) (i : nat) : option (R * R) :=
  match vpar s with PBeta l => from_end l i | _ => None end.
Definition neg (i : nat) : Z := (- Z.of_nat i)%Z.

(* variational_mean_w_j(-i), i >= 1; range(-i) is empty *)
Definition mean_w_neg (c : cls) (i : nat) (s : vs) : res ext :=
  match c, vk s with
  | CEqual, _ =>             (* _equal.py:44-45 *)
      if (vn s =? 0)%Z then Err ZeroDivisionError else Ok (EF (1 / IZR (vn s) * py_bool (neg i <? vn s)%Z))
  | (CBIB _ _ _ _ _ | CBID _ _ | CBB _ _ | CBBin _ _), _ => Err NotImplementedError
  | _, None => Err TypeError
  | CDP _, Some k =>         (* _dirichlet_process.py:116-126 *)
      if (k <=? neg i)%Z then Ok (EF 0) else
      if (neg i <? k - 1)%Z then opt_res (option_map (fun ab => ext_mul (EF 1) (ext_div (fst ab) (fst ab + snd ab))) (beta_end s i))
      else Ok (EF 1)
  | CPY _ _, Some k =>       (* _pitman_yor_process.py:134-142 *)
      if (k <? neg i)%Z then Ok (EF 0) else
      opt_res (option_map (fun ab => ext_mul (EF 1) (ext_div (fst ab) (fst ab + snd ab))) (beta_end s i))
  | CGeom _ _, Some k =>     (* _geometric_process.py:107-111; numpy powers: 0 ** -i is inf *)
      if (k <=? neg i)%Z then Ok (EF 1) else
      match vpar s with
      | PPair a b => Ok (match ext_div a (a + b) with
                         | EF p => if reqb (1 - p) 0 then EPI else EF (p * / (1 - p) ^ i)
                         | _ => ENaN end)
      | _ => Err TypeError
      end
  | CDirDist _ _, Some k =>  (* _dirichlet_distribution.py:96-99 *)
      if (k <? neg i)%Z then Ok (EF 0) else
      match vpar s with
      | PDir l => opt_res (option_map (fun a => ext_div a (rsum l)) (from_end l i))
      | _ => Err TypeError
      end
  | CFreq _, Some k =>       (* _frequency.py:61-64 *)
      if (k <=? neg i)%Z then Ok (EF 0) else
      match vd s with
      | Some D => opt_res (option_map (fun x => ext_div x (mat_sum D)) (from_end (row_sums D) i))
      | None => Err AttributeError
      end
  end.
(* variational_mode_w_j(-i), i >= 1 *)
Definition mode_w_neg (c : cls) (i : nat) (s : vs) : res (option ext) :=
  let num := rmap (fun x => Some (EF x)) in
  match c, vk s with
  | CEqual, _ =>             (* _equal.py:47-48 *)
      if (vn s =? 0)%Z then Err ZeroDivisionError else num (Ok (1 / IZR (vn s) * py_bool (neg i <? vn s)%Z))
  | (CBIB _ _ _ _ _ | CBID _ _ | CBB _ _ | CBBin _ _), _ => Err NotImplementedError
  | _, None => Err TypeError
  | CDP _, Some k =>         (* _dirichlet_process.py:128-153 *)
      if (k <=? neg i)%Z then num (Ok 0) else
      if (neg i =? k - 1)%Z then num (Ok 1) else
      match beta_end s i with Some (a, b) => num (mode_last a b 1) | None => Err IndexError end
  | CPY _ _, Some k =>       (* _pitman_yor_process.py:144-168 *)
      if (k <? neg i)%Z then num (Ok 0) else
      match beta_end s i with Some (a, b) => num (mode_last a b 1) | None => Err IndexError end
  | CGeom _ _, Some k =>     (* _geometric_process.py:113-126 *)
      if (k <? neg i)%Z then Ok None else
      match vpar s with
      | PPair a b =>
          if rleb a 1 then if rleb b 1 then Err ValueError else num (Ok 0)
          else if rleb b 1 then num (Ok (py_bool false))
          else let p := (a - 1) / (a + b - 2) in num (Ok (/ (1 - p) ^ i * p))
      | _ => Err TypeError
      end
  | CDirDist _ _, Some k =>  (* _dirichlet_distribution.py:101-114 *)
      if (k <? neg i)%Z then num (Ok 0) else
      match vpar s with
      | PDir l => match from_end l i with
          | None => Err IndexError
          | Some a =>
              if rleb a 1 then if rleb (rsum l - a) 1 then Err ValueError else num (Ok 0)
              else if rleb (rsum l - a) 1 then num (Ok 1) else num (Ok ((a - 1) / (rsum l - 2)))
          end
      | _ => Err TypeError
      end
  | CFreq _, Some k =>       (* _frequency.py:66-69 *)
      if (k <? neg i)%Z then num (Ok 0) else
      match vd s with
      | Some D => opt_res (option_map (fun x => Some (ext_div x (mat_sum D))) (from_end (row_sums D) i))
      | None => Err AttributeError
      end
  end.
(* variational_mean_log_w_j(-i), i >= 1 *)
Definition mean_log_w_neg (digamma : R -> R) (c : cls) (i : nat) (s : vs) : res ext :=
  match c with
  | CDP _ =>                 (* _dirichlet_process.py:69-81 *)
      match vd s, vk s with
      | None, _ => Err NotFittedError
      | _, None => Err TypeError
      | _, Some k =>
          if (k <=? neg i)%Z then Ok ENI else
          if (neg i <? k - 1)%Z then
            opt_res (option_map (fun ab => EF (0 + mean_log_beta digamma (fst ab) (snd ab))) (beta_end s i))
          else Ok (EF 0)
      end
  | CPY _ _ =>               (* _pitman_yor_process.py:85-95 *)
      match vd s with
      | None => Err NotFittedError
      | _ => opt_res (option_map (fun ab => EF (0 + mean_log_beta digamma (fst ab) (snd ab))) (beta_end s i))
      end
  | CGeom _ _ =>             (* _geometric_process.py:58-68 *)
      match vd s, vpar s with
      | None, _ => Err NotFittedError
      | _, PPair a b => Ok (EF (mean_log_beta digamma a b))
      | _, _ => Err IndexError
      end
  | CDirDist _ _ =>          (* _dirichlet_distribution.py:55-59 *)
      match vd s, vpar s with
      | None, _ => Err NotFittedError
      | _, PDir l => opt_res (option_map (fun a => EF (mean_log_beta digamma a (rsum l))) (from_end l i))
      | _, _ => Err TypeError
      end
  | CEqual =>                (* _equal.py:27-28 *)
      if (vn s =? 0)%Z then Err ZeroDivisionError else
      Ok (ext_scale (if (neg i <? vn s)%Z then 1 else 0) (ext_log (EF (1 / IZR (vn s)))))
  | CFreq _ =>               (* _frequency.py:32-39 *)
      match vd s, vk s with
      | None, _ => Err NotFittedError
      | _, None => Err TypeError
      | Some D, Some k =>
          if (k <=? neg i)%Z then Ok ENI else
          if Nat.eqb (cols D) 0 then
            (if (k =? 0)%Z then Err ZeroDivisionError else Ok (ext_log (EF (1 / IZR k))))
          else opt_res (option_map (fun x => ext_div x (mat_sum D)) (from_end (row_sums D) i))
      end
  | _ => Err NotImplementedError
  end.
