(* The constructors of the ten mixture classes: which keywords they take and
   where the values go. *)
From Coq Require Import String.
From Verif Require Import Prelude Numpy Rng M_Weights M_Mix.
Open Scope string_scope.

(* The values of arguments.  A bool, a numpy number and a Python number have
   different types and compare as numbers. *)
Inductive cval :=
| CvNone | CvBool (b : bool) | CvInt (z : Z) | CvFloat (q : Q) | CvNpInt (z : Z) | CvNpFloat (q : Q)
| CvStr (s : string) | CvList (l : list Q) | CvArr (l : list Q) | CvGen (i : nat) | CvOther.
Definition num_of (v : cval) : option Q :=
  match v with
  | CvBool b => Some (if b then 1 else 0)%Q
  | CvInt z | CvNpInt z => Some (zq z)
  | CvFloat q | CvNpFloat q => Some q
  | _ => None
  end.

Definition kwargs := list (string * cval).
Fixpoint find_key (k : string) (kw : kwargs) : option cval :=
  match kw with
  | [] => None
  | (k', v) :: t => if String.eqb k k' then Some v else find_key k t
  end.
Definition key_in (k : string) (l : kwargs) : bool := match find_key k l with Some _ => true | None => false end.
Definition key_or (k : string) (d : cval) (kw : kwargs) : cval := match find_key k kw with Some v => v | None => d end.

Inductive mclass := XDirDist | XDP | XPY | XGeom | XBIB | XBID | XBB | XBBin | XEqual | XFreq.

(* mixture_models/_base.py:55-58, without weight_model *)
Definition base_sig : kwargs :=
  [("mu_prior", CvNone); ("lambda_prior", CvInt 1); ("psi_prior", CvNone); ("nu_prior", CvNone);
   ("total_iter", CvInt 1000); ("burn_in", CvInt 100); ("subsample_steps", CvInt 1);
   ("show_progress", CvBool false); ("rng", CvNone)].

(* The keyword-only parameters of each class with their defaults, and whether
   there is a **kwargs: _dirichlet_distribution_mixture.py:6,
   _dirichlet_process_mixture.py:6, _pitman_yor_process_mixture.py:6,
   _geometric_process_mixture.py:6, _beta_in_beta_mixture.py:6-9,
   _beta_in_dirichlet_mixture.py:6, _beta_bernoulli_mixture.py:6,
   _beta_binomial_mixture.py:6-8, _equal_weighted_mixture.py:6,
   _frequency_weighted_mixture.py:6 *)
Definition mix_sig (c : mclass) : kwargs * bool :=
  match c with
  | XDirDist => ([("n", CvInt 1); ("alpha", CvInt 1); ("rng", CvNone)], true)
  | XDP => ([("alpha", CvInt 1); ("rng", CvNone)], true)
  | XPY => ([("alpha", CvInt 1); ("pyd", CvInt 0); ("rng", CvNone)], true)
  | XGeom => ([("a", CvInt 1); ("b", CvInt 1); ("rng", CvNone)], true)
  | XBIB => ([("x", CvInt 0); ("alpha", CvInt 1); ("a", CvInt 1); ("b", CvInt 1); ("mu_prior", CvNone);
              ("lambda_prior", CvInt 1); ("psi_prior", CvNone); ("nu_prior", CvNone); ("p_method", CvStr "geometric");
              ("total_iter", CvInt 1000); ("burn_in", CvInt 100); ("subsample_steps", CvInt 1); ("rng", CvNone)], false)
  | XBID => ([("alpha", CvInt 1); ("a", CvInt 0); ("rng", CvNone)], true)
  | XBB => ([("p", CvInt 1); ("alpha", CvInt 1); ("rng", CvNone)], true)
  | XBBin => ([("n", CvInt 0); ("alpha", CvInt 1); ("mu_prior", CvNone); ("lambda_prior", CvInt 1); ("psi_prior", CvNone);
               ("nu_prior", CvNone); ("total_iter", CvInt 1000); ("burn_in", CvInt 100); ("subsample_steps", CvInt 1);
               ("rng", CvNone)], false)
  | XEqual => ([("n", CvInt 1); ("rng", CvNone)], true)
  | XFreq => ([("n", CvInt 1); ("rng", CvNone)], true)
  end.

(* Python's binding of keyword arguments: the values of the parameters and what
   is left for **kwargs; TypeError for an unexpected keyword without **kwargs. *)
Definition bind_kw (sig : kwargs) (open : bool) (kw : kwargs) : res (kwargs * kwargs) :=
  let rest := filter (fun kv => negb (key_in (fst kv) sig)) kw in
  if negb open && negb (is_nil rest) then Err TypeError
  else Ok (map (fun kd => (fst kd, key_or (fst kd) (snd kd) kw)) sig, rest).

(* utils/validators.py:4-11 and the ValueError of default_rng on a negative seed *)
Definition check_rng (v : cval) : res unit :=
  match v with
  | CvNone | CvGen _ => Ok tt
  | CvInt z => if (z <? 0)%Z then Err ValueError else Ok tt
  | _ => Err TypeError
  end.

Definition p_methods : list string :=
  ["static"; "independent"; "geometric"; "rejection-sampling"; "max-likelihood"; "inverse-sampling"].

(* A weight model as the attributes its constructor stores. *)
Record wobj := WObj { wo_class : mclass; wo_attr : kwargs }.
Definition argv (k : string) (env : kwargs) : cval := key_or k CvNone env.

(* The constructor calls of the weight models, weight_models/_base.py:16-17 and
   the __init__ of each class.  Non-numbers for pyd, alpha (Pitman-Yor) and a, b
   (geometric) become TypeError; numpy converts some of them. *)
Definition weight_new (c : mclass) (env : kwargs) : res wobj :=
  match check_rng (argv "rng" env) with
  | Err e => Err e
  | Diverge => Diverge
  | Ok _ =>
    match c with
    | XDirDist =>                                  (* _dirichlet_distribution.py:10-18 *)
        match argv "n" env with
        | CvInt n =>
            Ok (WObj c (("n", CvInt n) ::
              match argv "alpha" env with
              | CvList l | CvArr l => [("alpha", CvArr l)]
              | CvInt z => [("alpha", CvArr (repeat (zq z) (Z.to_nat n)))]
              | CvFloat q => [("alpha", CvArr (repeat q (Z.to_nat n)))]
              | _ => []
              end))
        | _ => Err AssertionError
        end
    | XDP => Ok (WObj c [("alpha", argv "alpha" env)])                       (* _dirichlet_process.py:12-15 *)
    | XPY =>                                                                 (* _pitman_yor_process.py:10-16 *)
        match num_of (argv "pyd" env), num_of (argv "alpha" env) with
        | Some y, Some al => if qltb (- y) al then Ok (WObj c [("pyd", argv "pyd" env); ("alpha", argv "alpha" env); ("truncation_length", CvInt (-1))])
                             else Err AssertionError
        | _, _ => Err TypeError
        end
    | XGeom =>                                                               (* _geometric_process.py:9-13 *)
        match num_of (argv "a" env), num_of (argv "b" env) with
        | Some a, Some b => if allpos [(a, b)] then Ok (WObj c [("a", argv "a" env); ("b", argv "b" env)]) else Err ValueError
        | _, _ => Err TypeError
        end
    | XBIB =>                                                                (* _beta_in_beta.py:11-24, 141-146 *)
        match argv "p_method" env with
        | CvStr m => if existsb (String.eqb m) p_methods
                     then Ok (WObj c [("x", argv "x" env); ("a", argv "a" env); ("b", argv "b" env); ("alpha", argv "alpha" env);
                                      ("p", CvInt 0); ("p_method", CvStr m); ("p_optim_max_steps", CvInt 10)])
                     else Err ValueError
        | _ => Err ValueError
        end
    | XBID => Ok (WObj c [("a", argv "a" env); ("alpha", argv "alpha" env)])  (* _beta_in_dirichlet.py:10-17 *)
    | XBB => Ok (WObj c [("p", argv "p" env); ("alpha", argv "alpha" env)])   (* _beta_bernoulli.py:10-16 *)
    | XBBin => Ok (WObj c [("n", argv "n" env); ("alpha", argv "alpha" env)]) (* _beta_binomial.py:9-15 *)
    | XEqual | XFreq => Ok (WObj c [("n", argv "n" env)])                     (* _equal.py:7-9, _frequency.py:7-9 *)
    end
  end.

(* A mixture as constructed. *)
Record mobj := MObj {
  mo_weight : wobj; mo_n : option cval; mo_total : Z; mo_burn : Z; mo_sub : Z;
  mo_mu : cval; mo_lambda : cval; mo_psi : cval; mo_nu : cval; mo_show : cval; mo_rng : cval }.

(* _base.py:55-99.  Strings and arrays as iteration settings become TypeError
   (int("5") and comparisons of two strings are not modelled). *)
Definition base_new (wm : wobj) (n : option cval) (kw : kwargs) : res mobj :=
  if key_in "weight_model" kw then Err TypeError else    (* multiple values for the keyword *)
  match bind_kw base_sig false kw with
  | Ok (env, _) =>
    match num_of (argv "total_iter" env), num_of (argv "burn_in" env) with
    | Some t, Some b =>
        if qltb b t then
          match check_rng (argv "rng" env) with
          | Ok _ =>
              match num_of (argv "subsample_steps" env) with
              | Some k => Ok (MObj wm n (py_int t) (py_int b) (py_int k) (argv "mu_prior" env) (argv "lambda_prior" env)
                                (argv "psi_prior" env) (argv "nu_prior" env) (argv "show_progress" env) (argv "rng" env))
              | None => Err TypeError
              end
          | Err e => Err e
          | Diverge => Diverge
          end
        else Err AssertionError
    | _, _ => Err TypeError
    end
  | Err e => Err e
  | Diverge => Diverge
  end.

(* self.n = n: _dirichlet_distribution_mixture.py:8, _equal_weighted_mixture.py:8,
   _frequency_weighted_mixture.py:8 *)
Definition own_n (c : mclass) (env : kwargs) : option cval :=
  match c with XDirDist | XEqual | XFreq => Some (argv "n" env) | _ => None end.
(* the names the two closed classes pass on, _beta_in_beta_mixture.py:12-16 and
   _beta_binomial_mixture.py:10-14 *)
Definition passed_on : list string :=
  ["mu_prior"; "lambda_prior"; "psi_prior"; "nu_prior"; "total_iter"; "burn_in"; "subsample_steps"; "rng"].

(* C(k1=v1, ...): the mixture files named at [mix_sig]. *)
Definition mix_new (c : mclass) (kw : kwargs) : res mobj :=
  let '(sig, open) := mix_sig c in
  match bind_kw sig open kw with
  | Ok (env, rest) =>
      match weight_new c env with
      | Ok wm => base_new wm (own_n c env)
                   (if open then ("rng", argv "rng" env) :: rest else map (fun k => (k, argv k env)) passed_on)
      | Err e => Err e
      | Diverge => Diverge
      end
  | Err e => Err e
  | Diverge => Diverge
  end.
