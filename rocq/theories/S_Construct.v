(* Specification vocabulary for the constructors of the mixture classes. *)
From Coq Require Import String.
From Verif Require Import Prelude Numpy M_Mix M_Construct.
Open Scope string_scope.

(* the parameters of the weight model of each class, with defaults *)
Definition weight_params (c : mclass) : list (string * cval) :=
  match c with
  | XDirDist => [("n", CvInt 1); ("alpha", CvInt 1)]
  | XDP => [("alpha", CvInt 1)]
  | XPY => [("pyd", CvInt 0); ("alpha", CvInt 1)]
  | XGeom => [("a", CvInt 1); ("b", CvInt 1)]
  | XBIB => [("x", CvInt 0); ("alpha", CvInt 1); ("a", CvInt 1); ("b", CvInt 1); ("p_method", CvStr "geometric")]
  | XBID => [("alpha", CvInt 1); ("a", CvInt 0)]
  | XBB => [("p", CvInt 1); ("alpha", CvInt 1)]
  | XBBin => [("n", CvInt 0); ("alpha", CvInt 1)]
  | XEqual | XFreq => [("n", CvInt 1)]
  end.
(* the documented parameters of every mixture *)
Definition mixture_params : list (string * cval) :=
  [("mu_prior", CvNone); ("lambda_prior", CvInt 1); ("psi_prior", CvNone); ("nu_prior", CvNone);
   ("total_iter", CvInt 1000); ("burn_in", CvInt 100); ("subsample_steps", CvInt 1); ("rng", CvNone)].
Definition takes_show_progress (c : mclass) : Prop := c <> XBIB /\ c <> XBBin.
Definition parameter (c : mclass) (k : string) (d : cval) : Prop :=
  In (k, d) (weight_params c) \/ In (k, d) mixture_params \/ (takes_show_progress c /\ k = "show_progress" /\ d = CvBool false).

Definition distinct (kw : kwargs) : Prop := NoDup (map fst kw).
(* the value of a parameter in a call *)
Definition given (kw : kwargs) (k : string) (d v : cval) : Prop :=
  In (k, v) kw \/ (~ In k (map fst kw) /\ v = d).
Definition all_parameters (c : mclass) (kw : kwargs) : Prop := Forall (fun kv => exists d, parameter c (fst kv) d) kw.

(* a generator argument that is accepted *)
Definition rng_fine (v : cval) : Prop := v = CvNone \/ (exists i, v = CvGen i) \/ exists z, v = CvInt z /\ (0 <= z)%Z.
(* arguments that the weight model accepts *)
Definition weight_fine (c : mclass) (kw : kwargs) : Prop :=
  (exists r, given kw "rng" CvNone r /\ rng_fine r) /\
  match c with
  | XDirDist => exists n, given kw "n" (CvInt 1) (CvInt n)
  | XPY => exists vy va y al, given kw "pyd" (CvInt 0) vy /\ given kw "alpha" (CvInt 1) va /\ num_of vy = Some y /\ num_of va = Some al /\ (0 < al + y)%Q
  | XGeom => exists va vb a b, given kw "a" (CvInt 1) va /\ given kw "b" (CvInt 1) vb /\ num_of va = Some a /\ num_of vb = Some b /\ (0 < a)%Q /\ (0 < b)%Q
  | XBIB => exists m, given kw "p_method" (CvStr "geometric") (CvStr m) /\
      In m ["static"; "independent"; "geometric"; "rejection-sampling"; "max-likelihood"; "inverse-sampling"]
  | _ => True
  end.
Definition iterations (kw : kwargs) (t b k : Q) : Prop :=
  exists vt vb vk, given kw "total_iter" (CvInt 1000) vt /\ given kw "burn_in" (CvInt 100) vb /\ given kw "subsample_steps" (CvInt 1) vk /\
    num_of vt = Some t /\ num_of vb = Some b /\ num_of vk = Some k.

Definition attribute (m : mobj) (k : string) (v : cval) : Prop := In (k, v) (wo_attr (mo_weight m)).
(* every argument is stored under its name; a number alpha of a Dirichlet
   distribution is repeated n times, another type is dropped *)
Definition stores (c : mclass) (kw : kwargs) (m : mobj) : Prop :=
  wo_class (mo_weight m) = c /\
  (forall k d v, In (k, d) (weight_params c) -> given kw k d v -> (c = XDirDist -> k <> "alpha") -> attribute m k v) /\
  (forall v, given kw "mu_prior" CvNone v -> mo_mu m = v) /\
  (forall v, given kw "lambda_prior" (CvInt 1) v -> mo_lambda m = v) /\
  (forall v, given kw "psi_prior" CvNone v -> mo_psi m = v) /\
  (forall v, given kw "nu_prior" CvNone v -> mo_nu m = v) /\
  (forall v, given kw "rng" CvNone v -> mo_rng m = v) /\
  (forall v, given kw "show_progress" (CvBool false) v -> mo_show m = v).
