(* Histories of calls on a weight object, as hypotheses of theorems. *)
From Verif Require Import Prelude Numpy Rng M_Weights S_Weights.
Open Scope Q_scope.

(* the seven stick-breaking models: their weights grow on demand *)
Definition stick_breaking (c : cls) : Prop :=
  match c with CDirDist _ _ | CEqual | CFreq _ => False | _ => True end.

(* random is called with no size or with a positive integer *)
Definition positive_size (z : pysize) : Prop :=
  match z with SNone => True | SInt k | SNp64 k => (0 < k)%Z | SOther => False end.
Definition regular_op (op : wop) : Prop :=
  match op with OpRandom z => positive_size z | _ => True end.

(* (s, g) is reached from a freshly built object by regular calls that all
   return normally *)
Definition reached (c : cls) (o : oracle) (s : ws) (g : rng) : Prop :=
  exists parg narg ops s0 g0,
    (forall x al a b pm, c = CBIB x al a b pm -> in01 parg) /\
    new_ws c parg narg o = Ok (s0, g0) /\
    Forall regular_op ops /\
    exec_ops c ops o s0 g0 = (Ok tt, s, g).

(* every call but random: none of them is meant to redraw existing weights *)
Definition keeps_op (op : wop) : Prop := match op with OpRandom _ => False | _ => True end.

(* n times complete(get_size() + 1): the growth that tail asks for *)
Fixpoint grow_n (c : cls) (n : nat) : M ws unit :=
  match n with
  | O => ret tt
  | S k => bind get (fun s => bind (wm_complete c (SInt (Z.of_nat (length (w s)) + 1))) (fun _ => grow_n c k))
  end.

(* classes whose new sticks are (copies of) beta draws *)
Definition drawn_sticks (c : cls) : Prop :=
  match c with
  | CDP _ | CPY _ _ | CBID _ _ | CBB _ _ | CBBin _ _ => True
  | CBIB x _ _ _ _ => x < 1
  | _ => False
  end.

(* the fixed-size models, with at least one component *)
Definition fixed_ok (c : cls) : Prop :=
  match c with CDirDist _ al => al <> [] | CEqual | CFreq _ => True | _ => False end.

(* two objects that cannot be told apart by their weights, labels and sticks *)
Definition same_view (s1 s2 : ws) : Prop := w s1 = w s2 /\ d s1 = d s2 /\ v s1 = v s2.
(* same result, same requests, states related by R *)
Definition same_call {A} (R : ws -> ws -> Prop) (x y : res A * ws * rng) : Prop :=
  match x, y with (r1, t1, g1), (r2, t2, g2) => r1 = r2 /\ g1 = g2 /\ R t1 t2 end.
(* sizes that DirichletProcess.random accepts: None or a Python int *)
Definition int_or_none (z : pysize) : Prop := match z with SNone | SInt _ => True | _ => False end.
Definition int_sized (op : wop) : Prop := match op with OpRandom z => int_or_none z | _ => True end.

(* classes whose random() is meant to read only the fitted labels (and
   EqualWeighting's n) *)
Definition memoryless (c : cls) : Prop :=
  match c with CBIB _ _ _ _ _ | CBID _ _ | CBB _ _ => False | _ => True end.

(* number of weights after random(size): n = attribute n of EqualWeighting,
   dd = fitted labels *)
Definition random_length (c : cls) (n : Z) (dd : list nat) (size : pysize) : nat :=
  let m := S (list_max dd) in
  let k := match size with SInt z | SNp64 z => Z.to_nat z | _ => m end in
  match c with
  | CDirDist _ al => length al                               (* size ignored *)
  | CEqual => Z.to_nat n                                     (* size ignored *)
  | CFreq n0 => match dd with [] => Z.to_nat n0 | _ => m end  (* size ignored *)
  | CBID _ _ => match dd with [] => k | _ => m end           (* size ignored once fitted *)
  | CBB _ _ | CBBin _ _ => match dd with [] => k | _ => Nat.max m k end  (* at least max(d)+1 *)
  | CDP _ | CPY _ _ | CGeom _ _ | CBIB _ _ _ _ _ => k        (* exactly size *)
  end.

(* BetaInDirichlet: number of latent labels equal to 0 .. k-1 *)
Definition counts_of (labels : list nat) (k : nat) : list nat := map (fun j => n_eq j labels) (seq 0 k).
(* consistent latent state after a fitted draw: one label per component, every
   label points at a base stick, the counts count them, sticks are looked up *)
Definition bid_fit_state (a : Q) (dd : list nat) (s' : ws) : Prop :=
      length (dbase s') = S (list_max dd) /\
      Forall (fun j => (j < length (vbase s'))%nat) (dbase s') /\
      cbase s' = counts_of (dbase s') (length (vbase s')) /\
      v s' = map (fun j => nth j (vbase s') 0) (dbase s') /\
      (a == 0 -> exists x, v s' = repeat x (S (list_max dd))).
