(* Specification: two mixture objects whose weight models differ in kind but
   show the same weights. *)
From Verif Require Import Prelude Numpy Rng M_Weights M_Niw M_Utils M_Mix S_Hist.
Open Scope Q_scope.

(* everything but the weight model is equal, and the weight models show the
   same weights, labels and sticks *)
Definition twins (s1 s2 : ms) : Prop := s1 = upd_wm (s_wm s1) s2 /\ same_view (s_wm s1) (s_wm s2).
(* a Gibbs fit that does not start from a variational one *)
Definition plain_gibbs (op : mop) : Prop :=
  match op with MGibbs _ _ _ meth => meth <> IVariational | MVar _ _ _ _ _ => False end.
(* same outcome, same requests, twins afterwards *)
Definition same_fit (x y : res unit * ms * rng) : Prop :=
  match x, y with (r1, t1, g1), (r2, t2, g2) => r1 = r2 /\ g1 = g2 /\ twins t1 t2 end.
(* random(None), random(k) with a positive Python int, and any other call *)
Definition plain_sized (op : wop) : Prop :=
  match op with OpRandom SNone => True | OpRandom (SInt k) => (0 < k)%Z | OpRandom _ => False | _ => True end.
(* mixtures over the two classes, built with the same arguments *)
Definition born_twins (c1 c2 : cls) (o : oracle) (s1 s2 : ms) (g1 g2 : rng) : Prop :=
  exists p1 p2 n1 n2 mu lam psi nu total burn sub,
    new_mix c1 p1 n1 mu lam psi nu total burn sub o = Ok (s1, g1) /\ new_mix c2 p2 n2 mu lam psi nu total burn sub o = Ok (s2, g2).
