(* Model of pyrichlet/weight_models/*.py (sampling side).
   One record [ws] carries the mutable attributes of all ten classes (a class
   uses only the attributes it has in Python); [cls] carries the constructor
   parameters that no method changes.  Labels in d are non-negative integers
   (np.bincount requires it). *)
From Coq Require Import QArith.Qround.
From Verif Require Import Prelude Numpy Rng.
Open Scope Q_scope.
Open Scope m_scope.

(* _beta_in_beta.py:141-146 lists the accepted strings *)
Inductive pmethod := PStatic | PIndependent | PGeometric | PRejection
                   | PMaxLik | PInvSampling.

Inductive cls :=
| CDirDist (n : Z) (alpha : list Q)      (* _dirichlet_distribution.py:11-19 *)
| CDP (alpha : Q)                        (* _dirichlet_process.py:10-13 *)
| CPY (pyd alpha : Q)                    (* _pitman_yor_process.py:10-16 *)
| CGeom (a b : Q)                        (* _geometric_process.py:10-16 *)
| CBIB (x alpha a b : Q) (pm : pmethod)  (* _beta_in_beta.py:11-24 *)
| CBID (alpha a : Q)                     (* _beta_in_dirichlet.py:10-17 *)
| CBB (p alpha : Q)                      (* _beta_bernoulli.py:9-14 *)
| CBBin (n : Z) (alpha : Q)              (* _beta_binomial.py:9-15 *)
| CEqual                                 (* _equal.py:8-10; n is mutable, see ws_n *)
| CFreq (n : Z).                         (* _frequency.py:8-10 *)

Record ws := mkws {
  w : list Q;            (* self.w *)
  d : list nat;          (* self.d *)
  v : list Q;            (* self.v *)
  p : Q;                 (* self.p   (GeometricProcess, BetaInBeta) *)
  bern : list nat;       (* self.bernoullis *)
  binoms : list Z;       (* self.binomials *)
  vbase : list Q;        (* self._v_base *)
  dbase : list nat;      (* self._d_base *)
  cbase : list nat;      (* self._count_base *)
  wn : Z                 (* self.n of EqualWeighting *)
}.

Definition set_w x (s : ws) := mkws x (d s) (v s) (p s) (bern s) (binoms s) (vbase s) (dbase s) (cbase s) (wn s).
Definition set_d x (s : ws) := mkws (w s) x (v s) (p s) (bern s) (binoms s) (vbase s) (dbase s) (cbase s) (wn s).
Definition set_v x (s : ws) := mkws (w s) (d s) x (p s) (bern s) (binoms s) (vbase s) (dbase s) (cbase s) (wn s).
Definition set_p x (s : ws) := mkws (w s) (d s) (v s) x (bern s) (binoms s) (vbase s) (dbase s) (cbase s) (wn s).
Definition set_bern x (s : ws) := mkws (w s) (d s) (v s) (p s) x (binoms s) (vbase s) (dbase s) (cbase s) (wn s).
Definition set_binoms x (s : ws) := mkws (w s) (d s) (v s) (p s) (bern s) x (vbase s) (dbase s) (cbase s) (wn s).
Definition set_vbase x (s : ws) := mkws (w s) (d s) (v s) (p s) (bern s) (binoms s) x (dbase s) (cbase s) (wn s).
Definition set_dbase x (s : ws) := mkws (w s) (d s) (v s) (p s) (bern s) (binoms s) (vbase s) x (cbase s) (wn s).
Definition set_cbase x (s : ws) := mkws (w s) (d s) (v s) (p s) (bern s) (binoms s) (vbase s) (dbase s) x (wn s).
Definition set_wn x (s : ws) := mkws (w s) (d s) (v s) (p s) (bern s) (binoms s) (vbase s) (dbase s) (cbase s) x.

(* Attributes right after construction: _base.py:15-22 and each __init__.
   bernoullis starts as [1] (_beta_bernoulli.py:14). *)
Definition ws_init (p0 : Q) (n0 : Z) : ws := mkws [] [] [] p0 [1%nat] [] [] [] [] n0.

(* The constructors.  [parg] is BetaInBeta's argument p (_beta_in_beta.py:19),
   [narg] is EqualWeighting's n (_equal.py:10); the other classes have no such
   mutable attribute.  GeometricProcess draws p (_geometric_process.py:14),
   PitmanYorProcess asserts -pyd < alpha (_pitman_yor_process.py:12). *)
Definition new_ws (c : cls) (parg : Q) (narg : Z) (o : oracle) : res (ws * rng) :=
  match c with
  | CGeom a b => if allpos [(a, b)] then Ok (ws_init (o_beta o [] (Qred a) (Qred b)) 0, [rbeta a b])
                 else Err ValueError
  | CPY pyd al => if qltb (- pyd) al then Ok (ws_init 0 0, []) else Err AssertionError
  | CBIB _ _ _ _ _ => Ok (ws_init parg 0, [])
  | CEqual => Ok (ws_init 0 narg, [])
  | _ => Ok (ws_init 0 0, [])
  end.

(* BaseWeight.complete, _base.py:66-67: the shared argument check *)
Definition base_complete_check {S} (size : pysize) : M S unit :=
  match size with SOther => raise TypeError | _ => ret tt end.

(* `len(x) < size` / `size < len(x)` with size None raises TypeError *)
Definition need_int {S} (size : pysize) : M S Z :=
  match size_val size with Some z => ret z | None => raise TypeError end.

Definition pairs (a b : list Q) : list (Q * Q) := combine a b.

(* self.w = self.v * np.cumprod(...) *)
Definition refresh_w (s : ws) : ws := set_w (stick (v s)) s.

(* ------------------------------------------------------------------ *)
(* DirichletProcess *)

(* _dirichlet_process.py:49-57 *)
Definition dp_complete (alpha : Q) (size : pysize) : M ws (list Q) :=
  base_complete_check size ;;
  z <- need_int size ;;
  s <- get ;;
  if (Z.of_nat (length (v s)) <? z)%Z then
    nv <- beta_rep 1 alpha (Z.to_nat (z - Z.of_nat (length (v s)))) ;;
    upd (set_v (v s ++ nv)) ;;
    upd refresh_w ;;
    s' <- get ;; ret (w s')
  else ret (w s).

(* _dirichlet_process.py:25-47 *)
Definition dp_random (alpha : Q) (size : pysize) : M ws (list Q) :=
  s0 <- get ;;
  if is_snone size && is_nil (d s0) then raise ValueError else
  match size with
  | SNp64 _ | SOther => raise TypeError
  | SNone | SInt _ =>
    upd (set_v []) ;;
    if is_nil (d s0) then
      dp_complete alpha size ;; s <- get ;; ret (w s)
    else
      let a_c := bincount (d s0) in
      let b_c := tail_counts a_c in
      let cut := match size with
                 | SInt z => (z <? Z.of_nat (length a_c))%Z | _ => false end in
      let zz := match size with SInt z => z | _ => 0%Z end in
      let a_c := if cut then py_take zz a_c else a_c in
      let b_c := if cut then py_take zz b_c else b_c in
      nv <- beta_many (pairs (map (fun n => 1 + nq n) a_c)
                             (map (fun n => alpha + nq n) b_c)) ;;
      upd (set_v nv) ;;
      upd refresh_w ;;
      (if is_snone size then ret [] else dp_complete alpha size) ;;
      s <- get ;; ret (w s)
  end.

(* ------------------------------------------------------------------ *)
(* PitmanYorProcess *)

(* _pitman_yor_process.py:58-71; get_size() is len(self.w) *)
Definition py_complete (pyd alpha : Q) (size : pysize) : M ws (list Q) :=
  base_complete_check size ;;
  z <- need_int size ;;
  s <- get ;;
  if (Z.of_nat (length (w s)) <? z)%Z then
    let js := seq (length (w s)) (Z.to_nat z - length (w s)) in
    nv <- beta_many (map (fun j => (1 - pyd, alpha + nq j * pyd)) js) ;;
    upd (set_v (v s ++ nv)) ;;
    upd refresh_w ;;
    s' <- get ;; ret (w s')
  else ret (w s).

(* _pitman_yor_process.py:29-56.  A size that is not an integer makes
   rng.beta(size=...) raise TypeError; a negative size makes it raise
   ValueError.  The scalar a = 1 - pyd is checked even when size = 0. *)
Definition py_random (pyd alpha : Q) (size : pysize) : M ws (list Q) :=
  s0 <- get ;;
  if is_snone size && is_nil (d s0) then raise ValueError else
  if is_nil (d s0) then
    z <- need_int size ;;
    if (z <? 0)%Z || negb (qltb 0 (1 - pyd)) then raise ValueError else
    nv <- beta_many (map (fun j => (1 - pyd, alpha + nq j * pyd))
                         (seq 0 (Z.to_nat z))) ;;
    upd (set_v nv) ;; upd refresh_w ;;
    s <- get ;; ret (w s)
  else
    let a_c := bincount (d s0) in
    let b_c := tail_counts a_c in
    oz <- (if is_snone size then ret None
           else z <- need_int size ;; ret (Some z)) ;;
    let cut := match oz with
               | Some z => (z <? Z.of_nat (length a_c))%Z | None => false end in
    let zz := match oz with Some z => z | None => 0%Z end in
    let a_c := if cut then py_take zz a_c else a_c in
    let b_c := if cut then py_take zz b_c else b_c in
    nv <- beta_many
            (pairs (map (fun n => 1 - pyd + nq n) a_c)
                   (map (fun jn : nat * nat => alpha + nq (fst jn) * pyd + nq (snd jn))
                        (combine (seq 0 (length a_c)) b_c))) ;;
    upd (set_v nv) ;; upd refresh_w ;;
    (if is_snone size then ret [] else py_complete pyd alpha size) ;;
    s <- get ;; ret (w s).

(* ------------------------------------------------------------------ *)
(* GeometricProcess *)

(* _geometric_process.py:32-38 *)
Definition geom_complete (size : pysize) : M ws (list Q) :=
  base_complete_check size ;;
  z <- need_int size ;;
  s <- get ;;
  if (Z.of_nat (length (v s)) <? z)%Z then
    upd (fun s => set_v (repeat (p s) (Z.to_nat z)) s) ;;
    upd refresh_w ;;
    s' <- get ;; ret (w s')
  else ret (w s).

(* _geometric_process.py:22-30; max(self.d) + 1 is an np.int64 *)
Definition geom_random (a b : Q) (size : pysize) : M ws (list Q) :=
  s0 <- get ;;
  if is_snone size && is_nil (d s0) then raise ValueError else
  let size := if is_snone size then SNp64 (Z.of_nat (nmax (d s0)) + 1) else size in
  upd (set_v []) ;;
  np <- beta1 (a + nq (length (d s0))) (b + nq (nsum (d s0))) ;;
  upd (set_p np) ;;
  geom_complete size ;;
  s <- get ;; ret (w s).

(* int(np.log(1 - x) / np.log(1 - p)) at _geometric_process.py:43, in exact
   arithmetic, for 0 < p < 1 and 0 <= x < 1: the largest n with
   (1-p)^n >= 1-x (P_Geom.v links it to the integer part of the quotient of
   logarithms).  Found by counting up; the fuel is a proved bound. *)
Fixpoint geom_count (fuel : nat) (q acc bound : Q) : nat :=
  match fuel with
  | O => O
  | S f => if qleb bound (acc * q) then S (geom_count f q (acc * q) bound) else O
  end.
Definition geom_fuel (pp x : Q) : nat :=
  S (Z.to_nat (Qround.Qceiling (x / ((1 - x) * pp)))).
Definition geom_tail_size (pp x : Q) : res Z :=
  if Qeq_bool pp 0 then
    (* np.log(1) = 0: x/0 is -inf (int: OverflowError) or nan (int: ValueError) *)
    if Qeq_bool x 0 then Err ValueError else Err OverflowError
  else if Qeq_bool pp 1 then Ok 0%Z        (* division by -inf *)
  else Ok (Z.of_nat (geom_count (geom_fuel pp x) (1 - pp) 1 (1 - x))).

(* _geometric_process.py:40-45 *)
Definition geom_tail (x : Q) : M ws (list Q) :=
  if qleb 1 x || qltb x 0 then raise ValueError else
  s <- get ;;
  match geom_tail_size (p s) x with
  | Ok n => geom_complete (SInt n) ;; s' <- get ;; ret (w s')
  | Err e => raise e
  | Diverge => raise ValueError
  end.

(* ------------------------------------------------------------------ *)
(* BetaInBeta *)

(* _beta_in_beta.py:93-139 *)
Definition bib_random_p (x a b : Q) (pm : pmethod) : M ws Q :=
  s <- get ;;
  let post := np <- beta1 (a + nq (length (d s))) (b + nq (nsum (d s))) ;;
              upd (set_p np) ;; ret np in
  let prior := np <- beta1 a b ;; upd (set_p np) ;; ret np in
  if Qeq_bool x 1 then post else
  if Qeq_bool x 0 then ret (p s) else
  if is_nil (d s) then prior else
  match pm with
  | PStatic => ret (p s)
  | PIndependent => prior
  | PGeometric => post
  | PMaxLik =>
      r <- optim1 ;;
      match r with Some q => upd (set_p q) ;; ret q | None => ret (p s) end
  | PInvSampling =>
      unif1 0 1 ;;
      r <- root1 ;;
      match r with Some q => upd (set_p q) ;; ret q | None => ret (p s) end
  | PRejection => raise ValueError
  end.

(* _beta_in_beta.py:75-91; note `if len(self.v == 0)` is `len(self.v) != 0` *)
Definition bib_complete (x alpha a b : Q) (pm : pmethod) (size : pysize) : M ws (list Q) :=
  base_complete_check size ;;
  s0 <- get ;;
  (if negb (Nat.eqb (length (v s0)) 0) then bib_random_p x a b pm else ret 0) ;;
  z <- need_int size ;;
  s <- get ;;
  if (Z.of_nat (length (v s)) <? z)%Z then
    let k := Z.to_nat (z - Z.of_nat (length (v s))) in
    nv <- (if qltb x 1
           then beta_rep (1 + x / (1 - x) * p s) (alpha + x / (1 - x) * (1 - p s)) k
           else ret (repeat (p s) k)) ;;
    upd (set_v (v s ++ nv)) ;;
    upd refresh_w ;;
    s' <- get ;; ret (w s')
  else ret (w s).

(* _beta_in_beta.py:42-73 *)
Definition bib_random (x alpha a b : Q) (pm : pmethod) (size : pysize) : M ws (list Q) :=
  s0 <- get ;;
  if is_snone size && is_nil (d s0) then raise ValueError else
  upd (set_v []) ;;
  if is_nil (d s0) then
    bib_complete x alpha a b pm size ;; s <- get ;; ret (w s)
  else
    (if qltb 0 x then bib_random_p x a b pm else ret 0) ;;
    let a_c := bincount (d s0) in
    let b_c := tail_counts a_c in
    let size := if is_snone size then SInt (Z.of_nat (length a_c)) else size in
    z <- need_int size ;;
    let cut := (z <? Z.of_nat (length a_c))%Z in
    let a_c := if cut then py_take z a_c else a_c in
    let b_c := if cut then py_take z b_c else b_c in
    s <- get ;;
    nv <- (if qltb x 1 then
             beta_many (pairs (map (fun n => 1 + x / (1 - x) * p s + nq n) a_c)
                              (map (fun n => alpha + x / (1 - x) * (1 - p s) + nq n) b_c))
           else if (z <? 0)%Z then raise ValueError
           else ret (repeat (p s) (Z.to_nat z))) ;;
    upd (set_v nv) ;; upd refresh_w ;;
    bib_complete x alpha a b pm size ;;
    s' <- get ;; ret (w s').

(* ------------------------------------------------------------------ *)
(* BetaInDirichlet *)

(* _beta_in_dirichlet.py:108-120: one pass of the while loop.  rng.choice
   raises ValueError when p and range(len(_v_base) + 1) differ in length. *)
Definition bid_complete_step (alpha a : Q) : M ws unit :=
  s <- get ;;
  (if Nat.eqb (length (cbase s)) (length (vbase s)) then ret tt else raise ValueError) ;;
  jj <- choice1 (map nq (cbase s) ++ [a]) ;;
  if (jj <? length (vbase s))%nat then
    upd (set_v (v s ++ [nth jj (vbase s) 0])) ;;
    upd (set_cbase (firstn jj (cbase s) ++ [S (nth jj (cbase s) O)] ++ skipn (S jj) (cbase s))) ;;
    upd (set_dbase (dbase s ++ [jj]))
  else
    nb <- beta1 1 alpha ;;
    upd (set_vbase (vbase s ++ [nb])) ;;
    upd (set_cbase (cbase s ++ [1%nat])) ;;
    upd (set_v (v s ++ [nb])) ;;
    upd (set_dbase (dbase s ++ [jj])).

Fixpoint repeatM {S} (n : nat) (m : M S unit) : M S unit :=
  match n with O => ret tt | S k => m ;; repeatM k m end.

(* _beta_in_dirichlet.py:104-122; returns None.  Each pass of the loop appends
   exactly one stick, so the loop runs size - len(v) times.
   `len(self.v) < size` with a non-integer size: None raises TypeError; other
   kinds are outside the model (SOther is treated as TypeError too). *)
Definition bid_complete (alpha a : Q) (size : pysize) : M ws unit :=
  s0 <- get ;;
  (if is_nil (vbase s0) then
     vb <- beta_rep 1 alpha 1 ;;
     upd (set_vbase vb) ;; upd (set_cbase [1%nat])
   else ret tt) ;;
  z <- need_int size ;;
  s <- get ;;
  repeatM (Z.to_nat (z - Z.of_nat (length (v s)))) (bid_complete_step alpha a) ;;
  upd refresh_w.

(* np.sum(x[_d_base == jj]), _beta_in_dirichlet.py:50-51 *)
Definition sel_sum (x dbs : list nat) (jj : nat) : nat :=
  nsum (map fst (filter (fun xd : nat * nat => Nat.eqb (snd xd) jj) (combine x dbs))).

(* _beta_in_dirichlet.py:49-54 *)
Fixpoint bid_draw_vbase (alpha : Q) (a_c b_c dbs : list nat) (jjs : list nat) : M ws (list Q) :=
  match jjs with
  | [] => ret []
  | jj :: t =>
      x <- beta1 (1 + nq (sel_sum a_c dbs jj)) (alpha + nq (sel_sum b_c dbs jj)) ;;
      r <- bid_draw_vbase alpha a_c b_c dbs t ;;
      ret (x :: r)
  end.

(* np.delete(x, j) *)
Definition ndelete {A} (j : nat) (l : list A) : list A := firstn j l ++ skipn (S j) l.
(* x[j] = y on an existing index *)
Definition nset {A} (j : nat) (y : A) (l : list A) : list A :=
  firstn j l ++ y :: skipn (S j) l.

(* _beta_in_dirichlet.py:66-87: the shape of log_prob.  true = a finite logit
   candidate (existing base, or the one "new base" slot), false = -inf. *)
Fixpoint bid_logits (red : list nat) (kmax : nat) (dds : list nat) (new_base : bool) : list bool :=
  match dds with
  | [] => []
  | dd :: t =>
      let c := ncount dd red in
      if Nat.eqb c 0 && negb new_base then true :: bid_logits red kmax t true
      else if Nat.eqb c 0 then
             (if (dd <? kmax + 1)%nat then false :: bid_logits red kmax t new_base
              else bid_logits red kmax t new_base)
      else true :: bid_logits red kmax t new_base
  end.

(* _beta_in_dirichlet.py:57-96, one value of j.  len(_d_base) = n here, so
   `j < len(self._d_base)` always holds; the logit values (logs, log-gammas)
   are hidden in the gumbel oracle. *)
Definition bid_update_j (alpha a : Q) (j : nat) : M ws unit :=
  s <- get ;;
  if Qeq_bool a 0 then upd (set_dbase (nset j 0%nat (dbase s)))
  else
    let red := ndelete j (dbase s) in
    if is_nil red then raise ValueError else          (* np.max of an empty array *)
    let k := nmax red in
    (* self._v_base[dd] is read for the dd that occur *)
    if negb (k <? length (vbase s))%nat then raise IndexError else
    x <- gumbel1 (bid_logits red k (seq 0 (k + 2)) false) ;;
    upd (set_dbase (nset j x (dbase s))) ;;
    s' <- get ;;
    if (nmax (dbase s') <=? length (vbase s'))%nat then
      nb <- beta1 1 alpha ;; upd (set_vbase (vbase s' ++ [nb]))
    else ret tt.

Fixpoint bid_update_all (alpha a : Q) (js : list nat) : M ws unit :=
  match js with [] => ret tt | j :: t => bid_update_j alpha a j ;; bid_update_all alpha a t end.

(* _beta_in_dirichlet.py:27-102 *)
Definition bid_random (alpha a : Q) (size : pysize) : M ws (list Q) :=
  s0 <- get ;;
  if is_snone size && is_nil (d s0) then raise ValueError else
  match size with
  | SNp64 _ | SOther => raise TypeError
  | SNone | SInt _ =>
    upd (set_v []) ;; upd (set_vbase []) ;;
    if is_nil (d s0) then
      bid_complete alpha a size ;; s <- get ;; ret (w s)
    else
      let n := S (nmax (d s0)) in
      upd (fun s => set_dbase (firstn n (dbase s ++ repeat 0%nat (n - length (dbase s)))) s) ;;
      s1 <- get ;;
      let k := S (nmax (dbase s1)) in
      let a_c := bincount (d s0) in
      let b_c := tail_counts a_c in
      vb <- bid_draw_vbase alpha a_c b_c (dbase s1) (seq 0 k) ;;
      upd (set_vbase vb) ;;
      bid_update_all alpha a (seq 0 n) ;;
      upd (fun s => set_cbase (map (fun j => ncount j (dbase s)) (seq 0 (length (vbase s)))) s) ;;
      s2 <- get ;;
      match gather (vbase s2) (dbase s2) with
      | None => raise IndexError
      | Some nv => upd (set_v nv) ;; upd refresh_w ;; s3 <- get ;; ret (w s3)
      end
  end.

(* ------------------------------------------------------------------ *)
(* BetaBernoulli *)

(* extended values produced by scipy.special.beta and the division at
   _beta_bernoulli.py:103-117 *)
Inductive xq := XFin (q : Q) | XInf | XNaN.
Definition xadd (x y : xq) : xq :=
  match x, y with
  | XNaN, _ | _, XNaN => XNaN
  | XInf, _ | _, XInf => XInf
  | XFin a, XFin b => XFin (a + b)
  end.
(* multiplication by a positive finite number *)
Definition xscale (c : Q) (x : xq) : xq :=
  match x with XFin a => XFin (c * a) | XInf => XInf | XNaN => XNaN end.
(* x / y for non-negative arguments; 0/0 is nan *)
Definition xdiv (x y : xq) : xq :=
  match x, y with
  | XNaN, _ | _, XNaN => XNaN
  | XInf, XInf => XNaN
  | XInf, XFin _ => XInf
  | XFin _, XInf => XFin 0
  | XFin a, XFin b => if Qeq_bool b 0 then (if Qeq_bool a 0 then XNaN else XInf)
                      else XFin (a / b)
  end.

Fixpoint zfact (n : nat) : Z := match n with O => 1%Z | S k => (Z.of_nat n * zfact k)%Z end.
(* scipy.special.beta(a, b) on non-negative integers: (a-1)!(b-1)!/(a+b-1)!,
   +inf if an argument is 0 *)
Definition betaf (a b : nat) : xq :=
  match a, b with
  | O, _ | _, O => XInf
  | S a', S b' => XFin (zq (zfact a' * zfact b') / zq (zfact (a' + b' + 1)))
  end.

(* _beta_bernoulli.py:97-103: scan upwards until the next 1; g is g_plus *)
Fixpoint bb_up (alpha : Q) (bs ac bc : list nat) (a' b' : nat) (g : xq) : nat * nat * xq :=
  match bs, ac, bc with
  | bb :: bs', x :: ac', y :: bc' =>
      if Nat.eqb bb 1 then (a', b', g)
      else bb_up alpha bs' ac' bc' (a' + x) (b' + y)
             (xscale alpha (betaf (a' + x) (b' + y)))
  | _, _, _ => (a', b', g)
  end.
(* _beta_bernoulli.py:107-112: scan downwards *)
Fixpoint bb_down (bs ac bc : list nat) (a' b' : nat) : nat * nat :=
  match bs, ac, bc with
  | bb :: bs', x :: ac', y :: bc' =>
      if Nat.eqb bb 1 then (a', b') else bb_down bs' ac' bc' (a' + x) (b' + y)
  | _, _, _ => (a', b')
  end.

(* _beta_bernoulli.py:95-117: the probability used for indicator j *)
Definition bb_prob (p alpha : Q) (bs a_c b_c : list nat) (j : nat) : xq :=
  let '(a1, b1, gplus) := bb_up alpha (skipn (S j) bs) (skipn (S j) a_c) (skipn (S j) b_c)
                                0 0 (XFin 1) in
  let '(a2, b2) := bb_down (rev (firstn j bs)) (rev (firstn j a_c)) (rev (firstn j b_c))
                           (a1 + nth j a_c 0%nat)%nat (b1 + nth j b_c 0%nat)%nat in
  let gminus := xscale alpha (betaf a2 b2) in
  let pp := if qltb 0 p then xscale p gplus else XFin 0 in
  let np := if qltb p 1 then xscale (1 - p) gminus else XFin 0 in
  xdiv pp (xadd pp np).

(* rng.binomial(n=1, p=p) with a possibly infinite/NaN p: ValueError *)
Definition bernoulli_x {S} (x : xq) : M S nat :=
  match x with
  | XFin q => z <- binom1 1 q ;; ret (Z.to_nat z)
  | _ => raise ValueError
  end.

(* _beta_bernoulli.py:94-118 *)
Fixpoint bb_loop (p alpha : Q) (a_c b_c : list nat) (js : list nat) (bs : list nat) : M ws (list nat) :=
  match js with
  | [] => ret bs
  | j :: t =>
      x <- bernoulli_x (bb_prob p alpha bs a_c b_c j) ;;
      bb_loop p alpha a_c b_c t (nset j x bs)
  end.

(* _beta_bernoulli.py:86-120; `self.bernoullis[0] = 1` (line 88) writes the OLD
   array and raises IndexError if that is empty *)
Definition bb_random_bernoullis (p alpha : Q) (size : nat) : M ws unit :=
  bs <- binom_rep 1 p size ;;
  s <- get ;;
  if is_nil (bern s) then raise IndexError else
  upd (set_bern (nset 0 1%nat (bern s))) ;;
  let bs := map Z.to_nat bs in
  bs <- (if is_nil (d s) then ret bs
         else
           let a_c := bincount (d s) in
           let b_c := tail_counts a_c in
           bb_loop p alpha a_c b_c (seq 1 (nmax (d s) - 1)) (nset 0 0%nat bs)) ;;
  upd (set_bern bs).

(* _beta_bernoulli.py:68-84 *)
Definition bb_complete (p alpha : Q) (size : pysize) : M ws (list Q) :=
  base_complete_check size ;;
  z <- need_int size ;;
  s0 <- get ;;
  if (Z.of_nat (length (v s0)) <? z)%Z then
    (if is_nil (v s0) then nv <- beta_rep 1 alpha 1 ;; upd (set_v nv) else ret tt) ;;
    s <- get ;;
    m <- binom_rep 1 p (Z.to_nat (z - Z.of_nat (length (v s)))) ;;
    let m := map Z.to_nat m in
    upd (set_bern (bern s ++ m)) ;;
    let mc := ncumsum m in
    if is_nil mc then raise IndexError else          (* mask_change[-1] *)
    nb <- beta_rep 1 alpha (last mc 0%nat) ;;
    match gather (last (v s) 0 :: nb) mc with
    | None => raise IndexError
    | Some e =>
        upd (set_v (v s ++ e)) ;; upd refresh_w ;;
        s' <- get ;; ret (w s')
    end
  else ret (w s0).

(* _beta_bernoulli.py:36-66 *)
Definition bb_random (p alpha : Q) (size : pysize) : M ws (list Q) :=
  s0 <- get ;;
  if is_snone size && is_nil (d s0) then raise ValueError else
  let size := if is_snone size then SInt 1 else size in
  upd (set_v []) ;;
  if is_nil (d s0) then
    z <- need_int size ;;
    if (z <? 0)%Z then raise ValueError else
    bb_random_bernoullis p alpha (Z.to_nat z) ;;
    s <- get ;;
    let mc := ncumsum (bern s) in
    if is_nil mc then raise IndexError else
    nb <- beta_rep 1 alpha (last mc 0%nat + 1) ;;
    upd (set_v nb) ;;
    match gather nb mc with
    | None => raise IndexError
    | Some nv => upd (set_v nv) ;; upd refresh_w ;; s' <- get ;; ret (w s')
    end
  else
    bb_random_bernoullis p alpha (S (nmax (d s0))) ;;
    s <- get ;;
    let mc := ncumsum (bern s) in
    let a_c := bincount (d s0) in
    let b_c := tail_counts a_c in
    let a_m := wbincount mc a_c in
    let b_m := wbincount mc b_c in
    nb <- beta_many (pairs (map (fun n => 1 + nq n) a_m)
                           (map (fun n => alpha + nq n) b_m)) ;;
    upd (set_v nb) ;;
    match gather nb mc with
    | None => raise IndexError
    | Some nv =>
        upd (set_v nv) ;; upd refresh_w ;;
        bb_complete p alpha size ;;
        s' <- get ;; ret (w s')
    end.

(* ------------------------------------------------------------------ *)
(* BetaBinomial *)

(* _beta_binomial.py:63-69: one pass of the while loop *)
Definition bbin_step (n : Z) (alpha : Q) : M ws unit :=
  s <- get ;;
  b <- binom1 n (last (v s) 0) ;;
  upd (set_binoms (binoms s ++ [b])) ;;
  x <- beta1 (1 + zq b) (alpha + zq n - zq b) ;;
  upd (set_v (v s ++ [x])).

(* _beta_binomial.py:54-72; w is recomputed unconditionally *)
Definition bbin_complete (n : Z) (alpha : Q) (size : pysize) : M ws (list Q) :=
  base_complete_check size ;;
  s0 <- get ;;
  (if is_nil (v s0) then
     v0 <- beta1 1 alpha ;;
     b <- binom_rep n v0 1 ;;
     upd (set_binoms b) ;;
     nv <- beta_rep (1 + zq (last b 0%Z)) (alpha + zq n - zq (last b 0%Z)) 1 ;;
     upd (set_v nv)
   else ret tt) ;;
  z <- need_int size ;;
  s <- get ;;
  repeatM (Z.to_nat (z - Z.of_nat (length (v s)))) (bbin_step n alpha) ;;
  upd refresh_w ;;
  s' <- get ;; ret (w s').

(* _beta_binomial.py:74-81 *)
Definition bbin_random_binomials (n : Z) (alpha : Q) : M ws (list Z) :=
  s <- get ;;
  let a_c := 0%nat :: bincount (d s) in
  let b_c := 0%nat :: tail_counts (bincount (d s)) in
  bv <- beta_many (pairs (map (fun k => 1 + nq k) a_c) (map (fun k => alpha + nq k) b_c)) ;;
  bs <- binom_many n bv ;;
  upd (set_binoms bs) ;; ret bs.

Fixpoint zadd2 (a b : list Z) : list Z :=
  match a, b with x :: a', y :: b' => (x + y)%Z :: zadd2 a' b' | _, _ => [] end.
Fixpoint map3 {A B C D} (f : A -> B -> C -> D) (a : list A) (b : list B) (c : list C) : list D :=
  match a, b, c with x :: a', y :: b', z :: c' => f x y z :: map3 f a' b' c' | _, _, _ => [] end.

(* _beta_binomial.py:31-52 *)
Definition bbin_random (n : Z) (alpha : Q) (size : pysize) : M ws (list Q) :=
  s0 <- get ;;
  if is_snone size && is_nil (d s0) then raise ValueError else
  let size := if is_snone size then SInt 1 else size in
  upd (set_v []) ;;
  if is_nil (d s0) then
    bbin_complete n alpha size ;; s <- get ;; ret (w s)
  else
    bs <- bbin_random_binomials n alpha ;;
    let a_c := bincount (d s0) in
    let b_c := tail_counts a_c in
    let bp := zadd2 (removelast bs) (tl bs) in
    nv <- beta_many
            (map3 (fun x y (z : Z) => (1 + nq x + zq z, alpha + nq y + 2 * zq n - zq z))
                  a_c b_c bp) ;;
    upd (set_v nv) ;; upd refresh_w ;;
    bbin_complete n alpha size ;;
    s' <- get ;; ret (w s').

(* ------------------------------------------------------------------ *)
(* DirichletDistribution *)

(* _dirichlet_distribution.py:26-38 *)
Definition dd_random (alpha : list Q) (size : pysize) : M ws (list Q) :=
  s <- get ;;
  if is_nil (d s) then
    x <- dirichlet1 alpha ;; upd (set_w x) ;; ret x
  else if (length alpha <=? nmax (d s))%nat then raise ValueError
  else
    let a_c := bincount (d s) in
    let a_c := firstn (length alpha) (a_c ++ repeat 0%nat (length alpha - length a_c)) in
    x <- dirichlet1 (map (fun an : Q * nat => fst an + nq (snd an)) (combine alpha a_c)) ;;
    upd (set_w x) ;; ret x.

(* _dirichlet_distribution.py:40-44 *)
Definition dd_complete (alpha : list Q) (size : pysize) : M ws (list Q) :=
  base_complete_check size ;;
  s <- get ;;
  (if is_nil (w s) then dd_random alpha SNone else ret []) ;;
  s' <- get ;; ret (w s').

(* ------------------------------------------------------------------ *)
(* EqualWeighting *)

(* np.repeat(1 / n, n): ZeroDivisionError for n = 0, ValueError for n < 0 *)
Definition repeat_inv {S} (n : Z) : M S (list Q) :=
  if (n =? 0)%Z then raise ZeroDivisionError
  else if (n <? 0)%Z then raise ValueError
  else ret (repeat (1 / zq n) (Z.to_nat n)).

(* _equal.py:15-20; complete(size) is random(size) *)
Definition eq_random (size : pysize) : M ws (list Q) :=
  s <- get ;;
  x <- repeat_inv (wn s) ;; upd (set_w x) ;; ret x.

(* ------------------------------------------------------------------ *)
(* FrequencyWeighting *)

(* _frequency.py:15-24; complete(size) is random(size) *)
Definition freq_random (n : Z) (size : pysize) : M ws (list Q) :=
  s <- get ;;
  if is_nil (d s) then
    x <- repeat_inv n ;; upd (set_w x) ;; ret x
  else
    let c := map nq (bincount (d s)) in
    let x := map (fun y => y / qsum c) c in
    upd (set_w x) ;; ret x.

(* ------------------------------------------------------------------ *)
(* Method dispatch (self.random / self.complete) *)

Definition wm_random (c : cls) (size : pysize) : M ws (list Q) :=
  match c with
  | CDirDist _ al => dd_random al size
  | CDP al => dp_random al size
  | CPY pd al => py_random pd al size
  | CGeom a b => geom_random a b size
  | CBIB x al a b pm => bib_random x al a b pm size
  | CBID al a => bid_random al a size
  | CBB pp al => bb_random pp al size
  | CBBin n al => bbin_random n al size
  | CEqual => eq_random size
  | CFreq n => freq_random n size
  end.

(* The returned value: Some w, or None for BetaInDirichlet (no return) *)
Definition wm_complete (c : cls) (size : pysize) : M ws (option (list Q)) :=
  match c with
  | CDirDist _ al => x <- dd_complete al size ;; ret (Some x)
  | CDP al => x <- dp_complete al size ;; ret (Some x)
  | CPY pd al => x <- py_complete pd al size ;; ret (Some x)
  | CGeom _ _ => x <- geom_complete size ;; ret (Some x)
  | CBIB x al a b pm => y <- bib_complete x al a b pm size ;; ret (Some y)
  | CBID al a => bid_complete al a size ;; ret None
  | CBB pp al => x <- bb_complete pp al size ;; ret (Some x)
  | CBBin n al => x <- bbin_complete n al size ;; ret (Some x)
  | CEqual => x <- eq_random size ;; ret (Some x)
  | CFreq n => x <- freq_random n size ;; ret (Some x)
  end.

(* ------------------------------------------------------------------ *)
(* BaseWeight methods *)

(* _base.py:118-119: while self.w.sum() < x: self.complete(len(self.w) + 1) *)
Fixpoint tail_loop (c : cls) (fuel : nat) (x : Q) : M ws unit :=
  s <- get ;;
  if qltb (qsum (w s)) x then
    match fuel with
    | O => fun _ s g => (Diverge, s, g)
    | S f => wm_complete c (SInt (Z.of_nat (length (w s)) + 1)) ;; tail_loop c f x
    end
  else ret tt.

(* _base.py:96-120 *)
Definition base_tail (c : cls) (fuel : nat) (x : Q) : M ws (list Q) :=
  if qleb 1 x || qltb x 0 then raise ValueError else
  s <- get ;;
  (if is_nil (w s) then wm_random c (SInt 1) else ret []) ;;
  tail_loop c fuel x ;;
  s' <- get ;; ret (w s').

(* tail is overridden by GeometricProcess only *)
Definition wm_tail (c : cls) (fuel : nat) (x : Q) : M ws (list Q) :=
  match c with CGeom _ _ => geom_tail x | _ => base_tail c fuel x end.

(* _base.py:94 *)
Definition wm_fit (dd : list nat) : M ws unit := upd (set_d dd).
(* _base.py:131-133 *)
Definition wm_reset : M ws unit := upd (set_d []).

(* _base.py:122-129, up to the logarithms: returns the gathered weights
   self.w[d] whose logs are summed.  max(d) of an empty sequence raises
   ValueError; max(d) + 1 is an np.int64 when d is an array. *)
Definition wm_assign_weights (c : cls) (dd : option (list nat)) : M ws (list Q) :=
  s <- get ;;
  let dl := match dd with Some l => l | None => d s end in
  if is_nil dl then raise ValueError else
  wm_complete c (SNp64 (Z.of_nat (nmax dl) + 1)) ;;
  s' <- get ;;
  match gather (w s') dl with Some r => ret r | None => raise IndexError end.

(* _base.py:139-141, get_normalized_weights: self.w / np.sum(self.w).  None
   stands for NaN: every entry is 0/0 when the weights add up to 0 (they are
   never negative, see C01; infinities from weights of both signs are outside
   the model). *)
Definition normalized (w : list Q) : list (option Q) :=
  map (fun x => if Qeq_bool (qsum w) 0 then None else Some (x / qsum w)) w.
(* _base.py:143-145, np.cumsum; NaN is contagious *)
Fixpoint ocumsum_from (acc : option Q) (l : list (option Q)) : list (option Q) :=
  match l with
  | [] => []
  | x :: t => let c := match acc, x with Some a, Some b => Some (a + b) | _, _ => None end in
              c :: ocumsum_from c t
  end.
Definition norm_cum (w : list Q) : list (option Q) := ocumsum_from (Some 0) (normalized w).

(* _base.py:155-158: number of cumulative weights strictly below u
   (a comparison with NaN is False) *)
Definition assign_label (w : list Q) (u : Q) : nat :=
  length (filter (fun c => match c with Some c => qltb c u | None => false end) (norm_cum w)).

(* _base.py:151-158; with size=None np.sum(..., axis=1) gets a 1-D array *)
Definition wm_random_assignment (size : pysize) : M ws (list nat) :=
  match size with
  | SNone => unif1 0 1 ;; raise AxisError
  | SOther => raise TypeError
  | SInt z | SNp64 z =>
      if (z <? 0)%Z then raise ValueError else
      us <- unif_many (repeat (0, 1) (Z.to_nat z)) ;;
      s <- get ;;
      ret (map (assign_label (w s)) us)
  end.

(* ------------------------------------------------------------------ *)
(* Histories of calls on a weight model *)
Inductive wop :=
| OpRandom (size : pysize) | OpComplete (size : pysize)
| OpTail (fuel : nat) (x : Q) | OpFit (dd : list nat) | OpReset
| OpAssignLL (dd : option (list nat)) | OpRandAssign (size : pysize).

(* one call; its result is dropped, its outcome kept *)
Definition exec_op (c : cls) (op : wop) : M ws unit :=
  match op with
  | OpRandom z => wm_random c z ;; ret tt
  | OpComplete z => wm_complete c z ;; ret tt
  | OpTail f x => wm_tail c f x ;; ret tt
  | OpFit dd => wm_fit dd
  | OpReset => wm_reset
  | OpAssignLL dd => wm_assign_weights c dd ;; ret tt
  | OpRandAssign z => wm_random_assignment z ;; ret tt
  end.

(* a sequence of calls that stops at the first exception *)
Fixpoint exec_ops (c : cls) (ops : list wop) : M ws unit :=
  match ops with [] => ret tt | op :: t => exec_op c op ;; exec_ops c t end.

(* a sequence of calls whose exceptions are caught by the caller *)
Definition run_op (c : cls) (op : wop) (o : oracle) (s : ws) (g : rng) : ws * rng :=
  let '(_, s', g') := exec_op c op o s g in (s', g').
Fixpoint run_ops (c : cls) (ops : list wop) (o : oracle) (s : ws) (g : rng) : ws * rng :=
  match ops with
  | [] => (s, g)
  | op :: t => let (s', g') := run_op c op o s g in run_ops c t o s' g'
  end.
