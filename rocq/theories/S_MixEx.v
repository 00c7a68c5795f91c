(* Concrete generators and numerics used by the Examples about mixtures. *)
From Coq Require Import Lqa.
From Verif Require Import Prelude Numpy Rng M_Weights M_Niw M_Utils M_Mix M_Query S_Oracle.
Open Scope Q_scope.

(* every beta draw is b, uniforms are lo + f (hi - lo) with f
   depending on the log, the first or last
   admissible label, k-means clusters given by km *)
Definition ex_oracle (b : Q) (f : rng -> Q) (lst : bool) (km : vec -> nat) : oracle := {|
  o_beta := fun _ _ _ => b;
  o_binom := fun _ n p => if Qeq_bool p 1 then n else 0%Z;
  o_unif := fun g lo hi => Qred (lo + f g * (hi - lo));
  o_dirichlet := fun _ al => match al with [] => [] | _ :: t => 1 :: repeat 0 (length t) end;
  o_choice := fun _ p => if lst then last_idx (qltb 0) p else first_idx (qltb 0) p;
  o_gumbel := fun _ ok => if lst then last_idx (fun x => x) ok else first_idx (fun x => x) ok;
  o_optim := fun _ => Some (1 # 2);
  o_root := fun _ => Some (1 # 2);
  o_invw := fun _ _ psi => inl psi;
  o_mvn := fun _ mu _ => inl mu;
  o_kmeans := fun _ y k => map (fun r => Nat.min (km r) (k - 1)) y |}.
Lemma ex_oracle_valid b f lst km : 0 <= b <= 1 -> (forall g, 0 <= f g < 1) -> valid_oracle (ex_oracle b f lst km).
Proof.
  intros Hb Hf. pose proof (const_oracle_valid b Hb) as V. pose proof (last_oracle_valid b Hb) as V'.
  constructor; try apply V; cbn [ex_oracle o_beta o_binom o_unif o_dirichlet o_choice o_gumbel o_optim o_root o_kmeans]; intros.
  - specialize (Hf g). rewrite Qred_correct. split; nra.
  - rewrite Qred_correct, H. ring.
  - destruct lst; [exact (vo_choice _ V' g p H)|exact (vo_choice _ V g p H)].
  - destruct lst; [exact (vo_gumbel _ V' g ok H)|exact (vo_gumbel _ V g ok H)].
  - apply map_length.
  - apply Forall_forall. intros x Hx. apply in_map_iff in Hx as (r & <- & _). lia.
Qed.

(* stable insertion sort of indices *)
Fixpoint ins (l : list Z) (i : nat) (acc : list nat) : list nat :=
  match acc with
  | [] => [i]
  | j :: t => if (nth i l 0 <? nth j l 0)%Z then i :: acc else j :: ins l i t
  end.
Definition ex_argsort (l : list Z) : list nat := fold_left (fun acc i => ins l i acc) (seq 0 (length l)) [].
Definition ex_env (lp : vec -> atom -> lx) : env := {|
  e_logpdf := fun rows a => Ok (map (fun r => lp r a) rows);
  e_log := fun x => if qltb 0 x then LQ (Qred x) else LNeg;
  e_argsort := ex_argsort;
  e_inv := fun m => Ok m;
  e_vd := fun y x => match vk x with Some k => Ok (repeat (repeat (1 / zq k) (length y)) (Z.to_nat k)) | None => Ok [] end;
  e_vtheta := fun y h D => Ok (map (fun _ => (n_mu h, n_lam h, n_psi h, n_nu h)) D);
  e_elbo := fun y h x => Ok (LQ 0) |}.
Definition flat_env : env := ex_env (fun _ _ => LQ 0).
Definition ex_qenv (pd : vec -> vec -> Q) : qenv := {|
  q_pdf := fun x m c => Ok (map (fun r => pd r m) x);
  q_norm := fun x m v => Ok (map (fun r => pd [r] [m]) x);
  q_spectral := fun m k => Ok (map (fun _ => 0%nat) m);
  q_student := fun x m p nu => Ok (map (fun r => pd r m) x);
  q_normal := fun x m p => Ok (map (fun r => pd r m) x);
  q_mean_w := fun v x j => Ok (1 # 2);
  q_mode_w := fun v x j => Ok (1 # 2);
  q_resp := fun y x wm => Ok [] |}.
Definition flat_qenv : qenv := ex_qenv (fun _ _ => 1).

(* clusters by the sign of the first coordinate *)
Definition by_sign (r : vec) : nat := if qltb 0 (vat r 0) then 1%nat else 0%nat.
Definition ex_mix (c : cls) (parg : Q) (narg total burn sub : Z) (o : oracle) : res (ms * rng) :=
  new_mix c parg narg None 1 None None (zq total) (zq burn) (zq sub) o.
(* run the fits on a new object, catching exceptions, then one more *)
Definition ex_blank : ms := MS 0 0 0 None PNone 0 PNone None (ws_init 0 0) [] 0 true None [] false [] [] None LNeg 0 [] [] [] (VST None [] [] []) false false false.
Definition ex_run (E : env) (c : cls) (narg total burn sub : Z) (o : oracle) (ops : list mop) : ms * rng :=
  match ex_mix c 0 narg total burn sub o with
  | Ok (s, g) => run_mops E c 60 ops o s g
  | _ => (ex_blank, [])
  end.
Definition ex_last (E : env) (c : cls) (narg total burn sub : Z) (o : oracle) (ops : list mop) (op : mop) : res unit * ms * rng :=
  let q := ex_run E c narg total burn sub o ops in exec_mop E c 60 op o (fst q) (snd q).
Definition ex_out (r : res unit * ms * rng) : res unit := fst (fst r).
Definition ex_st (r : res unit * ms * rng) : ms := snd (fst r).
Lemma ex_last_ok E c narg total burn sub o ops op :
  let r := ex_last E c narg total burn sub o ops op in
  ex_out r = Ok tt -> exec_mop E c 60 op o (fst (ex_run E c narg total burn sub o ops)) (snd (ex_run E c narg total burn sub o ops)) = (Ok tt, ex_st r, snd r).
Proof. cbv zeta. unfold ex_last, ex_out, ex_st. destruct (exec_mop _ _ _ _ _ _ _) as [[r s] g]. simpl. congruence. Qed.
Definition fr (q : Q) : rng -> Q := fun _ => q.
