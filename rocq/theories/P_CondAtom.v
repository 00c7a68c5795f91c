(* Proofs for the atom part of C76. *)
From Coq Require Import Reals Qreals Lra Lqa.
From Verif Require Import Prelude Numpy Rng M_Weights M_Ext M_Var M_Niw M_Utils M_Mix S_Niw S_Mix S_Var S_CondAtom P_Var P_Var27 P_Opt P_Cond P_Mix34 P_Niw.
Open Scope R_scope.

Lemma q2r_sum {A} (f : A -> Q) l : Q2R (sum_over f l) = rsum (map (fun x => Q2R (f x)) l).
Proof. induction l as [|x l IH]; [unfold rsum; simpl; unfold Q2R; simpl; Lra.lra|]. cbn [sum_over map]. rewrite rsum_cons, Q2R_plus, IH. reflexivity. Qed.

Lemma rows_sum k L P mu rows : rsum (map (normal_log k L P mu) rows) =
  - (INR (length rows) * L / 2) - sumn (fun i => sumn (fun j => P i j * rsum (map (fun r => (Q2R (coord i r) - mu i) * (Q2R (coord j r) - mu j)) rows)) k) k / 2.
Proof.
  induction rows as [|r t IH].
  - unfold rsum at 1. cbn [map fold_right length]. rewrite (sumn_ext _ (fun _ => 0)).
    + rewrite sumn_const. simpl. Lra.lra.
    + intros i _. rewrite (sumn_ext _ (fun _ => 0)); [rewrite sumn_const; ring|]. intros j _. unfold rsum. simpl. ring.
  - rewrite map_cons, rsum_cons, IH. cbn [length]. rewrite S_INR. unfold normal_log at 1, rquad.
    set (F := fun i => sumn (fun j => P i j * ((Q2R (coord i r) - mu i) * (Q2R (coord j r) - mu j))) k).
    set (G := fun i => sumn (fun j => P i j * rsum (map (fun r => (Q2R (coord i r) - mu i) * (Q2R (coord j r) - mu j)) t)) k).
    rewrite (sumn_ext (fun i => sumn (fun j => P i j * rsum (map (fun r => (Q2R (coord i r) - mu i) * (Q2R (coord j r) - mu j)) (r :: t))) k) (fun i => F i + G i)).
    + rewrite sumn_plus2. fold F. fold G. Lra.lra.
    + intros i _. unfold F, G. rewrite <- sumn_plus2. apply sumn_ext. intros j _. cbn [map]. rewrite rsum_cons. ring.
Qed.
Lemma cross rows (i j : nat) (a b : R) : rsum (map (fun r => (Q2R (coord i r) - a) * (Q2R (coord j r) - b)) rows) =
  rsum (map (fun r => Q2R (coord i r * coord j r)%Q) rows) - b * rsum (map (fun r => Q2R (coord i r)) rows) - a * rsum (map (fun r => Q2R (coord j r)) rows) + INR (length rows) * (a * b).
Proof. induction rows as [|r t IH]; [unfold rsum; simpl; ring|]. cbn [map length]. rewrite !rsum_cons, IH, S_INR, Q2R_mult. ring. Qed.

Lemma exact_atom_post rows h h' : is_posterior rows h h' -> exact_atom rows h h'.
Proof.
  intros [Hd _ Hl Hn Hm Hp] L P mu. rewrite rows_sum. unfold niw_log, rquad. set (k := length (n_mu h)) in *.
  apply Qeq_eqR in Hl, Hn. rewrite Q2R_plus, q2r_nq in Hl, Hn.
  assert (X : sumn (fun i => sumn (fun j => P i j * rsum (map (fun r => (Q2R (coord i r) - mu i) * (Q2R (coord j r) - mu j)) rows)) k) k
     + sumn (fun i => sumn (fun j => P i j * Q2R (entry (n_psi h) i j)) k) k
     + Q2R (n_lam h) * sumn (fun i => sumn (fun j => P i j * ((mu i - Q2R (coord i (n_mu h))) * (mu j - Q2R (coord j (n_mu h))))) k) k
     = sumn (fun i => sumn (fun j => P i j * Q2R (entry (n_psi h') i j)) k) k
     + Q2R (n_lam h') * sumn (fun i => sumn (fun j => P i j * ((mu i - Q2R (coord i (n_mu h'))) * (mu j - Q2R (coord j (n_mu h'))))) k) k).
  { rewrite <- !sumn_scale, <- !sumn_plus2. apply sumn_ext. intros i Hi. rewrite <- !sumn_scale, <- !sumn_plus2. apply sumn_ext. intros j Hj.
    pose proof (Qeq_eqR _ _ (Hm i Hi)) as Mi. pose proof (Qeq_eqR _ _ (Hm j Hj)) as Mj. pose proof (Qeq_eqR _ _ (Hp i j Hi Hj)) as Pij.
    rewrite Q2R_plus, !Q2R_mult, q2r_sum in Mi, Mj. rewrite !Q2R_plus, !Q2R_mult, q2r_sum in Pij.
    rewrite cross. set (A := rsum (map (fun r => Q2R (coord i r * coord j r)%Q) rows)) in *. set (B := rsum (map (fun r => Q2R (coord i r)) rows)) in *. set (C := rsum (map (fun r => Q2R (coord j r)) rows)) in *.
    set (n := INR (length rows)) in *. set (mi := Q2R (coord i (n_mu h))) in *. set (mj := Q2R (coord j (n_mu h))) in *. set (mi' := Q2R (coord i (n_mu h'))) in *. set (mj' := Q2R (coord j (n_mu h'))) in *.
    set (lam := Q2R (n_lam h)) in *. set (lam' := Q2R (n_lam h')) in *. set (e := Q2R (entry (n_psi h) i j)) in *. set (e' := Q2R (entry (n_psi h') i j)) in *.
    assert (EB : B = lam' * mi' - lam * mi) by Lra.lra. assert (EC : C = lam' * mj' - lam * mj) by Lra.lra.
    assert (EA : A = e' + lam' * (mi' * mj') - e - lam * (mi * mj)) by Lra.lra. assert (En : n = lam' - lam) by Lra.lra.
    rewrite EA, EB, EC, En. ring. }
  rewrite Hn. Lra.lra.
Qed.

Lemma c76_atoms_proof E c fuel o s g s' g' : gibbs_step E c fuel o s g = (Ok tt, s', g') ->
  forall j, In j (labels_of s) -> exists h h' a, prior_niw s = Ok h /\ lookup j (s_theta s') = Some a /\ drawn_from o h' a /\ exact_atom (members j (labels_of s) (s_y s)) h h'.
Proof.
  intros H j Hj. destruct (proj1 (c40_redraw_proof _ _ _ _ _ _ _ _ H) j Hj) as (h & h' & a & A & B & C & D). exists h, h', a.
  split; [exact A|]. split; [exact D|]. split; [exact C|]. apply exact_atom_post, B.
Qed.
