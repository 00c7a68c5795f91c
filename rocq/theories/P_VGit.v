(** What git_pieces_from_vcs reads (M_Version). *)
From Coq Require Import List ZArith Ascii String Bool Lia.
From Verif Require Import M_Version S_Version P_VText P_VNum.
Import ListNotations.
Open Scope list_scope.

Lemma run_outcome sy root args :
  run_command sy (gits sy) args root =
  match outcome sy root args with
  | PRan out rc => if (rc =? 0)%Z then (Some (strip_by is_bspace out), Some rc)
                   else (None, Some rc)
  | _ => (None, None)
  end.
Proof.
  unfold gits, outcome. destruct (sy_win sy); cbn [run_command].
  - destruct (sy_popen sy root (T "git.cmd") args) eqn:E; try reflexivity.
  - reflexivity.
Qed.

Lemma run_shows sy root args t :
  shows sy root args t ->
  run_command sy (gits sy) args root = (Some t, Some 0%Z).
Proof.
  intros (B & a & b & Ha & Hb & E). rewrite run_outcome, E. cbn.
  now rewrite bstrip_bare.
Qed.

Lemma run_succeeds sy root args :
  succeeds sy root args ->
  exists t, run_command sy (gits sy) args root = (Some t, Some 0%Z).
Proof.
  intros (out & E). rewrite run_outcome, E. cbn. eauto.
Qed.

(** A command that gave an output ended with 0. *)
Lemma run_some sy root args t rc :
  run_command sy (gits sy) args root = (Some t, rc) ->
  exists out, outcome sy root args = PRan out 0 /\ rc = Some 0%Z /\
              t = strip_by is_bspace out.
Proof.
  rewrite run_outcome. destruct (outcome sy root args) as [| | out z]; try easy.
  destruct (Z.eqb_spec z 0) as [-> | N]; [|easy].
  intros [= <- <-]. eauto.
Qed.

Lemma run_none sy root args rc :
  run_command sy (gits sy) args root = (None, rc) ->
  ~ succeeds sy root args /\ rc_bad rc = true.
Proof.
  rewrite run_outcome. unfold succeeds.
  destruct (outcome sy root args) as [| | out z].
  - intros [= <-]. split; [|easy]. now intros (o & E).
  - intros [= <-]. split; [|easy]. now intros (o & E).
  - destruct (Z.eqb_spec z 0) as [-> | N]; [easy|].
    intros [= <-]. split.
    + intros (o & [= _ E]). easy.
    + cbn. now rewrite (proj2 (Z.eqb_neq z 0) N).
Qed.

Lemma run_rc sy root args :
  rc_bad (snd (run_command sy (gits sy) args root)) = false ->
  succeeds sy root args.
Proof.
  rewrite run_outcome. unfold succeeds.
  destruct (outcome sy root args) as [| | out z]; try easy.
  destruct (Z.eqb_spec z 0) as [-> | N]; [eauto|].
  cbn. now rewrite (proj2 (Z.eqb_neq z 0) N).
Qed.

(* ------------------------------------------------------------------ *)

Lemma dirname_app root name :
  root <> [] -> (forall r, root <> r ++ T "/") -> ~ In (ch "/") name ->
  dirname (root ++ T "/" ++ name) = root.
Proof.
  intros N E H. unfold dirname.
  assert (U : upto_slash (rev (root ++ T "/" ++ name))
              = (rev name, ch "/" :: rev root)).
  { rewrite !rev_app_distr. cbn [T list_ascii_of_string rev app].
    rewrite <- app_assoc. cbn [app].
    assert (G : forall s r, ~ In (ch "/") s ->
              upto_slash (s ++ ch "/" :: r) = (s, ch "/" :: r)).
    { clear. induction s as [| c s IH]; intros r H.
      - reflexivity.
      - cbn [app upto_slash]. destruct (Ascii.eqb c (ch "/")) eqn:E.
        + apply Ascii.eqb_eq in E. subst. elim H. now left.
        + rewrite IH; [easy|]. intros X. apply H. now right. }
    apply G. intros X. apply H. now apply in_rev. }
  rewrite U. cbn [snd].
  destruct (rev root) as [| c r] eqn:R.
  { apply (f_equal (@rev ascii)) in R. rewrite rev_involutive in R. easy. }
  assert (C : Ascii.eqb c (ch "/") = false).
  { apply not_true. intros X. apply Ascii.eqb_eq in X. subst c.
    apply (E (rev r)). rewrite <- (rev_involutive root), R. reflexivity. }
  cbn [forallb]. rewrite Ascii.eqb_refl, C. cbn [andb lstrip_by].
  rewrite Ascii.eqb_refl, C, <- R. apply rev_involutive.
Qed.

Lemma root_installed sy root f :
  installed sy root -> sy_file sy = Some f -> root_of f = root.
Proof.
  intros (N & E & F) F'.
  assert (f = root ++ T "/pyrichlet/_version.py") by congruence. subst f.
  unfold root_of.
  change (split_on (ch "/") cfg_versionfile_source)
    with [T "pyrichlet"; T "_version.py"]. cbn [fold_left].
  replace (root ++ T "/pyrichlet/_version.py")
    with ((root ++ T "/pyrichlet") ++ T "/" ++ T "_version.py")
    by (rewrite <- app_assoc; reflexivity).
  rewrite dirname_app.
  - change (T "/pyrichlet") with (T "/" ++ T "pyrichlet").
    apply dirname_app; try easy.
    cbn. intuition discriminate.
  - now destruct root.
  - intros r X. apply (f_equal (@rev ascii)) in X.
    rewrite !rev_app_distr in X. discriminate X.
  - cbn. intuition discriminate.
Qed.

(* ------------------------------------------------------------------ *)

Lemma chop_hex s c : is_hex c = true -> chop (s ++ [c]) = s ++ [c].
Proof.
  intros H. unfold chop. rewrite rev_app_distr. cbn [rev app].
  destruct (Ascii.eqb c LF) eqn:E; [|easy].
  apply Ascii.eqb_eq in E. subst. discriminate H.
Qed.

Lemma Forall_hex s : Forall hex_digit s <-> Forall (fun c => is_hex c = true) s.
Proof. rewrite !Forall_forall. split; intros H c X; now apply is_hex_iff, H. Qed.

Lemma Forall_dig s : Forall digit s <-> Forall (fun c => is_digit c = true) s.
Proof. rewrite !Forall_forall. split; intros H c X; now apply is_digit_iff, H. Qed.

Lemma match_exact tag dig hex :
  tag <> [] -> one_line tag -> dig <> [] -> Forall digit dig -> hex_text hex ->
  describe_match (tag ++ T "-" ++ dig ++ T "-g" ++ hex) = Some (tag, dig, hex).
Proof.
  intros Nt Lt Nd Dd [Nh Hh]. unfold describe_match.
  assert (Ch : chop (tag ++ T "-" ++ dig ++ T "-g" ++ hex)
               = tag ++ T "-" ++ dig ++ T "-g" ++ hex).
  { destruct (exists_last Nh) as (h & c & ->).
    rewrite !app_assoc. apply chop_hex. rewrite Forall_hex in Hh.
    apply Forall_app in Hh as [_ Hh]. now inversion Hh. }
  rewrite Ch. clear Ch.
  replace (rev (tag ++ T "-" ++ dig ++ T "-g" ++ hex))
    with (rev hex ++ ch "g" :: ch "-" :: rev dig ++ ch "-" :: rev tag).
  2:{ rewrite !rev_app_distr. cbn [T list_ascii_of_string rev app].
      rewrite <- !app_assoc. reflexivity. }
  rewrite span_exact; [| apply Forall_rev; now apply Forall_hex | reflexivity].
  destruct (rev hex) as [| h0 hr] eqn:Eh.
  { apply (f_equal (@rev ascii)) in Eh. rewrite rev_involutive in Eh. easy. }
  rewrite !Ascii.eqb_refl. cbn [andb].
  rewrite span_exact; [| apply Forall_rev; now apply Forall_dig | reflexivity].
  destruct (rev dig) as [| d0 dr] eqn:Ed.
  { apply (f_equal (@rev ascii)) in Ed. rewrite rev_involutive in Ed. easy. }
  rewrite Ascii.eqb_refl. cbn [andb].
  replace (has LF (rev tag)) with false.
  2:{ symmetry. apply has_not. rewrite <- in_rev. exact Lt. }
  cbn [negb]. destruct (rev tag) as [| t0 tr] eqn:Et.
  { apply (f_equal (@rev ascii)) in Et. rewrite rev_involutive in Et. easy. }
  rewrite <- Eh, <- Ed, <- Et, !rev_involutive. reflexivity.
Qed.

Lemma match_inv s tag dig hex :
  describe_match s = Some (tag, dig, hex) ->
  tag <> [] /\ one_line tag /\ dig <> [] /\ Forall digit dig /\ hex_text hex /\
  chop s = tag ++ T "-" ++ dig ++ T "-g" ++ hex.
Proof.
  unfold describe_match. destruct (span is_hex (rev (chop s))) as [h r1] eqn:E1.
  apply span_inv in E1 as (E1 & H1 & _).
  destruct h as [| h0 hr]; [easy|]. destruct r1 as [| g [| d1 r2]]; try easy.
  destruct (Ascii.eqb g (ch "g") && Ascii.eqb d1 (ch "-")) eqn:G; [|easy].
  apply andb_true_iff in G as [G1 G2].
  apply Ascii.eqb_eq in G1, G2. subst g d1.
  destruct (span is_digit r2) as [d r3] eqn:E2.
  apply span_inv in E2 as (E2 & H2 & _).
  destruct d as [| d0 dr]; [easy|]. destruct r3 as [| d2 t]; [easy|].
  destruct (Ascii.eqb d2 (ch "-") && negb (has LF t)) eqn:G; [|easy].
  apply andb_true_iff in G as [G1 G2]. apply Ascii.eqb_eq in G1. subst d2.
  apply negb_true_iff, has_not in G2.
  destruct t as [| t0 tr]; [easy|].
  intros Q.
  assert (Qt : tag = rev (t0 :: tr)) by congruence.
  assert (Qd : dig = rev (d0 :: dr)) by congruence.
  assert (Qh : hex = rev (h0 :: hr)) by congruence.
  clear Q. subst tag dig hex.
  assert (NE : forall (x : ascii) l, rev (x :: l) <> []).
  { intros x l X. apply (f_equal (@rev ascii)) in X.
    rewrite rev_involutive in X. discriminate X. }
  split; [apply NE|]. split.
  { unfold one_line. now rewrite <- in_rev. }
  split; [apply NE|]. split; [apply Forall_dig, Forall_rev, H2|].
  split; [split; [apply NE | apply Forall_hex, Forall_rev, H1]|].
  rewrite <- (rev_involutive (chop s)), E1, E2.
  rewrite !rev_app_distr. cbn [rev]. rewrite !rev_app_distr. cbn [rev].
  rewrite <- !app_assoc. reflexivity.
Qed.
