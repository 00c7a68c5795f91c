(* A quarter turn with a change of units, for the Examples of C93. *)
From Coq Require Import Lqa.
From Verif Require Import Prelude Numpy Rng M_Weights M_Niw M_Utils M_Mix M_Query S_Oracle S_MixEx S_Niw S_Mix S_Query S_GAffine.
Open Scope Q_scope.

(* (x, y) becomes (1 - 2 y, 2 x) *)
Definition turn : coords := CO 2 (fun i j => match i, j with 0%nat, 1%nat => -(2) | 1%nat, 0%nat => 2 | _, _ => 0 end) (fun i => match i with 0%nat => 1 | _ => 0 end).
Definition turned (x : vec) : vec := [1 - 2 * vat x 1; 2 * vat x 0].
(* squared distance over the trace of the covariance *)
Definition dist2 (x : vec) (a : atom) : Q :=
  ((vat x 0 - vat (fst a) 0) * (vat x 0 - vat (fst a) 0) + (vat x 1 - vat (fst a) 1) * (vat x 1 - vat (fst a) 1)) / (mat_at (snd a) 0 0 + mat_at (snd a) 1 1).
Definition turn_env (r : Q) : env := ex_env (fun x a => LQ (r - dist2 x a)).
Definition turn_qenv (rho : Q) : qenv := {|
  q_pdf := fun x m c => Ok (map (fun v => rho / (1 + dist2 v (m, c))) x);
  q_norm := fun x m v => Ok []; q_spectral := fun m k => Ok (map (fun _ => 0%nat) m);
  q_student := fun x m p nu => Ok []; q_normal := fun x m p => Ok []; q_mean_w := fun v x j => Ok 0; q_mode_w := fun v x j => Ok 0; q_resp := fun y x wm => Ok [] |}.
Definition turn_o : oracle := ex_oracle (1 # 2) (fun _ => 1 # 2) false (fun _ => 0%nat).
Definition turn_y : list vec := [[0; 0]; [1; 0]; [5; 5]; [5; 7]].

Lemma turn_rows l : (forall x, In x l -> length x = 2%nat) -> rows_moved turn l (map turned l).
Proof.
  induction l as [|x l IH]; intros H; [constructor|]. constructor; [|apply IH; intros z Hz; apply H; right; exact Hz].
  split; [apply H; left; reflexivity|]. split; [reflexivity|]. intros [|[|i]] Hi; [| |simpl in Hi; lia]; unfold coord, turned, lin, sum_over, vat; simpl; unfold coord; ring.
Qed.
Lemma turn_dist x x' a a' : point_moved turn x x' -> atom_moved turn a a' -> dist2 x' a' == dist2 x a.
Proof.
  intros (_ & _ & X) [(_ & _ & M) (_ & _ & S0)]. unfold dist2. change (vat x') with (fun i => coord i x'). change (vat (fst a')) with (fun i => coord i (fst a')). change (mat_at (snd a')) with (entry (snd a')).
  cbv beta. rewrite (X 0%nat), (X 1%nat), (M 0%nat), (M 1%nat), (S0 0%nat 0%nat), (S0 1%nat 1%nat) by (simpl; lia).
  unfold lin, sum_over, turn. simpl. unfold entry, coord, mat_at, vat.
  set (a0 := nth 0 x 0). set (a1 := nth 1 x 0). set (b0 := nth 0 (fst a) 0). set (b1 := nth 1 (fst a) 0). set (c0 := nth 0 (nth 0 (snd a) []) 0). set (c1 := nth 1 (nth 1 (snd a) []) 0).
  set (c2 := nth 1 (nth 0 (snd a) []) 0). set (c3 := nth 0 (nth 1 (snd a) []) 0).
  assert (T : forall N D N' D', N' == 4 * N -> D' == 4 * D -> N' / D' == N / D).
  { intros N D N' D' -> ->. destruct (Qeq_dec D 0) as [Z0|Z0]; [|field; exact Z0]. assert (Z1 : 4 * D == 0) by (rewrite Z0; ring). unfold Qdiv. rewrite Z1, Z0. change (/ 0) with 0. ring. }
  apply T; ring.
Qed.
Lemma turn_env_moved : env_moved turn (-(7)) (turn_env 0) (turn_env (-(7))).
Proof.
  constructor; [|reflexivity|reflexivity]. intros y y' a a' Hy Ha. simpl. split; [apply map_length|]. induction Hy as [|x x' y y' Hx Hy IH]; simpl; constructor; auto. simpl. rewrite (turn_dist x x' a a' Hx Ha). ring.
Qed.
Lemma turn_qenv_moved : qenv_moved turn (1 # 4) (turn_qenv 1) (turn_qenv (1 # 4)).
Proof.
  constructor; [|reflexivity]. intros y y' a a' Hy Ha. simpl. induction Hy as [|x x' y y' Hx Hy IH]; simpl; constructor; auto. rewrite <- !surjective_pairing. rewrite (turn_dist x x' a a' Hx Ha). unfold Qdiv. ring.
Qed.
Lemma turn_draws : draws_moved turn turn_o turn_o.
Proof.
  constructor; try (intros; reflexivity).
  - intros g g' y y' n _ H. simpl. induction H; simpl; congruence.
  - intros g g' nu psi psi' _ H. exact H.
  - intros g g' mu mu' sg sg' _ H _. exact H.
Qed.
Lemma turn_valid : valid_oracle turn_o.
Proof. apply ex_oracle_valid; [lra|intros _; lra]. Qed.
Definition turn_args : arg_moved turn (YArr2 turn_y 2) (YList2 (map turned turn_y) 2).
Proof.
  assert (H : rows_moved turn turn_y (map turned turn_y)) by (apply turn_rows; simpl; intuition; subst; reflexivity).
  repeat split; try discriminate; auto.
Qed.
(* the first model starts from given priors, the second from the same in the new coordinates *)
Definition turn_new (mu : vec) (psi : matr) : res (ms * rng) := new_mix (CDP 1) 0 0 (Some mu) (1 # 2) (Some psi) None 4 1 1 turn_o.
Definition turn_s (mu : vec) (psi : matr) : ms := match turn_new mu psi with Ok (s, _) => s | _ => ex_blank end.
Definition turn_s1 : ms := turn_s [1; 2] [[3; 1]; [1; 2]].
Definition turn_s2 : ms := turn_s [-(3); 2] [[8; -(4)]; [-(4); 12]].
Lemma turn_mu : point_moved turn [1; 2] [-(3); 2].
Proof. split; [reflexivity|]. split; [reflexivity|]. intros [|[|i]] Hi; [| |simpl in Hi; lia]; reflexivity. Qed.
Lemma turn_psi : cov_moved turn [[3; 1]; [1; 2]] [[8; -(4)]; [-(4); 12]].
Proof.
  assert (Sq : forall a b c d : Q, square 2 [[a; b]; [c; d]]) by (intros; split; [reflexivity|]; intros [|[|i]] Hi; [reflexivity|reflexivity|lia]).
  split; [apply Sq|]. split; [apply Sq|]. intros [|[|i]] [|[|j]] Hi Hj; simpl in Hi, Hj; try lia; reflexivity.
Qed.
Definition turn_fit (r : Q) (y : yarg) (s : ms) : res unit * ms * rng := fit_gibbs (turn_env r) (CDP 1) 40 y (SInt 2) false IKmeans turn_o s [].
