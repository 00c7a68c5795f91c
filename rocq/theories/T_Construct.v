(* Property theorems C104: what the mixture constructors accept and where the arguments go. *)
From Coq Require Import String Lqa Permutation.
From Verif Require Import Prelude Numpy M_Mix M_Construct S_Construct P_Construct.
Open Scope string_scope.

Theorem c104_constructs :
  forall c kw, distinct kw ->
  ((exists m, mix_new c kw = Ok m) <-> all_parameters c kw /\ weight_fine c kw /\ exists t b s, iterations kw t b s /\ (b < t)%Q).
Proof. exact constructs_proof. Qed.
Print Assumptions c104_constructs.

Theorem c104_stores :
  forall c kw m, distinct kw -> mix_new c kw = Ok m ->
  stores c kw m /\ exists t b s, iterations kw t b s /\ mo_total m = py_int t /\ mo_burn m = py_int b /\ mo_sub m = py_int s.
Proof. exact stores_proof. Qed.
Print Assumptions c104_stores.

Theorem c104_unknown_keyword :
  forall c kw, distinct kw -> ~ all_parameters c kw -> weight_fine c kw \/ c = XBIB \/ c = XBBin -> mix_new c kw = Err TypeError.
Proof. exact unknown2_proof. Qed.
Print Assumptions c104_unknown_keyword.

Theorem c104_too_short :
  forall c kw t b s, distinct kw -> all_parameters c kw -> weight_fine c kw -> iterations kw t b s -> (t <= b)%Q ->
  mix_new c kw = Err AssertionError.
Proof. exact too_short_proof. Qed.
Print Assumptions c104_too_short.

Theorem c104_order_irrelevant :
  forall c kw kw', distinct kw -> Permutation kw kw' -> mix_new c kw = mix_new c kw'.
Proof. exact order_proof. Qed.
Print Assumptions c104_order_irrelevant.

Theorem c104_default_explicit :
  forall c kw k d, parameter c k d -> ~ In k (map fst kw) -> mix_new c ((k, d) :: kw) = mix_new c kw.
Proof. exact default_proof. Qed.
Print Assumptions c104_default_explicit.

(* p and the optimiser's step bound of a BetaInBetaMixture cannot be chosen *)
Theorem c104_beta_in_beta_fixed :
  forall kw m, mix_new XBIB kw = Ok m -> attribute m "p" (CvInt 0) /\ attribute m "p_optim_max_steps" (CvInt 10).
Proof. exact bib_fixed_proof. Qed.
Print Assumptions c104_beta_in_beta_fixed.

Theorem c104_beta_in_beta_refuses :
  forall kw k v, distinct kw -> In (k, v) kw -> k = "p" \/ k = "p_optim_max_steps" \/ k = "show_progress" ->
  mix_new XBIB kw = Err TypeError.
Proof. exact bib_p_proof. Qed.
Print Assumptions c104_beta_in_beta_refuses.

Theorem c104_dirichlet_number :
  forall kw m n v q, distinct kw -> mix_new XDirDist kw = Ok m ->
  given kw "n" (CvInt 1) (CvInt n) -> given kw "alpha" (CvInt 1) v ->
  (exists z, v = CvInt z /\ q = inject_Z z) \/ v = CvFloat q ->
  exists l, attribute m "alpha" (CvArr l) /\ length l = Z.to_nat n /\ Forall (fun x => x = q) l.
Proof. exact dd_number_proof. Qed.
Print Assumptions c104_dirichlet_number.

Theorem c104_dirichlet_list :
  forall kw m l v, distinct kw -> mix_new XDirDist kw = Ok m -> given kw "alpha" (CvInt 1) v ->
  v = CvList l \/ v = CvArr l -> attribute m "alpha" (CvArr l).
Proof. exact dd_list_proof. Qed.
Print Assumptions c104_dirichlet_list.

(* a numpy number (or any other type) as alpha leaves the attribute unset *)
Theorem c104_dirichlet_lost :
  forall kw m v, distinct kw -> mix_new XDirDist kw = Ok m -> given kw "alpha" (CvInt 1) v ->
  (forall l, v <> CvList l) -> (forall l, v <> CvArr l) -> (forall z, v <> CvInt z) -> (forall q, v <> CvFloat q) ->
  forall u, ~ attribute m "alpha" u.
Proof. exact dd_lost_proof. Qed.
Print Assumptions c104_dirichlet_lost.

(* show_progress, documented for every mixture, is refused by two classes *)
Theorem c104_show_progress_refuted :
  exists c kw, kw = [("show_progress", CvBool true)] /\ c = XBBin /\ mix_new c kw = Err TypeError.
Proof. exact (ex_intro _ XBBin (ex_intro _ _ (conj eq_refl (conj eq_refl eq_refl)))). Qed.
Print Assumptions c104_show_progress_refuted.

(* the length of alpha need not be n *)
Theorem c104_dirichlet_length_refuted :
  exists kw m l, mix_new XDirDist kw = Ok m /\ attribute m "n" (CvInt 3) /\ attribute m "alpha" (CvArr l) /\ length l = 2%nat.
Proof.
  exact (ex_intro _ [("n", CvInt 3); ("alpha", CvList [1; 2]%Q)] (ex_intro _ _ (ex_intro _ [1; 2]%Q
    (conj eq_refl (conj (or_introl eq_refl) (conj (or_intror (or_introl eq_refl)) eq_refl)))))).
Qed.
Print Assumptions c104_dirichlet_length_refuted.

Example c104_ex_distinct : distinct call.
Proof. repeat (constructor; [cbn; intuition discriminate|]). constructor. Qed.
Example c104_ex_new : mix_new XDP call = Ok (MObj (WObj XDP [("alpha", CvFloat 2)]) None 4 2 1 CvNone (CvInt 1) CvNone CvNone (CvBool true) CvNone).
Proof. reflexivity. Qed.
Example c104_ex_order : mix_new XDP (rev call) = mix_new XDP call.
Proof. reflexivity. Qed.
Example c104_ex_parameters : all_parameters XDP call /\ weight_fine XDP call /\ iterations call 4 (5 # 2) 1.
Proof.
  split.
  - apply known_all. reflexivity.
  - split; [split; [exists CvNone; split; [right; split; [cbn; intuition discriminate|reflexivity]|left; reflexivity]|exact I]|].
    exists (CvNpInt 4), (CvFloat (5 # 2)), (CvInt 1). split; [left; cbn; tauto|]. split; [left; cbn; tauto|]. split; [right; split; [cbn; intuition discriminate|reflexivity]|]. split; [reflexivity|split; reflexivity].
Qed.
Example c104_ex_short : mix_new XGeom [("total_iter", CvInt 100)] = Err AssertionError.
Proof. reflexivity. Qed.
Example c104_ex_unknown : mix_new XPY [("alhpa", CvInt 2)] = Err TypeError /\ mix_new XPY [("alhpa", CvInt 2); ("pyd", CvInt (-1))] = Err AssertionError.
Proof. split; reflexivity. Qed.
Example c104_ex_lost : exists m, mix_new XDirDist [("n", CvInt 2); ("alpha", CvNpFloat 1)] = Ok m /\ wo_attr (mo_weight m) = [("n", CvInt 2)].
Proof. eexists. split; reflexivity. Qed.
Example c104_ex_number : exists m, mix_new XDirDist [("n", CvInt 2); ("alpha", CvFloat (1 # 2))] = Ok m /\ attribute m "alpha" (CvArr [1 # 2; 1 # 2]%Q).
Proof. eexists. split; [reflexivity|right; left; reflexivity]. Qed.
Example c104_ex_bib : exists m, mix_new XBIB [("p_method", CvStr "static")] = Ok m.
Proof. eexists. reflexivity. Qed.
Example c104_ex_default : parameter XBIB "x" (CvInt 0) /\ parameter XDP "show_progress" (CvBool false).
Proof. split; [left; left; reflexivity|right; right; repeat split; discriminate]. Qed.
