(* An environment that computes the atoms of a variational fit, for examples. *)
From Coq Require Import Lqa.
From Verif Require Import Prelude Numpy Rng M_Weights M_Niw M_Utils M_Mix M_Query M_VarTheta S_Niw S_Mix S_Query S_VarFit S_MixEx P_MixEx P_QueryEx.
Open Scope Q_scope.

(* inverse of a 1 x 1 matrix *)
Definition inv1 (m : matr) : res matr := match m with [[q]] => if Qeq_bool q 0 then Err ValueError else Ok [[1 / q]] | _ => Err ValueError end.
Fixpoint somes {A} (l : list (option A)) : option (list A) :=
  match l with
  | [] => Some []
  | Some a :: t => match somes t with Some r => Some (a :: r) | None => None end
  | None :: _ => None
  end.
Definition theta_ex : env := {|
  e_logpdf := e_logpdf flat_env; e_log := e_log flat_env; e_argsort := ex_argsort; e_inv := e_inv flat_env; e_vd := e_vd flat_env;
  e_vtheta := fun y h D => match update_theta inv1 y h D with
                           | Ok l => Ok (match somes l with Some t => t | None => [] end)
                           | Err e => Err e
                           | Diverge => Diverge
                           end;
  e_elbo := e_elbo flat_env |}.
Lemma somes_map {A} (t : list A) : somes (map Some t) = Some t.
Proof. induction t; simpl; [reflexivity|]. rewrite IHt. reflexivity. Qed.
Lemma theta_ex_ok : theta_env inv1 theta_ex /\ resp_env theta_ex.
Proof.
  split; [|exact (flat_resp _)]. intros y h D. cbn [theta_ex e_vtheta]. destruct (update_theta inv1 y h D) as [l| |]; try reflexivity. intros t ->. rewrite somes_map. reflexivity.
Qed.
Lemma theta_run_ex : let s := fst (ex_run theta_ex (CDP 1) 0 5 1 1 o_half []) in (1 <= s_total s)%Z /\
  exists s' g', fit_variational theta_ex (CDP 1) y3 (SInt 2) false 1 IKmeans o_half s [] = (Ok tt, s', g') /\ vk (s_var s') = Some 2%Z /\ s_y s' <> [] /\ 0 < s_lam s' /\ length (vtheta (s_var s')) = 2%nat.
Proof.
  split; [vm_compute; discriminate|]. set (s := fst _). destruct (fit_variational theta_ex (CDP 1) y3 (SInt 2) false 1 IKmeans o_half s []) as [[r s'] g'] eqn:E. exists s', g'.
  assert (X : (r, vk (s_var s'), length (s_y s'), s_lam s', length (vtheta (s_var s'))) = (Ok tt, Some 2%Z, 3%nat, 1, 2%nat)).
  { transitivity (let '(r, s', g') := fit_variational theta_ex (CDP 1) y3 (SInt 2) false 1 IKmeans o_half s [] in (r, vk (s_var s'), length (s_y s'), s_lam s', length (vtheta (s_var s')))); [rewrite E; reflexivity|vm_compute; reflexivity]. }
  injection X as -> -> L -> ->. split; [reflexivity|]. split; [reflexivity|]. split; [intros H; rewrite H in L; discriminate L|]. split; reflexivity.
Qed.
Lemma theta_fit_ex : exists s, s_vfit s = true /\ vtheta (s_var s) <> [] /\ (exists x, cast_obs s (Some y3) = Ok x) /\
  (exists v, var_map_density flat_qenv s (Some y3) (DList [0%Z]) None = Ok v /\ length v = 3%nat) /\
  (exists v, var_eap_density flat_qenv s (Some y3) (DList [0%Z]) None = Ok v /\ length v = 3%nat) /\
  exists x, cast_obs s (Some (YList2 [[1]] 1)) = Ok (x, false).
Proof.
  exists (fst (ex_run theta_ex (CDP 1) 0 5 1 1 o_half [MVar y3 (SInt 2) false 1 IKmeans])).
  assert (F : forall (A B : Prop), A -> B -> A /\ B) by auto.
  apply F; [vm_compute; reflexivity|]. apply F; [vm_compute; discriminate|]. apply F; [eexists; vm_compute; reflexivity|].
  apply F; [eexists; split; [vm_compute; reflexivity|vm_compute; reflexivity]|]. apply F; [eexists; split; [vm_compute; reflexivity|vm_compute; reflexivity]|]. eexists; vm_compute; reflexivity.
Qed.
