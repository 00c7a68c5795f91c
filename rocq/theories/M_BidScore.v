(* The values of the scores of BetaInDirichlet.random; M_Weights.bid_logits
   keeps only which of them are finite. *)
From Coq Require Import Reals.
From Verif Require Import Prelude Numpy M_Weights M_Ext.
Open Scope R_scope.

(* _beta_in_dirichlet.py:82-85: an occupied base with stick x; ac, bc are
   a_c[j], b_c[j] *)
Definition bid_old_score (count ac bc : nat) (x : R) : ext :=
  ext_add (ext_add (ext_log (EF (INR count))) (ext_scale (INR ac) (ext_log (EF x)))) (ext_scale (INR bc) (ext_log (EF (1 - x)))).
(* _beta_in_dirichlet.py:72-75: the new base; lg is scipy's loggamma *)
Definition bid_new_score (lg : R -> R) (al a : R) (ac bc : nat) : ext :=
  ext_add (ext_log (EF a)) (EF (lg (1 + INR ac) + lg (al + INR bc) - lg (1 + al + INR ac + INR bc))).
(* _beta_in_dirichlet.py:66-87; red is d_base_reduced, kmax its maximum, dds the
   rest of range(k + 2) *)
Fixpoint bid_scores (lg : R -> R) (al a : R) (vb : list R) (ac bc : nat) (red : list nat) (kmax : nat) (dds : list nat) (new_base : bool) : list ext :=
  match dds with
  | [] => []
  | dd :: t =>
      let c := ncount dd red in
      if Nat.eqb c 0 && negb new_base then bid_new_score lg al a ac bc :: bid_scores lg al a vb ac bc red kmax t true
      else if Nat.eqb c 0 then
             (if (dd <? kmax + 1)%nat then ENI :: bid_scores lg al a vb ac bc red kmax t new_base
              else bid_scores lg al a vb ac bc red kmax t new_base)
      else bid_old_score c ac bc (nth dd vb 0) :: bid_scores lg al a vb ac bc red kmax t new_base
  end.
