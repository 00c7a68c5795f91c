(* C77: latent updates that are, and are not, exact conditionals. *)
From Coq Require Import Reals Qreals Lra.
From Verif Require Import Prelude Numpy Rng M_Weights M_Ext M_Var M_BidScore S_Weights S_Draws S_More S_Oracle S_Var S_Opt S_Cond S_Latent P_Lists P_Var P_Var27 P_Var31 P_Latent P_Latent2.
Open Scope R_scope.

Theorem c77_marginal_is_moment :
  forall al,
  (0 < al)%Q -> beta_moments 1 (Q2R al) (fun A B => Q2R (marg al A B)).
Proof. exact c77_marg_proof. Qed.
Print Assumptions c77_marginal_is_moment.

Theorem c77_base_scores_exact_iff :
  forall lg al a vb A B red,
  log_gamma_like lg -> (0 < al)%Q -> 0 < a -> red <> [] -> (forall r, In r red -> 0 < nth r vb 0 < 1) ->
  let scores := bid_scores lg (Q2R al) a vb A B red (nmax red) (seq 0 (nmax red + 2)) false in
  ((exists C, forall dd, score_weight (nth dd scores ENI) = C * base_weight al a vb A B red dd) <-> (al == 1)%Q).
Proof. exact c77_bid_proof. Qed.
Print Assumptions c77_base_scores_exact_iff.

Theorem c77_scores_match_requests :
  forall lg al a vb A B red kmax,
  0 < a -> (forall r, In r red -> 0 < nth r vb 0 < 1) -> forall dds nb,
  map (fun x => match x with EF _ => true | _ => false end) (bid_scores lg al a vb A B red kmax dds nb) = bid_logits red kmax dds nb.
Proof. exact c77_bid_link_proof. Qed.
Print Assumptions c77_scores_match_requests.

Theorem c77_new_base_stick_refuted :
  
  exists o s r s' g', valid_oracle o /\ d s = [0; 0; 1; 1]%nat /\ wm_random (CBID 1 1) SNone o s [] = (Ok r, s', g') /\
  g' = [rbeta 5 3; RGumbel [true; true]; rbeta 1 1; RGumbel [true; true]; rbeta 1 1] /\ dbase s' = [1; 1]%nat /\ v s' = beta_answers o (firstn 2 g') [rbeta 1 1; rbeta 1 1] /\
  (forall x, 0 < x < 1 -> log_lik (stick_weight (fun _ => x)) (d s) + beta_kernel 1 1 x = beta_kernel 5 3 x) /\
  ~ proportional (fun x => exp (beta_kernel 1 1 x)) (fun x => exp (beta_kernel 5 3 x)).
Proof. exact c77_bid_stick_proof. Qed.
Print Assumptions c77_new_base_stick_refuted.

Theorem c77_beta_in_beta_p_refuted :
  forall x al a b pm o s g,
  valid_oracle o -> (0 < x)%Q -> (x < 1)%Q -> (0 < al)%Q -> (0 < a)%Q -> (0 < b)%Q -> pm = PGeometric \/ pm = PIndependent -> (0 <= p s <= 1)%Q -> d s = [0%nat] ->
  let c := Q2R x / (1 - Q2R x) in
  exists rq rest, snd (wm_random (CBIB x al a b pm) SNone o s g) = g ++ rq :: rest /\
    ~ proportional (fun q => exp (req_kernel rq q)) (fun q => exp (beta_kernel (Q2R a) (Q2R b) q) * beta_mean (1 + c * q) (Q2R al + c * (1 - q))).
Proof. exact c77_bib_proof. Qed.
Print Assumptions c77_beta_in_beta_p_refuted.

Theorem c77_beta_in_beta_p_given_stick_refuted :
  forall dens a b pm o s g y,
  beta_density_at_integers dens -> valid_oracle o -> (0 < a)%Q -> (0 < b)%Q -> pm = PGeometric \/ pm = PIndependent -> (0 <= p s <= 1)%Q -> d s = [0%nat] -> 0 < y < 1 ->
  exists rq rest, snd (wm_random (CBIB (4 # 5) 1 a b pm) SNone o s g) = g ++ rq :: rest /\
    ~ proportional (fun q => exp (req_kernel rq q)) (fun q => exp (beta_kernel (Q2R a) (Q2R b) q) * dens (1 + 4 * q) (1 + 4 * (1 - q)) y).
Proof. exact c77_bib_given_stick_proof. Qed.
Print Assumptions c77_beta_in_beta_p_given_stick_refuted.

Theorem c77_beta_binomial_counts_refuted :
  forall n al size k o s g,
  valid_oracle o -> (0 < n)%Z -> (0 < al)%Q -> d s = [0%nat] -> (size = SNone /\ k = 1%nat \/ size = SInt (Z.of_nat k)) ->
  exists rq rest, snd (wm_random (CBBin n al) size o s g) = g ++ rq :: rest /\
    ~ proportional (fun y => exp (req_kernel rq y)) (fun y => exp (beta_kernel 1 (Q2R al) y) * trials (Z.to_nat n) y (fun b => beta_mean (1 + INR b) (Q2R al + IZR n - INR b))).
Proof. exact c77_bbin_proof. Qed.
Print Assumptions c77_beta_binomial_counts_refuted.

Theorem c77_beta_bernoulli_indicator_refuted :
  
  exists o s r s' g', valid_oracle o /\ d s = [0; 1; 2]%nat /\ wm_random (CBB (1 # 2) 1) SNone o s [] = (Ok r, s', g') /\
  firstn 4 g' = [rbinom 1 (1 # 2); rbinom 1 (1 # 2); rbinom 1 (1 # 2); rbinom 1 (12 # 13)] /\ firstn 3 (bern s') = [0; 1; 1]%nat /\
  (indicator_prob (1 # 2) 1 [0; 1; 1]%nat (d s) 1 == 5 # 11)%Q.
Proof. exact c77_bb_proof. Qed.
Print Assumptions c77_beta_bernoulli_indicator_refuted.

Theorem c77_beta_bernoulli_last_indicator_refuted :
  
  exists o s r s' g', valid_oracle o /\ d s = [0; 1; 1]%nat /\ wm_random (CBB (1 # 2) 1) SNone o s [] = (Ok r, s', g') /\
  (forall q, In (RBinom 1 q) g' -> q = (1 # 2)%Q) /\ firstn 2 (bern s') = [0; 1]%nat /\
  (indicator_prob (1 # 2) 1 [0; 1]%nat (d s) 1 == 5 # 8)%Q.
Proof. exact c77_bb_last_proof. Qed.
Print Assumptions c77_beta_bernoulli_last_indicator_refuted.

Definition c77_s : ws := set_p (1 # 2)%Q (set_d [0]%nat (ws_init 0 0)).
Example c77_nontrivial : (exists lg, log_gamma_like lg) /\ (exists dens, beta_density_at_integers dens) /\ valid_oracle (full_oracle (1 # 2)) /\ d c77_s = [0]%nat /\ (0 <= p c77_s <= 1)%Q /\
  (marg 2 1 1 == 1 # 6)%Q /\ stick_no [0; 1; 0; 1]%nat 2 = 1%nat /\ hits [0; 1; 0; 1]%nat [0; 1; 2; 2]%nat 1 = 3%nat /\ passes [0; 1; 0; 1]%nat [0; 1; 2; 2]%nat 1 = 2%nat /\ (forall r, In r [0; 1; 1]%nat -> 0 < nth r [1 / 2; 1 / 3] 0 < 1).
Proof.
  split; [apply log_gamma_exists|]. split; [apply dens_exists|]. split; [apply full_oracle_valid; split; discriminate|]. split; [reflexivity|]. split; [split; discriminate|]. split; [reflexivity|]. split; [reflexivity|]. split; [reflexivity|]. split; [reflexivity|].
  intros r [<-|[<-|[<-|[]]]]; simpl; Lra.lra.
Qed.
