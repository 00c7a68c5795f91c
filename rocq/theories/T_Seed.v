(* C25: the rng argument. *)
From Verif Require Import Prelude M_Seed S_Seed P_Seed.

Theorem c25_accepted_iff :
  forall v h, is_ok (fst (rng_parser v h)) = true <->
    v = VNone \/ (exists z, (0 <= z)%Z /\ v = VInt z) \/ exists a, v = VGen a.
Proof. exact c25_accepted_proof. Qed.
Print Assumptions c25_accepted_iff.

Theorem c25_rejected_how :
  forall v h e, fst (rng_parser v h) = Err e ->
    snd (rng_parser v h) = h /\
    ((exists z, (z < 0)%Z /\ v = VInt z /\ e = ValueError) \/ ((forall z, v <> VInt z) /\ e = TypeError)).
Proof. exact c25_error_proof. Qed.
Print Assumptions c25_rejected_how.

(* a Generator is shared: the two objects take turns on one stream *)
Theorem c25_generator_shared :
  forall a g h l, nth_error h a = Some g ->
    mixture_rngs (VGen a) h = (Ok (a, a), h) /\
    map snd (fst (draws a a l h)) = map (fun i => Some (gsrc g, (gpos g + i)%nat)) (seq 0 (length l)).
Proof. exact c25_shared_proof. Qed.
Print Assumptions c25_generator_shared.

(* an int seed: two objects that both replay the stream of that seed *)
Theorem c25_int_seed_same_stream :
  forall z h l, (0 <= z)%Z -> exists wa ma h', mixture_rngs (VInt z) h = (Ok (wa, ma), h') /\ wa <> ma /\
    (forall a, a < length h -> nth_error h' a = nth_error h a) /\
    let r := fst (draws wa ma l h') in
    of_who Weight r = map (fun i => Some (Seed z, i)) (seq 0 (turns Weight l)) /\
    of_who Mixture r = map (fun i => Some (Seed z, i)) (seq 0 (turns Mixture l)).
Proof. exact c25_seed_proof. Qed.
Print Assumptions c25_int_seed_same_stream.

(* None: two objects with streams of their own *)
Theorem c25_none_separate_streams :
  forall h l, exists wa ma h' sw sm, mixture_rngs VNone h = (Ok (wa, ma), h') /\ wa <> ma /\ sw <> sm /\
    (forall a, a < length h -> nth_error h' a = nth_error h a) /\
    let r := fst (draws wa ma l h') in
    of_who Weight r = map (fun i => Some (sw, i)) (seq 0 (turns Weight l)) /\
    of_who Mixture r = map (fun i => Some (sm, i)) (seq 0 (turns Mixture l)).
Proof. exact c25_none_proof. Qed.
Print Assumptions c25_none_separate_streams.

(* with an int seed no draw is used twice: false, the first draws coincide *)
Theorem c25_int_seed_fresh_draws_refuted :
  exists z wa ma h', (0 <= z)%Z /\ mixture_rngs (VInt z) [] = (Ok (wa, ma), h') /\
    exists x, of_who Weight (fst (draws wa ma [Weight; Mixture] h')) = [Some x] /\
              of_who Mixture (fst (draws wa ma [Weight; Mixture] h')) = [Some x].
Proof. exists 7%Z. eexists _, _, _. split; [discriminate|]. split; [reflexivity|]. eexists. split; reflexivity. Qed.
Print Assumptions c25_int_seed_fresh_draws_refuted.

Example c25_nontrivial :
  nth_error [Gen (Seed 3) 5] 0 = Some (Gen (Seed 3) 5) /\
  fst (draws 0 0 [Weight; Mixture; Weight] [Gen (Seed 3) 5]) =
    [(Weight, Some (Seed 3, 5)); (Mixture, Some (Seed 3, 6)); (Weight, Some (Seed 3, 7))].
Proof. split; reflexivity. Qed.
Example c25_rejects_bool : fst (rng_parser (VBool true) []) = Err TypeError.
Proof. reflexivity. Qed.
