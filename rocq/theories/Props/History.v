(** Histories of calls that share a random generator. *)
From Coq Require Import String.
From Verif Require Import Spec.Fips205 Spec.Fips205Hash.
From Verif Require Import Model.Api Spec.Vocab Spec.VocabHist Proof.TopHist Proof.TopCorrect Proof.Toy.
Import ListNotations.
Open Scope list_scope.
Open Scope N_scope.

(** C29. Any history of API calls is consistent. In every finite sequence of key generations, signings,
    exports/imports and verifications that share one random generator, every signature issued
    verifies under the key pair that issued it, and the number of bytes drawn from the generator is
    exactly n for each hedged signature that was attempted with an acceptable context plus up to 3n
    per key generation. *)
Theorem histories_are_consistent :
  forall (T : Target) (P : Prims) (s : set_name) (r : Rng) (g0 : rng_st r) (reqs : list request) (g : rng_st r)
         (keys : list (SlhPublicKey * SlhPrivateKey)) (issued : list issue) (t : list event),
    history s r g0 reqs g keys issued t ->
    (forall i, In i issued -> accepted s i) /\
    (forall pk sk, In (pk, sk) keys -> key_pair s pk sk) /\
    Forall (fun k => k = seed_bytes s) (draws t) /\
    g = fold_left (fun g k => fst (try_fill r g k)) (draws t) g0 /\
    exists d, keygens reqs <= d <= 3 * keygens reqs /\
      bytes_drawn t = seed_bytes s * (hedged_attempts reqs + d) /\
      ((forall g, exists b g', gives r g (seed_bytes s) b g') -> d = 3 * keygens reqs).
Proof. exact prop_histories_are_consistent. Qed.
Print Assumptions histories_are_consistent.

(** a history with a key generation, a hedged signature and a verification by the same program *)
Example histories_are_consistent_applies :
  exists g sig t,
    history (T := debug64) (P := toy_prims) SHAKE_128f counter 0
      [ReqVerify (tpk SHAKE_128f) toy_m sig toy_ctx; ReqSign (tsk SHAKE_128f) toy_m toy_ctx true; ReqKeygen]
      g [(tpk SHAKE_128f, tsk SHAKE_128f)] [IssuePure (tpk SHAKE_128f) toy_m toy_ctx sig] t.
Proof.
  pose proof (h_keygen (T := debug64) (P := toy_prims) SHAKE_128f counter 0 _ _ _ _ _ (h_start _ _ _)) as S1.
  cbv zeta in S1.
  assert (K : call (try_keygen_with_rng (T := debug64) (P := toy_prims) (param_set SHAKE_128f) counter) 0
              = Val (tpk SHAKE_128f, tsk SHAKE_128f))
    by (rewrite (toy_keygen debug64 toy_prims SHAKE_128f); apply f_equal, surjective_pairing).
  rewrite K in S1. cbn [gain] in S1.
  pose proof (h_sign SHAKE_128f counter 0 _ _ _ _ _ _ _ toy_m toy_ctx true S1 (or_introl eq_refl)) as S2. cbv zeta in S2.
  match type of S2 with context [gain (call ?f ?g)] => assert (X : exists sig, call f g = Val sig) end.
  { apply (prop_pure_signatures_verify debug64 toy_prims SHAKE_128f _ _ (toy_key_pair _ toy_prims _)); [exact toy_ctx_le|].
    apply counter_ok. }
  destruct X as [sig X]. rewrite X in S2. cbn [gain] in S2.
  assert (L : nlen sig = sig_size SHAKE_128f).
  { eapply (prop_pure_signatures_verify debug64 toy_prims SHAKE_128f _ _ (toy_key_pair _ toy_prims _)); [exact toy_ctx_le|exact X]. }
  eexists. exists sig. eexists. exact (h_verify SHAKE_128f counter 0 _ _ _ _ _ (tpk SHAKE_128f) toy_m sig toy_ctx S2 L).
Qed.
