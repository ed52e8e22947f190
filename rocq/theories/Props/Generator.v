(** What the random generator can do to keys and signatures. *)
From Coq Require Import String.
From Verif Require Import Spec.Fips205 Spec.Fips205Hash.
From Verif Require Import Model.Api Spec.Vocab Spec.VocabRand Proof.TopCorrect Proof.TopRand Proof.Toy Proof.ToyForge.
Import ListNotations.
Open Scope list_scope.
Open Scope N_scope.

(** C78. A weak generator can only repeat itself. Whatever the random generator does (repeats its output
    after a restored snapshot, is constant, or is chosen by an attacker), it influences a signature
    only through one string of n bytes, and only through the first n bytes of the signature, which
    are PRF_msg (SHAKE256 or HMAC under the secret key part SK.prf) of that string and the framed
    message. Two signatures of one key with the same first n bytes are of the same message with the
    same string, and then identical, or exhibit a collision of that keyed function; two signatures
    of the same message with the same first n bytes are identical. In key generation nothing the
    generator supplies is lost: the three strings of n bytes are the first three parts of the
    private key, and two key generations that return the same private key received the same strings. *)
Theorem generator_reaches_signatures :
  forall (T : Target) (P : Prims) (s : set_name),
    (** every signature is issued with one random string of n bytes, and its first n bytes are made from it *)
    (forall sk M' sig tr, signing_run s sk M' sig tr -> exists x, issued_with s sk M' x sig) /\
    (forall sk M' x sig, sk_typed s sk -> issued_with s sk M' x sig ->
       nlen x = seed_bytes s /\ block s sig 0 = keyed_digest s (sk_prf sk) (x ++ M')) /\
    (** the rest depends on the random string only through these n bytes, which differ unless message and random
        string are the same, or the keyed function collides *)
    (forall sk M1 x1 sig1 M2 x2 sig2, sk_typed s sk -> issued_with s sk M1 x1 sig1 -> issued_with s sk M2 x2 sig2 ->
       (M1 = M2 -> x1 = x2 -> sig1 = sig2) /\
       (block s sig1 0 = block s sig2 0 ->
          (M1 = M2 -> sig1 = sig2) /\
          (M1 = M2 /\ x1 = x2 \/
           x1 ++ M1 <> x2 ++ M2 /\ keyed_digest s (sk_prf sk) (x1 ++ M1) = keyed_digest s (sk_prf sk) (x2 ++ M2)))) /\
    (** all three strings drawn in key generation are in the private key, the third also in the public key *)
    (forall r g pk sk, call (try_keygen_with_rng (param_set s) r) g = Val (pk, sk) ->
       exists a b c root, drawn s r g a b c /\
         result (sk_into_bytes (param_set s) sk) = Val (a ++ b ++ c ++ root) /\
         result (pk_into_bytes (param_set s) pk) = Val (c ++ root)) /\
    (** so two runs that return the same private key received the same strings *)
    (forall r1 g1 r2 g2 pk1 pk2 sk, call (try_keygen_with_rng (param_set s) r1) g1 = Val (pk1, sk) ->
       call (try_keygen_with_rng (param_set s) r2) g2 = Val (pk2, sk) ->
       pk1 = pk2 /\ exists a b c, drawn s r1 g1 a b c /\ drawn s r2 g2 a b c).
Proof. exact prop_generator_reaches_signatures. Qed.
Print Assumptions generator_reaches_signatures.

(** two signatures of different messages with the same first n bytes, under hash functions that ignore their
    input, with the random strings of two states of a generator *)
Example generator_reaches_signatures_applies :
  exists sk sig1 sig2, sk_typed SHAKE_128s sk /\
    issued_with (T := debug64) (P := weak_prims) SHAKE_128s sk [n2b 1] (nrepeat (n2b 5) 16) sig1 /\
    issued_with (T := debug64) (P := weak_prims) SHAKE_128s sk [n2b 2] (nrepeat (n2b 6) 16) sig2 /\
    block SHAKE_128s sig1 0 = block SHAKE_128s sig2 0 /\
    (exists pk, call (try_keygen_with_rng (T := debug64) (P := weak_prims) (param_set SHAKE_128s) counter) 0 = Val (pk, sk)) /\
    drawn SHAKE_128s counter 0 (nrepeat (n2b 0) 16) (nrepeat (n2b 1) 16) (nrepeat (n2b 2) 16).
Proof.
  pose proof (toy_sk_typed weak_prims SHAKE_128s) as W.
  pose proof (prop_raw_signatures_verify debug64 weak_prims SHAKE_128s _ _ (toy_key_pair debug64 weak_prims SHAKE_128s) counter) as K.
  destruct (proj2 (K 5 [n2b 1] true)) as [sig1 E1]; [apply counter_ok|].
  destruct (proj2 (K 6 [n2b 2] true)) as [sig2 E2]; [apply counter_ok|].
  assert (I1 : issued_with (T := debug64) (P := weak_prims) SHAKE_128s (snd (toy_key (P := weak_prims) SHAKE_128s)) [n2b 1] (nrepeat (n2b 5) 16) sig1).
  { eapply issued_raw; [exact E1|]. eexists. apply counter_gives. }
  assert (I2 : issued_with (T := debug64) (P := weak_prims) SHAKE_128s (snd (toy_key (P := weak_prims) SHAKE_128s)) [n2b 2] (nrepeat (n2b 6) 16) sig2).
  { eapply issued_raw; [exact E2|]. eexists. apply counter_gives. }
  destruct (generator_reaches_signatures debug64 weak_prims SHAKE_128s) as (_ & B & _).
  exists (snd (toy_key (P := weak_prims) SHAKE_128s)), sig1, sig2.
  split; [exact W|]. split; [exact I1|]. split; [exact I2|]. split; [|split].
  - rewrite (proj2 (B _ _ _ _ W I1)), (proj2 (B _ _ _ _ W I2)). reflexivity.
  - exists (fst (toy_key (P := weak_prims) SHAKE_128s)). rewrite (toy_keygen debug64 weak_prims SHAKE_128s).
    apply f_equal, surjective_pairing.
  - exists 1, 2, 3. split; [apply (counter_gives 0)|]. split; [apply (counter_gives 1)|apply (counter_gives 2)].
Qed.
