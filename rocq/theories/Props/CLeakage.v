(** What an observer learns from calls of the C interface (ffi/src/lib.rs). *)
From Coq Require Import String.
From Verif Require Import Spec.Fips205 Spec.Fips205Hash.
From Verif Require Import Model.Api Spec.Vocab Model.Ffi Model.FfiMem Model.FfiTrace Spec.VocabC Spec.VocabLeak Spec.VocabPublic Spec.VocabCLeak Proof.TopC Proof.TopFfiLeak Proof.Toy Proof.ToyC Proof.ToyCLeak.
Import ListNotations.
Open Scope list_scope.
Open Scope N_scope.

(** C74. The C interface leaks nothing secret through control flow and memory accesses. Two calls of the
    C key-generation function, or of the C signing function with messages of the same length, that
    are given null pointers in the same places and return the same code, execute the same sequence
    of branches, loop bounds, array indices, slices, generator requests and hash calls (function,
    address and input lengths), whatever the keys, messages, random bytes and hash functions,
    provided that, when both sign successfully, the values that everyone recomputes who verifies the
    two signatures are the same, when key generation fails, both fail at the same request to the
    generator, and when both refuse an inconsistent private key, the root stored in it first differs
    from the right one at the same byte. So a signing call refused because the generator failed
    reveals only that fact, and one refused because the stored key is inconsistent reveals only that
    and where its root is wrong. *)
Theorem c_calls_leak_only_public :
  forall (T : Target) (P1 P2 : Prims) (os1 os2 : Rng) (g1 g1' : rng_st os1) (g2 g2' : rng_st os2)
         (M1 M1' M2 M2' : cmem) (op1 op2 : c_op) (code : N),
    same_call op1 op2 -> legal M1 op1 -> legal M2 op2 ->
    c_step (P := P1) os1 g1 M1 op1 = (g1', FReturn code M1') ->
    c_step (P := P2) os2 g2 M2 op2 = (g2', FReturn code M2') ->
    (code = 0 -> c_public (P := P1) op1 M1 M1' = c_public (P := P2) op2 M2 M2') ->
    (code = 3 -> c_refused_at (P := P1) op1 M1 = c_refused_at (P := P2) op2 M2) ->
    (code = 4 -> requests (c_events (P := P1) os1 g1 M1 op1) = requests (c_events (P := P2) os2 g2 M2 op2)) ->
    leakage (c_events (P := P1) os1 g1 M1 op1) = leakage (c_events (P := P2) os2 g2 M2 op2).
Proof. exact prop_c_calls_leak_only_public. Qed.
Print Assumptions c_calls_leak_only_public.

(** two programs with different hash functions, private keys and messages whose signatures show a verifier
    the same values *)
Example c_calls_leak_only_public_applies :
  sha256 (Prims := sha_prims (n2b 1)) (nrepeat (n2b 0) 74) <> sha256 (Prims := sha_prims (n2b 2)) (nrepeat (n2b 0) 74) /\
  same_call (CSign 300 5 200 1000) (CSign 300 5 200 1000) /\
  exists M1 M2 g1 g2 M1' M2',
    legal (T := debug64) M1 (CSign 300 5 200 1000) /\ legal (T := debug64) M2 (CSign 300 5 200 1000) /\
    load M1 300 5 <> load M2 300 5 /\ load M1 200 16 <> load M2 200 16 /\
    c_step (T := debug64) (P := sha_prims (n2b 1)) counter 3 M1 (CSign 300 5 200 1000) = (g1, FReturn 0 M1') /\
    c_step (T := debug64) (P := sha_prims (n2b 2)) counter 8 M2 (CSign 300 5 200 1000) = (g2, FReturn 0 M2') /\
    c_public (P := sha_prims (n2b 1)) (CSign 300 5 200 1000) M1 M1' =
    c_public (P := sha_prims (n2b 2)) (CSign 300 5 200 1000) M2 M2'.
Proof.
  split; [exact sha_prims_differ|]. split; [|exact sha_programs].
  cbn [same_call]. unfold same_null. repeat split; trivial.
Qed.
