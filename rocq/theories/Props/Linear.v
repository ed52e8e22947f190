(** The message is read at most twice. *)
From Coq Require Import String.
From Verif Require Import Spec.Fips205 Spec.Fips205Hash.
From Verif Require Import Model.Api Spec.Vocab Spec.VocabWork Spec.VocabBytes Proof.TopBytes Proof.Toy.
Import ListNotations.
Open Scope list_scope.
Open Scope N_scope.

(** C82. The cost of a long message is linear. The bytes handed to the keyed hash functions during a
    verification are at most a constant of the parameter set plus once the length of the framed
    message, and during a signature at most a constant plus twice that length; the framed message is
    two bytes, the context and the message in pure mode, and at most 77 bytes and the context in
    pre-hash mode, however long the message is. A request with a refused context hands them nothing,
    and generating or importing a key, successful or not, at most a constant. (The pre-hash itself
    reads the message once, outside this count.) *)
Theorem work_linear_in_message :
  forall (T : Target) (P : Prims) (s : set_name),
    let t := table2 s in
    let len := chains s in
    let verify_calls := t_k t * (t_a t + 1) + 2 + t_d t * (15 * len + t_h' t + 1) in
    let sign_calls := 2 + t_k t * (3 * 2 ^ t_a t) + (t_k t * (t_a t + 1) + 1) +
      t_d t * ((2 ^ t_h' t - 1) * (16 * len + 2) + 16 * len + (15 * len + t_h' t + 1)) in
    let keygen_calls := 2 ^ t_h' t * (16 * len + 2) - 1 in
    (** the framed message enters a verification once, and a signature twice *)
    (forall pk M' sig tr, verifying_run s pk M' sig tr ->
       bytes_handed tr <= verify_calls * largest_call s + nlen M') /\
    (forall sk M' sig tr, signing_run s sk M' sig tr ->
       bytes_handed tr <= sign_calls * largest_call s + 2 * nlen M') /\
    (** a request with a refused context hands nothing to these functions *)
    (forall pk m sig ctx ph, 255 < nlen ctx ->
       bytes_handed (trace (verify (param_set s) pk m sig ctx)) = 0 /\
       bytes_handed (trace (hash_verify (param_set s) pk m sig ctx ph)) = 0) /\
    (forall r g sk m ctx ph hedged, 255 < nlen ctx ->
       bytes_handed (trace_of (try_sign_with_rng (param_set s) r sk m ctx hedged) g) = 0 /\
       bytes_handed (trace_of (try_hash_sign_with_rng (param_set s) r sk m ctx ph hedged) g) = 0) /\
    (** generation and import, successful or not *)
    (forall r g, bytes_handed (trace_of (try_keygen_with_rng (param_set s) r) g) <= keygen_calls * largest_call s) /\
    (forall bs, nlen bs = sk_size s ->
       bytes_handed (trace (sk_try_from_bytes (param_set s) bs)) <= keygen_calls * largest_call s) /\
    (** the framed messages *)
    (forall m ctx, nlen (Fips205.pure_M' m ctx) = 2 + nlen ctx + nlen m) /\
    (forall m ctx ph, nlen (Fips205.hash_M' (fst (PH_fn ph m)) (snd (PH_fn ph m)) ctx) <= 2 + nlen ctx + 11 + 64).
Proof. exact prop_work_linear_in_message. Qed.
Print Assumptions work_linear_in_message.

(** a toy signature, and the bound for it in numbers *)
Example work_linear_in_message_applies :
  exists sig t, signing_run (T := debug64) (P := toy_prims) SHA2_192s (tsk SHA2_192s) (Fips205.pure_M' toy_m toy_ctx) sig t /\
    bytes_handed t <= 3772965 * 1280 + 2 * (2 + nlen toy_ctx + nlen toy_m) /\ largest_call SHA2_192s = 1280.
Proof.
  destruct (toy_signs debug64 toy_prims SHA2_192s) as [sig V]. exists sig. eexists.
  assert (R := sign_pure (T := debug64) (P := toy_prims) SHA2_192s counter 5 _ toy_m toy_ctx true sig (toy_sk_typed toy_prims _) V).
  split; [exact R|]. split; [|reflexivity].
  destruct (work_linear_in_message debug64 toy_prims SHA2_192s) as (_ & K & _ & _ & _ & _ & F & _).
  rewrite <- F. exact (K _ _ _ _ R).
Qed.
