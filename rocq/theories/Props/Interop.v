(** The three interfaces agree. *)
From Coq Require Import String.
From Verif Require Import Spec.Fips205 Spec.Fips205Hash.
From Verif Require Import Model.Api Spec.Vocab Model.Ffi Model.Py Spec.VocabFfi Proof.TopInter Proof.Toy Proof.ToyKeys.
Import ListNotations.
Open Scope list_scope.
Open Scope N_scope.

(** C86. The Rust, C and Python interfaces agree. For SLH-DSA-SHA2-128f the three interfaces are
    interchangeable, even when they are built for different targets. With the same randomness, key
    generation makes the same key bytes in all three and hedged signing with the same private key
    bytes makes the same signature, leaving the generator in the same state; where the Rust call
    reports an error, the C call returns the code of that step with its outputs untouched and the
    Python call raises. The same public key bytes, message and signature get the same verdict. So
    keys and signatures made through one interface work in the others, with the empty context. *)
Theorem interfaces_agree :
  forall (TR TC TP : Target) (P : Prims) (os : Rng) (g : rng_st os),
    let p := param_set SHA2_128f in
    (** one key pair *)
    (forall pub priv,
       let key := try_keygen_with_rng (T := TR) p os in
       let c := ffi_keygen (T := TC) os g (Some pub) (Some priv) in
       let py := py_keygen (T := TP) os g in
       fst c = gen_after key g /\ fst py = gen_after key g /\
       match call key g with
       | Val (pk, sk) => exists pkb skb,
           result (pk_into_bytes p pk) = Val pkb /\ result (sk_into_bytes (T := TR) p sk) = Val skb /\
           snd c = FReturn 0 (Some pkb, Some skb) /\ snd py = PyReturn (pkb, skb)
       | Err _ => snd c = FReturn 4 (Some pub, Some priv) /\ snd py = PyRaise
       | Panic _ => snd c = FAbort /\ snd py = PyAbort
       end) /\
    forall m buf len, c_message (T := TC) buf len m -> nlen m < 2 ^ 31 -> nlen m < 2 ^ @usize_bits TP ->
    (** one signature *)
    (forall skb out, nlen skb = sk_size SHA2_128f ->
       let c := ffi_sign (T := TC) os g (Some buf) len (Some skb) (Some out) in
       let py := py_sign (T := TP) os g skb m in
       match result (sk_try_from_bytes (T := TR) p skb) with
       | Val sk =>
           let sign := try_sign_with_rng (T := TR) p os sk m [] true in
           fst c = gen_after sign g /\ fst py = gen_after sign g /\
           match call sign g with
           | Val sig => snd c = FReturn 0 (Some sig) /\ snd py = PyReturn sig
           | Err _ => snd c = FReturn 5 (Some out) /\ snd py = PyRaise
           | Panic _ => snd c = FAbort /\ snd py = PyAbort
           end
       | Err _ => c = (g, FReturn 3 (Some out)) /\ py = (g, PyRaise)
       | Panic _ => False
       end) /\
    (** one verdict *)
    (forall pkb sig, nlen pkb = pk_size SHA2_128f -> nlen sig = sig_size SHA2_128f ->
       exists pk verdict,
         result (pk_try_from_bytes p pkb) = Val pk /\
         result (verify (T := TR) p pk m sig []) = Val verdict /\
         ffi_verify (T := TC) (Some buf) len (Some pkb) (Some sig) = FReturn (if verdict then 0 else 6) tt /\
         py_verify (T := TP) pkb m sig = PyReturn verdict).
Proof. exact prop_interfaces_agree. Qed.
Print Assumptions interfaces_agree.

(** the C library on a 16-bit release build and Python on a 64-bit debug build make the same key pair; there is
    a private key that imports and one that does not *)
Example interfaces_agree_applies :
  c_message (T := release16) (toy_m ++ toy_ctx) 2 toy_m /\ nlen toy_m < 2 ^ 31 /\ nlen toy_m < 2 ^ @usize_bits debug64 /\
  (exists skb sk, nlen skb = sk_size SHA2_128f /\
     result (sk_try_from_bytes (T := debug64) (P := toy_prims) (param_set SHA2_128f) skb) = Val sk) /\
  (exists skb e, nlen skb = sk_size SHA2_128f /\
     result (sk_try_from_bytes (T := debug64) (P := toy_prims) (param_set SHA2_128f) skb) = Err e) /\
  exists pkb skb,
    snd (ffi_keygen (T := release16) (P := toy_prims) counter 0 (Some toy_m) (Some toy_m)) = FReturn 0 (Some pkb, Some skb) /\
    snd (py_keygen (T := debug64) (P := toy_prims) counter 0) = PyReturn (pkb, skb).
Proof.
  split; [split; [discriminate|]; split; [reflexivity|]; split; [discriminate|reflexivity]|].
  split; [reflexivity|]. split; [reflexivity|].
  destruct (toy_import debug64 toy_prims SHA2_128f) as [(bs & sk & L & E) (bs' & L' & E')].
  split; [exists bs, sk; split; assumption|]. split; [exists bs'; eexists; split; eassumption|].
  destruct (proj1 (interfaces_agree debug64 release16 debug64 toy_prims counter 0) toy_m toy_m) as [_ [_ K]].
  rewrite (toy_keygen debug64 toy_prims SHA2_128f) in K. destruct (toy_key SHA2_128f) as [pk sk0].
  destruct K as (pkb & skb & _ & _ & K1 & K2). exists pkb, skb. split; assumption.
Qed.
