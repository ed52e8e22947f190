(** The shape of hash calls, and their separation. *)
From Coq Require Import String.
From Verif Require Import Spec.Fips205 Spec.Fips205Hash.
From Verif Require Import Model.Api Spec.Vocab Spec.VocabPrim Spec.VocabCall Proof.Summary Proof.TopTrace Proof.TopCalls Proof.Toy Proof.ToyTrace.
Import ListNotations.
Open Scope list_scope.
Open Scope N_scope.

(** C79. No two different hash calls hash the same string. In everything the library does with any keys
    of any users (generation, import, signing, verification of arbitrary signatures), under all
    parameter sets with the same n: whenever SHA-256, SHA-512 or SHAKE256 is applied to the same
    string in two address-taking hash calls (PRF, F, H, T), these are the same call: same function,
    same public seed, same address, same inputs. So work spent on attacking one key does not carry
    over to another with a different public seed. Moreover the address of each call determines which
    of the functions is used and on how many inputs, which all have n bytes. *)
Theorem hash_calls_separated :
  forall (T : Target) (P : Prims) (s1 s2 : set_name) (t1 t2 : list event) (k1 k2 : hkind)
         (seed1 seed2 : bytes) (a1 a2 : Adrs) (in1 in2 : list bytes),
    any_run s1 t1 -> In (EHash k1 seed1 a1 in1) t1 ->
    any_run s2 t2 -> In (EHash k2 seed2 a2 in2) t2 ->
    (** the address determines the function and the number of inputs, all of n bytes *)
    (role s1 a1 = Some (k1, nlen in1) /\ Forall (fun x => nlen x = seed_bytes s1) in1) /\
    (** the same string is hashed by the same function only in the same call *)
    (seed_bytes s1 = seed_bytes s2 -> nlen seed1 = seed_bytes s1 -> nlen seed2 = seed_bytes s2 ->
     primitive_of s1 k1 = primitive_of s2 k2 ->
     hashed_string s1 k1 seed1 a1 in1 = hashed_string s2 k2 seed2 a2 in2 ->
     k1 = k2 /\ seed1 = seed2 /\ a1 = a2 /\ in1 = in2).
Proof. exact prop_hash_calls_separated. Qed.
Print Assumptions hash_calls_separated.

(** one string that is hashed in key generation and again in a signature *)
Example hash_calls_separated_applies :
  exists t1 t2 k q a i, any_run (T := debug64) (P := toy_prims) SHAKE_192f t1 /\
    any_run (T := debug64) (P := toy_prims) SHAKE_192f t2 /\ In (EHash k q a i) t1 /\ In (EHash k q a i) t2 /\
    nlen q = seed_bytes SHAKE_192f.
Proof.
  destruct (toy_shared_address debug64 toy_prims SHAKE_192f) as (sig & k & q & a & i & _ & I1 & I2).
  do 2 eexists. exists k, q, a, i. split; [|split; [|split; [exact I1|split; [exact I2|]]]].
  - apply any_keygen.
  - apply any_sign. apply toy_sk_typed.
  - pose proof (toy_sk_typed toy_prims SHAKE_192f) as W.
    pose proof (owner_shape _ _ _ _ _ _ _ (owner_sign (T := debug64) (P := toy_prims) SHAKE_192f counter 5 _ toy_m toy_ctx true W) I2) as O.
    destruct (owned_shape _ (param_PF SHAKE_192f) _ _ _ _ O) as (k' & i' & l & t & ty & b & c & d & E & _).
    apply (f_equal (fun e => match e with EHash _ z _ _ => z | _ => nil end)) in E. cbv beta iota in E. rewrite E. apply W.
Qed.
