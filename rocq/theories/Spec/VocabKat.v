(** The known-answer tests: when an answer in a vector file is right. *)
From Coq Require Import String.
From Verif Require Import Spec.Fips205 Spec.Fips205Hash.
From Verif Require Import Machine Model.Api Model.Kat Spec.Vocab.
Import ListNotations.
Open Scope list_scope.
Open Scope N_scope.

(** the name of a parameter set in FIPS 205, table 2 *)
Definition official_name (s : set_name) : string :=
  (match s with
   | SHA2_128s => "SLH-DSA-SHA2-128s" | SHAKE_128s => "SLH-DSA-SHAKE-128s"
   | SHA2_128f => "SLH-DSA-SHA2-128f" | SHAKE_128f => "SLH-DSA-SHAKE-128f"
   | SHA2_192s => "SLH-DSA-SHA2-192s" | SHAKE_192s => "SLH-DSA-SHAKE-192s"
   | SHA2_192f => "SLH-DSA-SHA2-192f" | SHAKE_192f => "SLH-DSA-SHAKE-192f"
   | SHA2_256s => "SLH-DSA-SHA2-256s" | SHAKE_256s => "SLH-DSA-SHAKE-256s"
   | SHA2_256f => "SLH-DSA-SHA2-256f" | SHAKE_256f => "SLH-DSA-SHAKE-256f"
   end)%string.

(** the file says that it is for SLH-DSA of FIPS 205 and for this kind of test *)
Definition labelled {A} (mode : string) (f : kat_file A) : Prop :=
  kf_algorithm f = "SLH-DSA"%string /\ kf_mode f = mode /\ kf_revision f = "FIPS205"%string.

(** how many cases the file has *)
Definition case_count {A} (f : kat_file A) : N := nlen (flat_map kg_tests (kf_groups f)).

(** every case of a group named after one of the twelve sets has the property *)
Definition all_cases {A} (f : kat_file A) (right : set_name -> bool -> A -> Prop) : Prop :=
  forall g s t, In g (kf_groups f) -> kg_set g = official_name s -> In t (kg_tests g) ->
    right s (kg_deterministic g) t.

Section Answers.
Context {P : Prims}.

(** the three seeds have n bytes and the keys are those of Algorithm 18 *)
Definition keygen_answer (s : set_name) (_ : bool) (t : keygen_test) : Prop :=
  nlen (kt_sk_seed t) = seed_bytes s /\ nlen (kt_sk_prf t) = seed_bytes s /\ nlen (kt_pk_seed t) = seed_bytes s /\
  Fips205.slh_keygen_internal (fips_params s) (fips_hash s) (kt_sk_seed t) (kt_sk_prf t) (kt_pk_seed t) =
    (kt_sk t, kt_pk t).

(** the private key is one that Algorithm 18 yields, and the signature is that of Algorithm 19, with the
    given n bytes of randomness or, in a deterministic group, with PK.seed *)
Definition sign_answer (s : set_name) (deterministic : bool) (t : sign_test) : Prop :=
  (exists a b c, nlen a = seed_bytes s /\ nlen b = seed_bytes s /\ nlen c = seed_bytes s /\
     fst (Fips205.slh_keygen_internal (fips_params s) (fips_hash s) a b c) = st_sk t) /\
  (deterministic = false -> nlen (st_randomness t) = seed_bytes s) /\
  Fips205.slh_sign_internal (fips_params s) (fips_hash s) (st_message t) (st_sk t)
    (if deterministic then None else Some (st_randomness t)) = st_signature t.

(** the file calls the signature valid exactly if the public key has the right size and Algorithm 20
    accepts the signature (which it does not if the signature has a wrong size) *)
Definition verify_answer (s : set_name) (_ : bool) (t : verify_test) : Prop :=
  vt_passed t = true <->
  nlen (vt_pk t) = pk_size s /\
  Fips205.slh_verify_internal (fips_params s) (fips_hash s) (vt_message t) (vt_signature t) (vt_pk t) = true.
End Answers.
