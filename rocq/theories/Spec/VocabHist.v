(** Histories of API calls sharing one random generator: words used in the statement about them. *)
From Coq Require Import String.
From Verif Require Spec.Fips205.
From Verif Require Import Machine Model.Api Spec.Fips205Hash Spec.Vocab.
Import ListNotations.
Open Scope list_scope.
Open Scope N_scope.

(** a request to the library *)
Inductive request :=
| ReqKeygen
| ReqSign (sk : SlhPrivateKey) (m ctx : bytes) (hedged : bool)
| ReqHashSign (sk : SlhPrivateKey) (m ctx : bytes) (ph : prehash) (hedged : bool)
| ReqRawSign (sk : SlhPrivateKey) (m : bytes) (hedged : bool)
| ReqReimport (pk : SlhPublicKey) (sk : SlhPrivateKey)
| ReqImport (bs : bytes)
| ReqVerify (pk : SlhPublicKey) (m sig ctx : bytes)
| ReqHashVerify (pk : SlhPublicKey) (m sig ctx : bytes) (ph : prehash)
| ReqRawVerify (pk : SlhPublicKey) (m sig : bytes).

(** a signature issued, with the key pair that issued it and what was asked *)
Inductive issue :=
| IssuePure (pk : SlhPublicKey) (m ctx sig : bytes)
| IssueHash (pk : SlhPublicKey) (m ctx : bytes) (ph : prehash) (sig : bytes)
| IssueRaw (pk : SlhPublicKey) (m sig : bytes).

Definition accepted {T : Target} {P : Prims} (s : set_name) (i : issue) : Prop :=
  match i with
  | IssuePure pk m ctx sig => result (verify (param_set s) pk m sig ctx) = Val true
  | IssueHash pk m ctx ph sig => result (hash_verify (param_set s) pk m sig ctx (ph_arg ph)) = Val true
  | IssueRaw pk m sig => result (raw_verify (param_set s) pk m sig) = Val true
  end.

(** x followed by what is gained from a successful outcome *)
Definition gain {A B} (o : outcome A) (f : A -> B) (l : list B) : list B :=
  match o with Val a => f a :: l | _ => l end.

(** [history s r g0 reqs g keys issued t]: starting with generator state g0 and nothing, a program made
    the requests reqs (latest first), each on key pairs it then held; the generator is now in state g,
    the program holds the key pairs keys, has obtained the signatures issued, and an observer saw t. *)
Inductive history {T : Target} {P : Prims} (s : set_name) (r : Rng) (g0 : rng_st r)
  : list request -> rng_st r -> list (SlhPublicKey * SlhPrivateKey) -> list issue -> list event -> Prop :=
| h_start : history s r g0 [] g0 [] [] []
| h_keygen reqs g keys issued t :
    history s r g0 reqs g keys issued t ->
    let f := try_keygen_with_rng (param_set s) r in
    history s r g0 (ReqKeygen :: reqs) (gen_after f g) (gain (call f g) (fun kp => kp) keys) issued
      (t ++ trace_of f g)
| h_sign reqs g keys issued t pk sk m ctx hedged :
    history s r g0 reqs g keys issued t -> In (pk, sk) keys ->
    let f := try_sign_with_rng (param_set s) r sk m ctx hedged in
    history s r g0 (ReqSign sk m ctx hedged :: reqs) (gen_after f g) keys
      (gain (call f g) (IssuePure pk m ctx) issued) (t ++ trace_of f g)
| h_hash_sign reqs g keys issued t pk sk m ctx ph hedged :
    history s r g0 reqs g keys issued t -> In (pk, sk) keys ->
    let f := try_hash_sign_with_rng (param_set s) r sk m ctx (ph_arg ph) hedged in
    history s r g0 (ReqHashSign sk m ctx ph hedged :: reqs) (gen_after f g) keys
      (gain (call f g) (IssueHash pk m ctx ph) issued) (t ++ trace_of f g)
| h_raw_sign reqs g keys issued t pk sk m hedged :
    history s r g0 reqs g keys issued t -> In (pk, sk) keys ->
    let f := raw_sign (param_set s) r sk m hedged in
    history s r g0 (ReqRawSign sk m hedged :: reqs) (gen_after f g) keys
      (gain (call f g) (IssueRaw pk m) issued) (t ++ trace_of f g)
| h_reimport reqs g keys issued t pk sk pkb skb pk' :
    (** both keys exported and imported again *)
    history s r g0 reqs g keys issued t -> In (pk, sk) keys ->
    result (pk_into_bytes (param_set s) pk) = Val pkb -> result (pk_try_from_bytes (param_set s) pkb) = Val pk' ->
    result (sk_into_bytes (param_set s) sk) = Val skb ->
    let f := sk_try_from_bytes (param_set s) skb in
    history s r g0 (ReqReimport pk sk :: reqs) g (gain (result f) (fun sk' => (pk', sk')) keys) issued
      (t ++ trace f)
| h_import reqs g keys issued t bs :
    (** private-key bytes from elsewhere, with the public key derived from them *)
    history s r g0 reqs g keys issued t -> nlen bs = sk_size s ->
    let f := sk_try_from_bytes (param_set s) bs in
    history s r g0 (ReqImport bs :: reqs) g (gain (result f) (fun sk' => (get_public_key sk', sk')) keys) issued
      (t ++ trace f)
| h_verify reqs g keys issued t pk m sig ctx :
    history s r g0 reqs g keys issued t -> nlen sig = sig_size s ->
    history s r g0 (ReqVerify pk m sig ctx :: reqs) g keys issued
      (t ++ trace (verify (param_set s) pk m sig ctx))
| h_hash_verify reqs g keys issued t pk m sig ctx ph :
    history s r g0 reqs g keys issued t -> nlen sig = sig_size s ->
    history s r g0 (ReqHashVerify pk m sig ctx ph :: reqs) g keys issued
      (t ++ trace (hash_verify (param_set s) pk m sig ctx (ph_arg ph)))
| h_raw_verify reqs g keys issued t pk m sig :
    history s r g0 reqs g keys issued t -> nlen sig = sig_size s ->
    history s r g0 (ReqRawVerify pk m sig :: reqs) g keys issued
      (t ++ trace (raw_verify (param_set s) pk m sig)).

(** number of key generations, and of hedged signing attempts with an acceptable context *)
Definition keygens (reqs : list request) : N :=
  nlen (filter (fun q => match q with ReqKeygen => true | _ => false end) reqs).
Definition hedged_attempts (reqs : list request) : N :=
  nlen (filter (fun q => match q with
                         | ReqSign _ _ ctx h => h && (nlen ctx <=? 255)
                         | ReqHashSign _ _ ctx _ h => h && (nlen ctx <=? 255)
                         | ReqRawSign _ _ h => h
                         | _ => false end) reqs).
(** bytes requested from the generator *)
Definition bytes_drawn (t : list event) : N := fold_right N.add 0 (draws t).
