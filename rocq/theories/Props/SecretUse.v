(** What the secret seeds are used for. *)
From Coq Require Import String.
From Verif Require Import Spec.Fips205 Spec.Fips205Hash.
From Verif Require Import Model.Api Spec.Vocab Spec.VocabPrf Proof.TopCorrect Proof.TopPrf Proof.Toy.
Import ListNotations.
Open Scope list_scope.
Open Scope N_scope.

(** C65. The secret seeds are used only through the pseudorandom functions. Public keys and signatures
    are a function of the answers of PRF (under the secret seed) and PRF_msg (under the secret PRF
    key): someone who does not know the two secrets, but is given the answers, computes the same
    public key and the same signatures, for the same message, context and randomness. Only addresses
    of the types WOTS_PRF and FORS_PRF are asked for. With arbitrary answers of n bytes in place of
    the pseudorandom functions the same computation still gives signatures that verification
    accepts. *)
Theorem secrets_only_through_prf :
  forall (T : Target) (P : Prims) (s : set_name),
    let keygen o om := Fips205.slh_keygen_internal (fips_params s) (ask s o om) (blank s) (blank s) in
    let sign o om := Fips205.slh_sign_internal (fips_params s) (ask s o om) in
    (** the public key and the signatures of the code are those computed from the answers *)
    (forall pk sk om, key_pair s pk sk -> snd (keygen (prf_of s sk) om (pk_seed pk)) = pk_seed pk ++ pk_root pk) /\
    (forall sk (r : Rng) (g : rng_st r) m ctx ph hedged, sk_typed s sk ->
       let HF := ask s (prf_of s sk) (prf_msg_of s sk) in
       ok (call (try_sign_with_rng (param_set s) r sk m ctx hedged) g) =
         Fips205.slh_sign (fips_params s) HF m ctx (without_secrets s sk) (addrnd s r g hedged) /\
       ok (call (try_hash_sign_with_rng (param_set s) r sk m ctx (ph_arg ph) hedged) g) =
         Fips205.hash_slh_sign (fips_params s) HF m ctx (PH_fn ph) (without_secrets s sk) (addrnd s r g hedged) /\
       ok (call (raw_sign (param_set s) r sk m hedged) g) =
         match addrnd s r g hedged with
         | Some None => None
         | Some (Some b) => Some (sign (prf_of s sk) (prf_msg_of s sk) m (without_secrets s sk) (Some b))
         | None => Some (sign (prf_of s sk) (prf_msg_of s sk) m (without_secrets s sk) None)
         end) /\
    (** only addresses of the PRF types are asked for *)
    (forall o1 o2 om, (forall ADRS, prf_address ADRS -> o1 ADRS = o2 ADRS) ->
       (forall PKseed, keygen o1 om PKseed = keygen o2 om PKseed) /\
       (forall M' SK rnd, sign o1 om M' SK rnd = sign o2 om M' SK rnd)) /\
    (** whatever the answers are, the code accepts the signatures computed from them *)
    (forall o om PKseed, (forall ADRS, nlen (o ADRS) = seed_bytes s) -> (forall r M', nlen (om r M') = seed_bytes s) ->
       nlen PKseed = seed_bytes s ->
       let (SK, PK) := keygen o om PKseed in
       exists pk, result (pk_try_from_bytes (param_set s) PK) = Val pk /\
         forall M' rnd, nlen (sign o om M' SK rnd) = sig_size s /\
           result (raw_verify (param_set s) pk M' (sign o om M' SK rnd)) = Val true).
Proof. exact prop_secrets_only_through_prf. Qed.
Print Assumptions secrets_only_through_prf.

(** a generated key pair; oracles that differ, and agree on the addresses of the PRF types, of which there
    are some; and oracles that answer a constant *)
Example secrets_only_through_prf_applies :
  key_pair (T := debug64) (P := toy_prims) SHAKE_192f (tpk SHAKE_192f) (tsk SHAKE_192f) /\
  sk_typed SHAKE_192f (tsk SHAKE_192f) /\
  (exists o1 o2 : bytes -> bytes, o1 [] <> o2 [] /\ (forall ADRS, prf_address ADRS -> o1 ADRS = o2 ADRS)) /\
  prf_address (Fips205.setTypeAndClear (Fips205.toByte 0 32) Fips205.FORS_PRF) /\
  (exists (o : bytes -> bytes) (om : bytes -> bytes -> bytes),
     (forall ADRS, nlen (o ADRS) = seed_bytes SHAKE_192f) /\ (forall r M', nlen (om r M') = seed_bytes SHAKE_192f)).
Proof.
  split; [exact (toy_key_pair debug64 toy_prims SHAKE_192f)|]. split; [apply toy_sk_typed|]. split; [|split].
  - exists (fun A => A), (fun A => match A with [] => [n2b 1] | _ => A end). split; [discriminate|].
    intros [|x A] [L _]; [discriminate L|reflexivity].
  - split; [reflexivity|]. right. reflexivity.
  - exists (fun _ => nrepeat (n2b 5) 24), (fun _ _ => nrepeat (n2b 6) 24). split; intros; apply nlen_nrepeat.
Qed.
