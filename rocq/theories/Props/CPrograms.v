(** C programs that call the library on structs in their own memory (ffi/src/lib.rs, ffi/fips205.h). *)
From Coq Require Import String.
From Verif Require Import Spec.Fips205 Spec.Fips205Hash.
From Verif Require Import Model.Api Spec.Vocab Model.Ffi Model.FfiMem Spec.VocabC Proof.TopC Proof.TopCUB Proof.Toy Proof.ToyKeys Proof.ToyC.
Import ListNotations.
Open Scope list_scope.
Open Scope N_scope.

(** C60. C programs: any sequence of library calls on the program's own memory. A C program may mix its
    own stores with any number of calls of the three C functions, on structs anywhere in its memory
    (separate objects, lengths within the buffers, null pointers allowed where they are checked).
    Then every call returns one of its documented codes (as long as the system's generator does not
    panic); keygen changes only the bytes of its two output structs and sign only those of its
    signature struct, and only when they return 0, and verify changes nothing; a signature once
    written by a successful sign is accepted by verify at any later time, wherever copies of it, of
    the message and of the public key matching the private key are then in memory; and any copy of a
    generated private key signs whenever the generator delivers. *)
Theorem c_program_histories :
  forall (T : Target) (P : Prims) (os : Rng) (g0 g : rng_st os) (M0 M : cmem)
         (keys : list (bytes * bytes)) (issued : list (bytes * bytes * bytes)),
    c_history os g0 M0 g M keys issued ->
    (never_panics os -> forall op, legal M op -> exists g' code M', c_step os g M op = (g', FReturn code M')) /\
    (forall op g' code M', legal M op -> c_step os g M op = (g', FReturn code M') ->
       documented op code /\ mem_top M' = mem_top M /\
       forall x, mem_at M' x <> mem_at M x -> may_change op code x) /\
    (forall pkb m sigb, In (pkb, m, sigb) issued ->
       forall buf len pk sig, legal M (CVerify buf len pk sig) -> pk <> 0 -> sig <> 0 ->
         load M pk 32 = pkb -> load M buf (Z.to_N len) = m -> load M sig 17088 = sigb ->
         c_step os g M (CVerify buf len pk sig) = (g, FReturn 0 M)) /\
    (forall pkb skb, In (pkb, skb) keys ->
       forall buf len sk out, legal M (CSign buf len sk out) -> buf <> 0 -> sk <> 0 -> out <> 0 ->
         load M sk 64 = skb ->
         load M (sk + 32) 32 = pkb /\
         (refuses os g 16 -> exists g' M', c_step os g M (CSign buf len sk out) = (g', FReturn 5 M')) /\
         (forall b g', gives os g 16 b g' -> exists M', c_step os g M (CSign buf len sk out) = (g', FReturn 0 M'))).
Proof. exact prop_c_program_histories. Qed.
Print Assumptions c_program_histories.

(** A program that generated a key pair and signed; the three objects are still in place. *)
Example c_program_histories_applies :
  exists g M pkb skb sigb,
    c_history (T := debug64) (P := toy_prims) counter 0 zeros g M [(pkb, skb)] [(pkb, load M 300 5, sigb)] /\
    legal (T := debug64) M (CVerify 300 5 100 1000) /\ legal (T := debug64) M (CSign 300 5 200 1000) /\
    load M 100 32 = pkb /\ load M 200 64 = skb /\ load M 1000 17088 = sigb.
Proof.
  destruct toy_c_program as (g & M & pkb & skb & sigb & Hs & E & E1 & E2 & E3).
  exists g, M, pkb, skb, sigb. split; [exact Hs|]. split; [apply legal_verify, E|]. split; [apply legal_sign, E|].
  split; [exact E1|]. split; [exact E2|exact E3].
Qed.

(** C60, the result of each call: the code returned, and the bytes then in memory, are those FIPS
    205 defines, or the code documented for the failure. *)
Theorem c_call_results :
  forall (T : Target) (P : Prims) (os : Rng) (g : rng_st os) (M : cmem),
    let ps := fips_params SHA2_128f in
    let hs := fips_hash SHA2_128f in
    (forall pub priv, legal M (CKeygen pub priv) ->
       let r := c_step os g M (CKeygen pub priv) in
       (pub = 0 \/ priv = 0 -> exists M', r = (g, FReturn 1 M')) /\
       (pub <> 0 -> priv <> 0 ->
          (refuses os g 16 \/
           (exists a g1, gives os g 16 a g1 /\ refuses os g1 16) \/
           (exists a b g1 g2, gives os g 16 a g1 /\ gives os g1 16 b g2 /\ refuses os g2 16) ->
           exists g' M', r = (g', FReturn 4 M')) /\
          (forall a b c g1 g2 g3, gives os g 16 a g1 -> gives os g1 16 b g2 -> gives os g2 16 c g3 ->
           exists M', r = (g3, FReturn 0 M') /\
             Fips205.slh_keygen_internal ps hs a b c = (load M' priv 64, load M' pub 32)))) /\
    (forall buf len sk out, legal M (CSign buf len sk out) ->
       let r := c_step os g M (CSign buf len sk out) in
       let skb := load M sk 64 in
       let '(_, PK) := Fips205.slh_keygen_internal ps hs (sub_bytes skb 0 16) (sub_bytes skb 16 32) (sub_bytes skb 32 48) in
       (buf = 0 \/ sk = 0 \/ out = 0 -> exists M', r = (g, FReturn 1 M')) /\
       (buf <> 0 -> sk <> 0 -> out <> 0 ->
          (PK <> sub_bytes skb 32 64 -> exists M', r = (g, FReturn 3 M')) /\
          (PK = sub_bytes skb 32 64 -> refuses os g 16 -> exists g' M', r = (g', FReturn 5 M')) /\
          (PK = sub_bytes skb 32 64 -> forall b g', gives os g 16 b g' ->
           exists M', r = (g', FReturn 0 M') /\
             Some (load M' out 17088) = Fips205.slh_sign ps hs (load M buf (Z.to_N len)) [] skb (Some (Some b))))) /\
    (forall buf len pk sig, legal M (CVerify buf len pk sig) ->
       c_step os g M (CVerify buf len pk sig) =
       (g, FReturn (if (pk =? 0) || (sig =? 0) then 1
                    else if Fips205.slh_verify ps hs (load M buf (Z.to_N len)) (load M sig 17088) [] (load M pk 32)
                    then 0 else 6) M)).
Proof. exact prop_c_call_results. Qed.
Print Assumptions c_call_results.

Example c_call_results_applies :
  legal (T := debug64) zeros (CKeygen 100 200) /\ legal (T := debug64) zeros (CSign 300 5 200 1000) /\
  legal (T := debug64) zeros (CVerify 300 5 100 1000) /\ legal (T := debug64) zeros (CKeygen 0 200).
Proof.
  split; [apply legal_keygen; reflexivity|]. split; [apply legal_sign; reflexivity|].
  split; [apply legal_verify; reflexivity|]. unfold legal, null_or_struct, apart, zeros; cbn [mem_top]. lia.
Qed.

(** C60, the calls outside the contract: a call is undefined behaviour exactly when a struct pointer
    that is not null does not point to a whole struct in memory, or the two structs overlap, or (the
    struct pointers not being null) the message slice overlaps a struct or runs past the memory the
    program has, or verify is given a null message. *)
Theorem c_undefined_exactly :
  forall (T : Target) (P : Prims) (os : Rng) (g : rng_st os) (M : cmem),
    (forall pub priv, snd (c_step os g M (CKeygen pub priv)) = FUB <->
       ~ (null_or_struct M pub 32 /\ null_or_struct M priv 64 /\ apart pub 32 priv 64)) /\
    (forall buf len sk out, snd (c_step os g M (CSign buf len sk out)) = FUB <->
       ~ (null_or_struct M sk 64 /\ null_or_struct M out 17088 /\ apart sk 64 out 17088) \/
       (sk <> 0 /\ out <> 0 /\ buf <> 0 /\
        (~ apart buf (Z.to_N len) sk 64 \/ ~ apart buf (Z.to_N len) out 17088 \/
         ((0 < len)%Z /\ Z.to_N len < 2 ^ usize_bits /\ mem_top M < buf + Z.to_N len)))) /\
    (forall buf len pk sig, snd (c_step os g M (CVerify buf len pk sig)) = FUB <->
       ~ (null_or_struct M pk 32 /\ null_or_struct M sig 17088 /\ apart pk 32 sig 17088) \/
       (pk <> 0 /\ sig <> 0 /\
        ((buf = 0 /\ (0 <= len)%Z /\ Z.to_N len < 2 ^ usize_bits) \/
         (buf <> 0 /\
          (~ apart buf (Z.to_N len) pk 32 \/ ~ apart buf (Z.to_N len) sig 17088 \/
           ((0 < len)%Z /\ Z.to_N len < 2 ^ usize_bits /\ mem_top M < buf + Z.to_N len)))))).
Proof. exact prop_c_undefined_exactly. Qed.
Print Assumptions c_undefined_exactly.

(** Calls that are undefined: a message inside the signature struct, one that runs past the memory
    (of 20000 bytes), a null message given to verify, overlapping key structs; and four that are not. *)
Example c_undefined_exactly_applies :
  let step := fun op => snd (c_step (T := debug64) (P := toy_prims) counter 0 zeros op) in
  step (CSign 1004 5 200 1000) = FUB /\ step (CVerify 98 5 100 1000) = FUB /\ step (CVerify 19996 5 100 1000) = FUB /\
  step (CVerify 0 0 100 1000) = FUB /\ step (CKeygen 100 131) = FUB /\ step (CSign 300 5 200 2913) = FUB /\
  step (CSign 0 5 200 1000) <> FUB /\ step (CKeygen 100 132) <> FUB /\ step (CVerify 300 5 100 2912) <> FUB /\
  step (CVerify 95 5 100 1000) <> FUB.
Proof.
  destruct (prop_c_undefined_exactly debug64 toy_prims counter 0 zeros) as (K & S & V).
  change (2 ^ usize_bits) with 18446744073709551616 in S, V. unfold null_or_struct, apart in K, S, V.
  change (mem_top zeros) with 20000 in K, S, V. cbv zeta.
  split; [apply S; change (Z.to_N 5) with 5; lia|]. split; [apply V; change (Z.to_N 5) with 5; lia|].
  split; [apply V; change (Z.to_N 5) with 5; lia|]. split; [apply V; change (Z.to_N 0) with 0; lia|].
  split; [apply K; lia|]. split; [apply S; change (Z.to_N 5) with 5; lia|].
  split; [intros X; apply S in X; change (Z.to_N 5) with 5 in X; lia|]. split; [intros X; apply K in X; lia|].
  split; intros X; apply V in X; change (Z.to_N 5) with 5 in X; lia.
Qed.
