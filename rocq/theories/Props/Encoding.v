(** The signature encoding and digit extraction. *)
From Coq Require Import String.
From Verif Require Import Spec.Fips205 Spec.Fips205Hash.
From Verif Require Import Model.Api Spec.Vocab Proof.TopSer Proof.Toy.
Import ListNotations.
Open Scope list_scope.
Open Scope N_scope.

(** C20. Signature encoding is a bijection. Decoding is the inverse of encoding in both directions: every
    byte string of the signature length decodes to exactly one structured signature, which
    re-encodes to the same bytes, so no two signature strings decode alike and every component lands
    at the offset FIPS 205 figure 17 gives. *)
Theorem signature_encoding_bijection :
  forall (T : Target) (s : set_name),
    let p := param_set s in
    let t := table2 s in
    let len := 2 * t_n t + 3 in
    let fors := 1 + t_a t in
    let ht := 1 + t_k t * fors in
    let layer := len + t_h' t in
    (forall bs, nlen bs = sig_size s ->
       exists sg, result (deserialize p bs) = Val sg /\ sig_typed s sg /\ result (serialize p sg) = Val bs) /\
    (forall sg, sig_typed s sg ->
       exists bs, result (serialize p sg) = Val bs /\ nlen bs = sig_size s /\ result (deserialize p bs) = Val sg) /\
    (forall bs1 bs2, nlen bs1 = sig_size s -> nlen bs2 = sig_size s ->
       result (deserialize p bs1) = result (deserialize p bs2) -> bs1 = bs2) /\
    (forall bs sg, nlen bs = sig_size s -> result (deserialize p bs) = Val sg ->
       randomness sg = block s bs 0 /\
       (forall i, i < t_k t ->
          nth_error (private_key_value (fors_sig sg)) (N.to_nat i) = Some (block s bs (1 + i * fors)) /\
          exists auth, nth_error (fors_auth (fors_sig sg)) (N.to_nat i) = Some auth /\
            forall j, j < t_a t -> nth_error auth (N.to_nat j) = Some (block s bs (1 + i * fors + 1 + j))) /\
       (forall l, l < t_d t ->
          exists x, nth_error (ht_sig sg) (N.to_nat l) = Some x /\
            (forall i, i < len -> nth_error (sig_wots x) (N.to_nat i) = Some (block s bs (ht + l * layer + i))) /\
            (forall j, j < t_h' t ->
               nth_error (xmss_auth x) (N.to_nat j) = Some (block s bs (ht + l * layer + len + j))))).
Proof. exact prop_signature_encoding_bijection. Qed.
Print Assumptions signature_encoding_bijection.

Example signature_encoding_bijection_applies :
  exists sg, nlen (toy_sig SHA2_128f) = sig_size SHA2_128f /\ sig_typed SHA2_128f sg /\
    result (serialize (T := debug64) (param_set SHA2_128f) sg) = Val (toy_sig SHA2_128f).
Proof.
  destruct (proj1 (signature_encoding_bijection debug64 SHA2_128f) _ (toy_sig_len _)) as [sg [_ [W E]]].
  exists sg. split; [apply toy_sig_len|]. split; assumption.
Qed.

(** C36. Base-2^b digit extraction is positional. The digit extraction used for WOTS+ and FORS returns,
    for every byte string and digit width used, the big-endian base-2^b digits of its leading bits;
    no bits are lost to 32-bit wraparound however long the string is. *)
Theorem digits_are_positional :
  forall (T : Target) (x : bytes) (b cnt : N) (buf : list N),
    1 <= b <= 15 -> cnt * b <= 8 * nlen x -> nlen buf = cnt ->
    cnt * b + 7 < 2 ^ 32 -> cnt < 2 ^ usize_bits -> nlen x < 2 ^ usize_bits ->
    exists ds,
      result (base_2b x b cnt buf) = Val ds /\ nlen ds = cnt /\
      Forall (fun d => d < 2 ^ b) ds /\
      fold_left (fun v d => v * 2 ^ b + d) ds 0 = of_be x / 2 ^ (8 * nlen x - cnt * b) /\
      (forall i, i < cnt ->
         nth_error ds (N.to_nat i) = Some ((of_be x / 2 ^ (8 * nlen x - (i + 1) * b)) mod 2 ^ b)) /\
      ds = Fips205.base_2b x b cnt.
Proof. exact prop_digits_are_positional. Qed.
Print Assumptions digits_are_positional.

Example digits_are_positional_applies :
  result (Helpers.base_2b (T := release16) [n2b 165; n2b 63; n2b 128] 4 5 [0; 0; 0; 0; 0])
    = Val [10; 5; 3; 15; 8].
Proof. vm_compute. reflexivity. Qed.
