(** Model of the conditional compilation of the crate: Cargo.toml [features] and the #[cfg] attributes.
    Simplification: an item is a module of hash functions, a function, or a parameter-set module with
    everything the macro [functionality!] (src/lib.rs:75-430) puts into it; types and constants, none of
    which is conditional, are left out, and so is #[cfg(test)]. *)
From Verif Require Import Bytes Spec.Fips205Hash.

(** Cargo.toml:31-47: the features, "default" being an abbreviation for all of them *)
Inductive feature := default_rng | set_feature (s : set_name).

(** a selection of features (Cargo.toml:31-47) *)
Definition features : Type := feature -> bool.

(** the items of src/lib.rs, src/traits.rs, src/hashers.rs, src/helpers.rs and the other files (lines beside the constructors) *)
Inductive item :=
  (* src/lib.rs:449-1026: the public modules, and in each of them src/lib.rs:143-144 *)
  | set_module (s : set_name) | module_try_keygen (s : set_name)
  (* traits.rs: the public traits; their methods that use the system generator; the import at 6-7 *)
  | traits | trait_try_keygen | trait_try_sign | trait_try_hash_sign | use_OsRng
  (* rand_core with its feature "getrandom" *)
  | rand_core_OsRng
  (* hashers.rs *)
  | mod_shake | mod_sha2_cat_1 | mod_sha2_cat_3_5 | hash_message_fn
  (* helpers.rs *)
  | to_int_fn | to_byte_fn | base_2b_fn | serialize_fn | deserialize_fn | adrs_setters
  | to_32_bytes_fn | to_22_bytes_fn
  (* slh.rs *)
  | slh_keygen_with_rng_fn | slh_keygen_internal_fn | slh_sign_with_rng_fn | slh_sign_internal_fn
  | slh_verify_fn | slh_verify_internal_fn
  (* fors.rs, hypertree.rs, xmss.rs, wots.rs *)
  | fors_sk_gen_fn | fors_node_fn | fors_sign_fn | fors_pk_from_sig_fn
  | ht_sign_fn | ht_verify_fn
  | xmss_node_fn | xmss_sign_fn | xmss_pk_from_sig_fn
  | chain_fn | wots_pkgen_fn | wots_sign_fn | wots_pk_from_sig_fn.

(** #[cfg(any(feature = .., feature = ..))] (src/hashers.rs:18-25, 98, 204-209; src/helpers.rs:229, 249) *)
Definition cfg_any (fs : list set_name) (F : features) : bool := existsb (fun s => F (set_feature s)) fs.

(** the condition under which an item is compiled: the #[cfg] attributes of src/lib.rs:143, 448-998,
    src/hashers.rs:18, 98, 204, src/helpers.rs:229, 249, src/traits.rs:6, 56, 220, 268 *)
Definition cfg (i : item) (F : features) : bool :=
  match i with
  (* src/lib.rs:448, 498, .., 998 *)
  | set_module s => F (set_feature s)
  (* src/lib.rs:143 inside such a module *)
  | module_try_keygen s => F (set_feature s) && F default_rng
  (* src/traits.rs:6, 56, 220, 268 *)
  | use_OsRng | trait_try_keygen | trait_try_sign | trait_try_hash_sign => F default_rng
  (* Cargo.toml:33: default-rng = ["rand_core/getrandom"] *)
  | rand_core_OsRng => F default_rng
  (* src/hashers.rs:18-25 *)
  | mod_shake => cfg_any [SHAKE_128f; SHAKE_128s; SHAKE_192f; SHAKE_192s; SHAKE_256f; SHAKE_256s] F
  (* src/hashers.rs:98 *)
  | mod_sha2_cat_1 => cfg_any [SHA2_128f; SHA2_128s] F
  (* src/hashers.rs:204-209 *)
  | mod_sha2_cat_3_5 => cfg_any [SHA2_192f; SHA2_192s; SHA2_256f; SHA2_256s] F
  (* src/helpers.rs:229-236 *)
  | to_32_bytes_fn => cfg_any [SHAKE_128f; SHAKE_128s; SHAKE_192f; SHAKE_192s; SHAKE_256f; SHAKE_256s] F
  (* src/helpers.rs:249-256 *)
  | to_22_bytes_fn => cfg_any [SHA2_128f; SHA2_128s; SHA2_192f; SHA2_192s; SHA2_256f; SHA2_256s] F
  (* everything else is unconditional *)
  | _ => true
  end.

(** the hash module each parameter-set module imports: src/lib.rs:450, 500, .., 1000 *)
Definition hash_module (s : set_name) : item :=
  match s with
  | SHA2_128s | SHA2_128f => mod_sha2_cat_1
  | SHA2_192s | SHA2_192f | SHA2_256s | SHA2_256f => mod_sha2_cat_3_5
  | SHAKE_128s | SHAKE_128f | SHAKE_192s | SHAKE_192f | SHAKE_256s | SHAKE_256f => mod_shake
  end.

(** the items an item refers to, in its imports and its body (src/*.rs, lines beside the cases) *)
Definition refs (i : item) : list item :=
  match i with
  (* src/lib.rs:75-385 *)
  | set_module s =>
      [hash_module s; hash_message_fn; traits; slh_keygen_with_rng_fn; slh_keygen_internal_fn;
       slh_sign_with_rng_fn; slh_sign_internal_fn; slh_verify_fn; slh_verify_internal_fn;
       serialize_fn; deserialize_fn]
  (* src/lib.rs:144 *)
  | module_try_keygen s => [set_module s; trait_try_keygen]
  (* src/traits.rs:57-59, 221-225, 269-273 *)
  | trait_try_keygen | trait_try_sign | trait_try_hash_sign => [traits; use_OsRng]
  | use_OsRng => [rand_core_OsRng]
  (* src/hashers.rs:52-95 *)
  | mod_shake => [to_32_bytes_fn]
  (* src/hashers.rs:136-200, 255-318 *)
  | mod_sha2_cat_1 | mod_sha2_cat_3_5 => [to_22_bytes_fn]
  (* slh.rs *)
  | slh_keygen_with_rng_fn => [slh_keygen_internal_fn]
  | slh_keygen_internal_fn => [adrs_setters; xmss_node_fn]
  | slh_sign_with_rng_fn => [slh_sign_internal_fn]
  | slh_sign_internal_fn => [adrs_setters; to_int_fn; fors_sign_fn; fors_pk_from_sig_fn; ht_sign_fn]
  | slh_verify_fn => [slh_verify_internal_fn]
  | slh_verify_internal_fn => [adrs_setters; to_int_fn; fors_pk_from_sig_fn; ht_verify_fn]
  (* fors.rs *)
  | fors_sk_gen_fn => [adrs_setters]
  | fors_node_fn => [adrs_setters; fors_sk_gen_fn; fors_node_fn]
  | fors_sign_fn => [base_2b_fn; fors_sk_gen_fn; fors_node_fn]
  | fors_pk_from_sig_fn => [base_2b_fn; adrs_setters]
  (* hypertree.rs *)
  | ht_sign_fn => [adrs_setters; xmss_sign_fn; xmss_pk_from_sig_fn]
  | ht_verify_fn => [adrs_setters; xmss_pk_from_sig_fn]
  (* xmss.rs *)
  | xmss_node_fn => [adrs_setters; wots_pkgen_fn; xmss_node_fn]
  | xmss_sign_fn => [adrs_setters; xmss_node_fn; wots_sign_fn]
  | xmss_pk_from_sig_fn => [adrs_setters; wots_pk_from_sig_fn]
  (* wots.rs *)
  | chain_fn => [adrs_setters]
  | wots_pkgen_fn => [adrs_setters; chain_fn]
  | wots_sign_fn => [base_2b_fn; to_byte_fn; adrs_setters; chain_fn]
  | wots_pk_from_sig_fn => [base_2b_fn; to_byte_fn; adrs_setters; chain_fn]
  | _ => []
  end.

(** the items visible outside the crate (src/lib.rs:56-66, 448-1026: [pub] modules, traits and their methods; rand_core is outside) *)
Definition public (i : item) : bool :=
  match i with
  | set_module _ | module_try_keygen _ | traits | trait_try_keygen | trait_try_sign | trait_try_hash_sign
  | rand_core_OsRng => true
  | _ => false
  end.
