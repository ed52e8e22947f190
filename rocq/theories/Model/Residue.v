(** Model of what key generation, private-key import and private-key export, also through the C interface, store in memory:
    the local variables and parameters that hold key material (src/slh.rs:14-78, src/lib.rs:359-383, ffi/src/lib.rs:40-84), over the memory of Model/Zeroize.v.
    Simplifications: those of Model/Zeroize.v; every local variable, parameter and returned value of the source program has
    a place of its own, and passing or returning it by value copies it (a compiler may share places, which is a program
    with fewer copies); the moves through Result and tuples on the way to the caller (src/slh.rs:41, src/lib.rs:201-202) count
    as one; values derived from the seeds inside xmss_node, which is called with references, are left out, and
    so are public keys; a draw that fails leaves its buffer as it was. *)
From Verif Require Export Model.Values.
From Verif Require Import Model.Ffi.
Import ListNotations.
Open Scope N_scope.

(** Addresses. The parameters sk_seed, sk_prf and pk_seed of src/slh.rs:60, the value sk of src/slh.rs:76, and where the
    caller finds the private key. *)
Record Places := mkPlaces { pl_seed : N; pl_prf : N; pl_pkseed : N; pl_built : N; pl_out : N }.
(** src/slh.rs:27-35: the local arrays of slh_keygen_with_rng *)
Record GenPlaces := mkGenPlaces { lo_seed : N; lo_prf : N; lo_pkseed : N }.
(** src/lib.rs:370, 380: the local values sk and sk_test of try_from_bytes *)
Record ImportPlaces := mkImportPlaces { im_sk : N; im_test : N }.

(** src/lib.rs:359-366: the parameter self of into_bytes, its local array bytes, and where the caller finds the result *)
Record ExportPlaces := mkExportPlaces { ex_self : N; ex_bytes : N; ex_out : N }.

Section residue.
Context {T : Target} {P : Prims} (p : Params).
Notation n := (cN p).

(** src/slh.rs:51-78 [slh_keygen_internal]: the arguments are copied into the parameters, the private key is built from
    them and returned by value to dest. The parameters are arrays, which have no Drop. *)
Definition keygen_internal_memory (lay : SkLayout) (pl : Places) (dest : N) (sk : SlhPrivateKey) (mem : memory) : memory :=
  let mem := write_bytes (pl_seed pl) (sk_seed sk) mem in
  let mem := write_bytes (pl_prf pl) (sk_prf sk) mem in
  let mem := write_bytes (pl_pkseed pl) (sk_pk_seed sk) mem in
  let mem := place_sk lay (pl_built pl) sk mem in
  move_PrivateKey p lay (pl_built pl) dest mem.

(** src/slh.rs:14-42 [slh_keygen_with_rng], called by src/lib.rs:198-203 [try_keygen_with_rng] *)
Definition keygen_memory (lay : SkLayout) (lo : GenPlaces) (pl : Places) (r : Rng) (g : rng_st r) (mem : memory) : memory :=
  match try_fill r g n with
  | (g, Val a) =>
      let mem := write_bytes (lo_seed lo) a mem in
      match try_fill r g n with
      | (g, Val b) =>
          let mem := write_bytes (lo_prf lo) b mem in
          match try_fill r g n with
          | (_, Val c) =>
              let mem := write_bytes (lo_pkseed lo) c mem in
              match result (slh_keygen_internal p (HASHERS p) a b c) with
              | Val (sk, _) => keygen_internal_memory lay pl (pl_out pl) sk mem
              | _ => mem
              end
          | _ => mem
          end
      | _ => mem
      end
  | _ => mem
  end.

(** src/lib.rs:369-383 [PrivateKey::try_from_bytes]: sk is filled with zeros and then with the bytes; sk_test is the value
    slh_keygen_internal returns. When the import is refused both are dropped, the last declared first. Otherwise sk is
    moved to the caller and sk_test is dropped. Which of the two happens is taken from Model.Api. *)
Definition import_memory (lay : SkLayout) (im : ImportPlaces) (pl : Places) (bs : bytes) (mem : memory) : memory :=
  let zeros := nrepeat x00 n in
  let sk := mkSk (sub_bytes bs 0 n) (sub_bytes bs n (2 * n)) (sub_bytes bs (2 * n) (3 * n)) (sub_bytes bs (3 * n) (4 * n)) in
  let mem := place_sk lay (im_sk im) (mkSk zeros zeros zeros zeros) mem in
  let mem := place_sk lay (im_sk im) sk mem in
  match result (slh_keygen_internal p (HASHERS p) (sk_seed sk) (sk_prf sk) (sk_pk_seed sk)) with
  | Val (sk_test, _) =>
      let mem := keygen_internal_memory lay pl (im_test im) sk_test mem in
      match result (sk_try_from_bytes p bs) with
      | Val _ => drop_SlhPrivateKey p lay (im_test im) (move_PrivateKey p lay (im_sk im) (pl_out pl) mem)
      | _ => drop_SlhPrivateKey p lay (im_sk im) (drop_SlhPrivateKey p lay (im_test im) mem)
      end
  | _ => mem
  end.

(** src/lib.rs:359-366 [PrivateKey::into_bytes]: the value at a is moved into self, the array is filled (with what Model.Api
    says) and returned by value, and self is dropped. *)
Definition export_memory (lay : SkLayout) (ex : ExportPlaces) (a : N) (mem : memory) : memory :=
  let mem := move_PrivateKey p lay a (ex_self ex) mem in
  match result (sk_into_bytes p (load_sk p lay (ex_self ex) mem)) with
  | Val bs =>
      let mem := write_bytes (ex_bytes ex) bs mem in
      let mem := write_bytes (ex_out ex) bs mem in
      drop_PrivateKey p lay (ex_self ex) mem
  | _ => mem
  end.

(** ffi/src/lib.rs:40-56 [slh_dsa_sha2_128f_keygen] with two pointers that are not null: key generation with the system
    generator, then into_bytes of the private key, whose result is assigned to private_out.data (at ex_out). The public key
    and public_out are left out. *)
Definition ffi_keygen_memory (lay : SkLayout) (lo : GenPlaces) (pl : Places) (ex : ExportPlaces) (os : Rng) (g : rng_st os)
  (mem : memory) : memory :=
  let mem := keygen_memory lay lo pl os g mem in
  match result (snd (try_keygen p os g)) with
  | Val _ => export_memory lay ex (pl_out pl) mem
  | _ => mem
  end.

(** ffi/src/lib.rs:60-84 [slh_dsa_sha2_128f_sign] with pointers that are not null: the struct at key_at is imported into the
    local sk (at pl_out), the signature is assigned to signature_out.data (at sig_at), and sk is dropped when the function
    returns. Signing takes sk by reference; values derived from the seeds inside it are left out. *)
Definition ffi_sign_memory (lay : SkLayout) (im : ImportPlaces) (pl : Places) (key_at sig_at : N) (os : Rng) (g : rng_st os)
  (message_buf : bytes) (message_len : Z) (mem : memory) : memory :=
  let data := read_bytes (cSK_LEN p) key_at mem in
  match from_raw_parts (Some message_buf) message_len with
  | RSlice m =>
      let mem := import_memory lay im pl data mem in
      match result (sk_try_from_bytes p data) with
      | Val sk =>
          let mem := match result (snd (try_sign p os sk m [] true g)) with
                     | Val sig => write_bytes sig_at sig mem
                     | _ => mem
                     end in
          drop_PrivateKey p lay (pl_out pl) mem
      | _ => mem
      end
  | _ => mem
  end.
End residue.
