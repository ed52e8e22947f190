(** Model of private-key values that a Rust program copies, moves, erases and drops: derive(Clone), derive(Zeroize) and
    derive(ZeroizeOnDrop) of src/types.rs:42 and src/lib.rs:89, over the memory of Model/Zeroize.v.
    Simplifications: those of Model/Zeroize.v; a move copies the fields only, not the padding between them; a move that
    the compiler elides is a program without it. *)
From Verif Require Export Model.Zeroize.
Import ListNotations.
Open Scope N_scope.

(** the n bytes found at address a: reading a field [u8; N] of src/types.rs:43-48 *)
Definition read_bytes (n a : N) (mem : memory) : bytes :=
  map (fun i => mem (a + N.of_nat i)) (seq 0 (N.to_nat n)).

Section values.
Context (p : Params).
Notation n := (cN p).

(** the value of type PrivateKey (src/lib.rs:90, src/types.rs:43-48) at address a *)
Definition load_sk (lay : SkLayout) (a : N) (mem : memory) : SlhPrivateKey :=
  mkSk (read_bytes n (a + at_sk_seed lay) mem) (read_bytes n (a + at_sk_prf lay) mem)
       (read_bytes n (a + at_pk_seed lay) mem) (read_bytes n (a + at_pk_root lay) mem).

(** src/types.rs:42, src/lib.rs:89 [derive(Clone)]: each field is cloned into the new value *)
Definition clone_PrivateKey (lay : SkLayout) (a b : N) (mem : memory) : memory :=
  place_sk lay b (load_sk lay a mem) mem.

(** A Rust move of a PrivateKey (src/lib.rs:202 and 382 return one by value, and so does a program that stores the key
    elsewhere): the fields are copied. The compiler does not run Drop on the old place. *)
Definition move_PrivateKey (lay : SkLayout) (a b : N) (mem : memory) : memory :=
  place_sk lay b (load_sk lay a mem) mem.

(** what a program does with private-key values (src/lib.rs:89-90) *)
Inductive key_op :=
| KCreate (a : N) (sk : SlhPrivateKey) (** key generation or import leaves its result at a *)
| KClone (a b : N)                     (** clone() of the value at a, to b *)
| KMove (a b : N)                      (** the value at a becomes the value at b *)
| KZeroize (a : N)                     (** zeroize() of the value at a, which stays alive *)
| KDrop (a : N).                       (** the value at a goes out of scope *)

(** src/lib.rs:89-90 and the language: the stores of each *)
Definition key_step (lay : SkLayout) (op : key_op) (mem : memory) : memory :=
  match op with
  | KCreate a sk => place_sk lay a sk mem
  | KClone a b => clone_PrivateKey lay a b mem
  | KMove a b => move_PrivateKey lay a b mem
  | KZeroize a => zeroize_PrivateKey p lay a mem
  | KDrop a => drop_PrivateKey p lay a mem
  end.
End values.
