(** Programs that create, clone, move, zeroize and drop private-key values: words used in the statements about them. *)
From Verif Require Import Spec.Fips205Hash Model.Values Spec.Vocab Spec.VocabMem.
Import ListNotations.
Open Scope N_scope.

(** no byte of a key at b belongs to a live value *)
Definition free (s : set_name) (lay : SkLayout) (live : list (N * SlhPrivateKey)) (b : N) : Prop :=
  forall a sk x, In (a, sk) live -> in_private_key s lay b x -> ~ in_private_key s lay a x.

(** [owns s lay op live live']: the language lets a program that owns the values live (address and key) perform op, and
    it then owns live'. Values are put where no live value is; only live values are used. *)
Inductive owns (s : set_name) (lay : SkLayout) : key_op -> list (N * SlhPrivateKey) -> list (N * SlhPrivateKey) -> Prop :=
| own_create a sk live : sk_typed s sk -> free s lay live a -> owns s lay (KCreate a sk) live ((a, sk) :: live)
| own_clone a b sk live : In (a, sk) live -> free s lay live b -> owns s lay (KClone a b) live ((b, sk) :: live)
| own_move a b sk l1 l2 : free s lay (l1 ++ (a, sk) :: l2) b ->
    owns s lay (KMove a b) (l1 ++ (a, sk) :: l2) ((b, sk) :: l1 ++ l2)
| own_zeroize a sk l1 l2 :
    owns s lay (KZeroize a) (l1 ++ (a, sk) :: l2)
      (l1 ++ (a, mkSk (nrepeat x00 (seed_bytes s)) (nrepeat x00 (seed_bytes s))
                      (nrepeat x00 (seed_bytes s)) (nrepeat x00 (seed_bytes s))) :: l2)
| own_drop a sk l1 l2 : owns s lay (KDrop a) (l1 ++ (a, sk) :: l2) (l1 ++ l2).

(** where an operation puts a value, and which place it abandons without erasing it *)
Definition puts (op : key_op) : list N :=
  match op with KCreate a _ => [a] | KClone _ b | KMove _ b => [b] | _ => [] end.
Definition abandons (op : key_op) : list N :=
  match op with KMove a _ => [a] | _ => [] end.

(** [key_history s lay mem0 mem live used left]: starting with memory mem0 and no key a program did any number of these
    operations; memory is now mem, the program owns the values live, it has put values at the addresses used, and
    moved values away from the addresses left. *)
Inductive key_history (s : set_name) (lay : SkLayout) (mem0 : memory)
  : memory -> list (N * SlhPrivateKey) -> list N -> list N -> Prop :=
| keys_start : key_history s lay mem0 mem0 [] [] []
| keys_next mem live used left op live' :
    key_history s lay mem0 mem live used left -> owns s lay op live live' ->
    key_history s lay mem0 (key_step (param_set s) lay op mem) live' (puts op ++ used) (abandons op ++ left).
