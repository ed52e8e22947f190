(** Words used in the statements about the C interface, and nothing else. *)
From Verif Require Import Machine.
Open Scope N_scope.

(** the message a C caller designates with a pointer to buf and the length len: the first len bytes,
    when len is not negative, within the buffer and representable as a usize *)
Definition c_message {T : Target} (buf : bytes) (len : Z) (m : bytes) : Prop :=
  (0 <= len)%Z /\ m = sub_bytes buf 0 (Z.to_N len) /\ Z.to_N len <= nlen buf /\ Z.to_N len < 2 ^ usize_bits.
