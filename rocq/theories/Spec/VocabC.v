(** C programs that call the library any number of times on structs in their own memory: words used in
    the statements about them. *)
From Verif Require Import Machine Model.Api Model.FfiMem.
Import ListNotations.
Open Scope list_scope.
Open Scope N_scope.

(** a is null, or n allocated bytes start there *)
Definition null_or_struct (M : cmem) (a n : N) : Prop := a = 0 \/ a + n <= mem_top M.
(** no byte is in both; a null pointer designates no byte *)
Definition apart (a n b m : N) : Prop := a = 0 \/ b = 0 \/ n = 0 \/ m = 0 \/ a + n <= b \/ b + m <= a.
(** len bytes to read start at a, and len fits in a usize *)
Definition readable {T : Target} (M : cmem) (a : N) (len : Z) : Prop :=
  a <> 0 /\ (0 <= len)%Z /\ a + Z.to_N len <= mem_top M /\ Z.to_N len < 2 ^ usize_bits.

(** What a C programmer must respect: pointers to whole objects, separate objects, a length that is
    not negative and within the buffer. Null pointers are allowed wherever the library checks them. *)
Definition legal {T : Target} (M : cmem) (op : c_op) : Prop :=
  match op with
  | CStore a _ => 0 < a < mem_top M
  | CKeygen pub priv => null_or_struct M pub 32 /\ null_or_struct M priv 64 /\ apart pub 32 priv 64
  | CSign buf len sk out =>
      null_or_struct M sk 64 /\ null_or_struct M out 17088 /\ apart sk 64 out 17088 /\
      (buf = 0 \/ (readable M buf len /\ apart buf (Z.to_N len) sk 64 /\ apart buf (Z.to_N len) out 17088))
  | CVerify buf len pk sig =>
      null_or_struct M pk 32 /\ null_or_struct M sig 17088 /\ apart pk 32 sig 17088 /\
      readable M buf len /\ apart buf (Z.to_N len) pk 32 /\ apart buf (Z.to_N len) sig 17088
  end.

(** the bytes an operation that returned code may change *)
Definition may_change (op : c_op) (code : N) (x : N) : Prop :=
  match op with
  | CStore a _ => x = a
  | CKeygen pub priv => code = 0 /\ (pub <= x < pub + 32 \/ priv <= x < priv + 64)
  | CSign _ _ _ out => code = 0 /\ out <= x < out + 17088
  | CVerify _ _ _ _ => False
  end.

(** the return codes of each function *)
Definition documented (op : c_op) (code : N) : Prop :=
  match op with
  | CStore _ _ => code = 0
  | CKeygen _ _ => In code [0; 1; 4]
  | CSign _ _ _ _ => In code [0; 1; 3; 5]
  | CVerify _ _ _ _ => In code [0; 1; 6]
  end.

(** what a successful operation adds: the key pair now in memory; the message signed and the signature
    now in memory, with the public half (bytes 32 to 63) of the private key that made it *)
Definition new_keys (op : c_op) (code : N) (M' : cmem) : list (bytes * bytes) :=
  match op with
  | CKeygen pub priv => if code =? 0 then [(load M' pub 32, load M' priv 64)] else []
  | _ => []
  end.
Definition new_issues (op : c_op) (code : N) (M M' : cmem) : list (bytes * bytes * bytes) :=
  match op with
  | CSign buf len sk out =>
      if code =? 0 then [(load M (sk + 32) 32, load M buf (Z.to_N len), load M' out 17088)] else []
  | _ => []
  end.

(** [c_history os g0 M0 g M keys issued]: a C program started with the system generator in state g0 and
    memory M0 and performed any number of legal operations; the generator is now in state g, the memory
    is M, and the program was given the key pairs keys and the signatures issued. *)
Inductive c_history {T : Target} {P : Prims} (os : Rng) (g0 : rng_st os) (M0 : cmem)
  : rng_st os -> cmem -> list (bytes * bytes) -> list (bytes * bytes * bytes) -> Prop :=
| c_start : c_history os g0 M0 g0 M0 [] []
| c_next g M keys issued op g' code M' :
    c_history os g0 M0 g M keys issued -> legal M op ->
    c_step os g M op = (g', FReturn code M') ->
    c_history os g0 M0 g' M' (new_keys op code M' ++ keys) (new_issues op code M M' ++ issued).
