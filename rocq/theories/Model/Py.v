(** Model of ffi/fips205.py, the Python wrapper around the C interface.
    Simplifications: arguments annotated as bytes are bytes objects (the isinstance tests on other
    objects raise and are left out); exception texts are left out here (see Model.PyErr); the key objects' [source] is the
    only class that exists, slh_dsa_sha2_128f; the C return value, declared u8, arrives zero-extended
    in the int that ctypes reads; __repr__ is left out. ctypes passes a bytes object as a non-null
    pointer to its contents. *)
From Verif Require Export Model.Ffi.
Open Scope N_scope.

(** what a Python caller sees of ffi/fips205.py:96-168: a value, an exception, the end of the process, undefined behaviour *)
Inductive py_result (A : Type) := PyReturn (a : A) | PyRaise | PyAbort | PyUB.
Arguments PyReturn {A} a.
Arguments PyRaise {A}.
Arguments PyAbort {A}.
Arguments PyUB {A}.

(** ffi/fips205.py:173-175 *)
Definition PY_PK_LEN : N := 32.
(** ffi/fips205.py:174 *)
Definition PY_SK_LEN : N := 64.
(** ffi/fips205.py:175 *)
Definition PY_SIG_LEN : N := 17088.

(** ctypes, default conversion of a Python int argument (none of the functions has argtypes; the length
    in ffi/fips205.py:115 and 146): the low
    32 bits, read as a signed C int. Lengths are below 2^63, so the conversion itself does not raise
    where C long has 64 bits. *)
Definition ctypes_int (n : N) : Z :=
  let w := n mod 2 ^ 32 in
  if w <? 2 ^ 31 then Z.of_N w else (Z.of_N w - Z.of_N (2 ^ 32))%Z.

(** ffi/fips205.py:96-101 [PublicKey.__init__], 128-133 [PrivateKey.__init__]; 106-107, 138-139 [__bytes__]
    return the stored data, so a key object is its bytes *)
Definition PyPublicKey (data : bytes) : py_result bytes :=
  if nlen data =? PY_PK_LEN then PyReturn data else PyRaise.
(** ffi/fips205.py:128-133 *)
Definition PyPrivateKey (data : bytes) : py_result bytes :=
  if nlen data =? PY_SK_LEN then PyReturn data else PyRaise.

(** ffi/fips205.py:79-86 [class Err], the values that are used *)
Definition ERR_OK : N := 0.
(** ffi/fips205.py:86 *)
Definition ERR_VERIFY_ERROR : N := 6.

Section Py.
Context {T : Target} {P : Prims}.

(** ffi/fips205.py:109-118 [PublicKey.verify] *)
Definition py_verify (key message signature : bytes) : py_result bool :=
  if negb (nlen signature =? PY_SIG_LEN) then PyRaise else
  match ffi_verify (Some message) (ctypes_int (nlen message)) (Some key) (Some signature) with
  | FReturn ret _ =>
      if negb (ret =? ERR_OK) && negb (ret =? ERR_VERIFY_ERROR) then PyRaise
      else PyReturn (ret =? ERR_OK)
  | FAbort => PyAbort
  | FUB => PyUB
  end.

(** ffi/fips205.py:141-149 [PrivateKey.sign] *)
Definition py_sign (os : Rng) (g : rng_st os) (key message : bytes) : rng_st os * py_result bytes :=
  let signature := nrepeat x00 PY_SIG_LEN in
  let (g, r) := ffi_sign os g (Some message) (ctypes_int (nlen message)) (Some key) (Some signature) in
  (g, match r with
      | FReturn ret out =>
          if negb (ret =? ERR_OK) then PyRaise
          else match out with Some sig => PyReturn sig | None => PyUB end
      | FAbort => PyAbort
      | FUB => PyUB
      end).

(** ffi/fips205.py:161-168 [_Slh_Dsa.keygen] *)
Definition py_keygen (os : Rng) (g : rng_st os) : rng_st os * py_result (bytes * bytes) :=
  let pk := nrepeat x00 PY_PK_LEN in
  let sk := nrepeat x00 PY_SK_LEN in
  let (g, r) := ffi_keygen os g (Some pk) (Some sk) in
  (g, match r with
      | FReturn ret outs =>
          if negb (ret =? ERR_OK) then PyRaise
          else match outs with
               | (Some pk, Some sk) =>
                   match PyPublicKey pk, PyPrivateKey sk with
                   | PyReturn pk, PyReturn sk => PyReturn (pk, sk)
                   | _, _ => PyRaise
                   end
               | _ => PyUB
               end
      | FAbort => PyAbort
      | FUB => PyUB
      end).
End Py.
