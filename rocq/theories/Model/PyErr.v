(** Model of the exceptions of ffi/fips205.py: which one each call raises, and its text.
    Simplification: exceptions that Python and ctypes raise themselves (TypeError, AttributeError,
    ValueError, ctypes.ArgumentError) are not told apart and their texts are left out; these texts name
    types, attributes and argument positions. *)
From Coq Require Import String DecimalString.
From Verif Require Export Model.PyObj.
Import ListNotations.
Open Scope list_scope.
Open Scope N_scope.

(** raise Exception(text) in ffi/fips205.py:99, 112, 114, 117, 131, 144, 148, 167, or an exception of Python's own *)
Inductive py_exc := OwnText (text : string) | PythonsOwn.

(** ffi/fips205.py:117, 148, 167: the f-strings; [__name__] of the source is slh_dsa_sha2_128f and an int is
    written in decimal *)
Definition returned (function : string) (ret : N) : string :=
  ("slh_dsa_sha2_128f_" ++ function ++ "() returned " ++ NilEmpty.string_of_uint (N.to_uint ret))%string.

Section PyErr.
Context {T : Target} {P : Prims} {W : Wide}.

(** ffi/fips205.py:98-99 and 130-131 *)
Definition exc_public (H : heap) (data : py_value) : option py_exc :=
  match py_len H data with
  | Some l => if l =? PY_PK_LEN then None else Some (OwnText "Inconsistent public key source/length")
  | None => Some PythonsOwn
  end.
(** ffi/fips205.py:130-131 *)
Definition exc_private (H : heap) (data : py_value) : option py_exc :=
  match py_len H data with
  | Some l => if l =? PY_SK_LEN then None else Some (OwnText "Inconsistent private key source/length")
  | None => Some PythonsOwn
  end.

(** ffi/fips205.py:107 and 139: bytes() of a text or of an object that has no bytes *)
Definition exc_bytes (k : py_key) : option py_exc :=
  match k with
  | PubObj (VBytes _) | PrivObj (VBytes _) => None
  | PubObj (VOther _ (Some _)) | PrivObj (VOther _ (Some _)) => None
  | _ => Some PythonsOwn
  end.

(** ffi/fips205.py:104 and 136: no attribute hex *)
Definition exc_repr (H : heap) (k : py_key) : option py_exc :=
  match k with
  | PubObj (VBytes i) | PrivObj (VBytes i) => match content H i with Some _ => None | None => Some PythonsOwn end
  | _ => Some PythonsOwn
  end.

(** ffi/fips205.py:109-118; a private key object has no attribute verify *)
Definition exc_verify (H : heap) (k : py_key) (message signature : py_value) : option py_exc :=
  match k with
  | PrivObj _ => Some PythonsOwn
  | PubObj data =>
      match message, signature with
      | VBytes i, VBytes j =>
          match content H i, content H j with
          | Some m, Some sg =>
              if negb (nlen sg =? PY_SIG_LEN) then Some (OwnText "Inconsistent signature source/length") else
              match struct_arg H data PY_PK_LEN with
              | None => Some PythonsOwn
              | Some None => None
              | Some (Some key) =>
                  if same_object data i (ctypes_int (nlen m)) || same_object signature i (ctypes_int (nlen m)) then None
                  else match ffi_verify (Some m) (ctypes_int (nlen m)) (Some key) (Some sg) with
                       | FReturn ret _ =>
                           if negb (ret =? ERR_OK) && negb (ret =? ERR_VERIFY_ERROR)
                           then Some (OwnText (returned "verify" ret)) else None
                       | _ => None
                       end
              end
          | _, _ => Some PythonsOwn
          end
      | _, _ => Some (OwnText "Signature and message must be bytes")
      end
  end.

(** ffi/fips205.py:141-149; a public key object has no attribute sign *)
Definition exc_sign (os : Rng) (g : rng_st os) (H : heap) (k : py_key) (message : py_value) : option py_exc :=
  match k with
  | PubObj _ => Some PythonsOwn
  | PrivObj data =>
      match message with
      | VBytes i =>
          match content H i with
          | Some m =>
              let (H, sg) := alloc H (nrepeat x00 PY_SIG_LEN) in
              match struct_arg H data PY_SK_LEN with
              | None => Some PythonsOwn
              | Some None => None
              | Some (Some key) =>
                  if same_object data i (ctypes_int (nlen m)) then None
                  else match snd (ffi_sign os g (Some m) (ctypes_int (nlen m)) (Some key) (content H sg)) with
                       | FReturn ret _ => if negb (ret =? ERR_OK) then Some (OwnText (returned "sign" ret)) else None
                       | _ => None
                       end
              end
          | None => Some PythonsOwn
          end
      | _ => Some (OwnText "Message must be bytes")
      end
  end.

(** ffi/fips205.py:161-168 *)
Definition exc_keygen (os : Rng) (g : rng_st os) (H : heap) : option py_exc :=
  let (H, pk) := alloc H (nrepeat x00 PY_PK_LEN) in
  let (H, sk) := alloc H (nrepeat x00 PY_SK_LEN) in
  match snd (ffi_keygen os g (content H pk) (content H sk)) with
  | FReturn ret (pk_out, sk_out) =>
      let H := write (write H pk pk_out) sk sk_out in
      if negb (ret =? ERR_OK) then Some (OwnText (returned "keygen" ret))
      else match exc_public H (VBytes pk) with Some e => Some e | None => exc_private H (VBytes sk) end
  | _ => None
  end.

(** The exception an action of a Python program raises (ffi/fips205.py:89-168), if any. *)
Definition py_exception (os : Rng) (g : rng_st os) (H : heap) (op : py_op) : option py_exc :=
  match op with
  | PNew _ => None
  | PPublic data => exc_public H data
  | PPrivate data => exc_private H data
  | PBytes k => exc_bytes k
  | PRepr k => exc_repr H k
  | PKeygen => exc_keygen os g H
  | PSign k m => exc_sign os g H k m
  | PVerify k m sg => exc_verify H k m sg
  end.

End PyErr.
