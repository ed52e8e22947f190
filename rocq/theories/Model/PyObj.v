(** Model of ffi/fips205.py with Python objects: which object each name refers to, what is not a bytes
    object, and what the C functions write into. Model.Py computes on the contents of bytes objects
    only; here the same functions act on a heap.
    Simplifications: attributes of key objects are not reassigned and their [source] is
    slh_dsa_sha2_128f, the only one that exists; objects are not freed; subclasses of bytes and str
    count as bytes and str; exceptions are told apart in Model.PyErr only. *)
From Coq Require Import String.
From Verif Require Export Model.Py.
Import ListNotations.
Open Scope list_scope.
Open Scope N_scope.

(** The arguments of ffi/fips205.py:96, 109, 128, 141. A bytes object is its identity; a str object is
    its code points; any other object is described by what len() and bytes() say of it. ctypes passes a
    bytes object by address, a str object as a copy in wide characters, and refuses the others. Left out:
    objects that ctypes itself defines or that have the attribute _as_parameter_, which it would pass. *)
Inductive py_value :=
| VBytes (i : N)
| VStr (s : list N)
| VOther (len : option N) (as_bytes : option bytes).

(** the contents of the bytes objects, by identity (the objects of ffi/fips205.py:96-168) *)
Definition heap := list bytes.
(** the bytes of an object (ffi/fips205.py:96-168) *)
Definition content (H : heap) (i : N) : option bytes := nth_error H (N.to_nat i).
(** a new bytes object (ffi/fips205.py:145, 164) and its identity *)
Definition alloc (H : heap) (bs : bytes) : heap * N := (H ++ [bs], nlen H).
(** the C function stores into the buffer of a bytes object (ffi/fips205.py:146, 165) *)
Definition write (H : heap) (i : N) (v : option bytes) : heap :=
  match v with Some bs => upd_list H i bs | None => H end.

(** len(v) (ffi/fips205.py:98, 130); None: TypeError *)
Definition py_len (H : heap) (v : py_value) : option N :=
  match v with
  | VBytes i => option_map nlen (content H i)
  | VStr s => Some (nlen s)
  | VOther l _ => l
  end.

(** PyUnicode_AsWideCharString, by which ctypes converts str (ffi/fips205.py:115, 146): depends on the platform (2 or 4 bytes for
    most characters, never less than one); None: ValueError for an embedded null *)
Class Wide := {
  wide : list N -> option bytes;
  wide_len : forall s b, wide s = Some b -> nlen s <= nlen b }.

(** key objects (ffi/fips205.py:89-118, 121-149): what [self.key] refers to *)
Inductive py_key := PubObj (data : py_value) | PrivObj (data : py_value).

(** what a call returns (ffi/fips205.py:96-168) *)
Inductive py_ret := RValue (v : py_value) | RKey (k : py_key) | RPair (pk sk : py_key) | RBool (b : bool) | RText (s : string).

Section PyObj.
Context {T : Target} {P : Prims} {W : Wide}.

(** a pointer argument to n bytes (ffi/fips205.py:115, 146, 165): [None] if ctypes raises, [Some None] if fewer bytes are there *)
Definition struct_arg (H : heap) (v : py_value) (n : N) : option (option bytes) :=
  let whole b := if n <=? nlen b then Some (sub_bytes b 0 n) else None in
  match v with
  | VBytes i => option_map whole (content H i)
  | VStr s => option_map whole (wide s)
  | VOther _ _ => None
  end.

(** the same bytes object passed as message and as &mut struct (ffi/src/lib.rs:61-63, 88-90): the slice of
    ffi/src/lib.rs:73-74, 95-96 then aliases the struct, unless it is empty *)
Definition same_object (key : py_value) (msg : N) (len : Z) : bool :=
  match key with VBytes i => (i =? msg) && (0 <? len)%Z | _ => false end.

(** ffi/fips205.py:96-101 and 128-133 *)
Definition py_public (H : heap) (data : py_value) : py_result py_ret :=
  match py_len H data with
  | Some l => if l =? PY_PK_LEN then PyReturn (RKey (PubObj data)) else PyRaise
  | None => PyRaise
  end.
(** ffi/fips205.py:128-133 *)
Definition py_private (H : heap) (data : py_value) : py_result py_ret :=
  match py_len H data with
  | Some l => if l =? PY_SK_LEN then PyReturn (RKey (PrivObj data)) else PyRaise
  | None => PyRaise
  end.

(** ffi/fips205.py:106-107 and 138-139: bytes() returns a bytes object itself and refuses a str *)
Definition py_bytes (H : heap) (k : py_key) : heap * py_result py_ret :=
  match k with
  | PubObj (VBytes i) | PrivObj (VBytes i) => (H, PyReturn (RValue (VBytes i)))
  | PubObj (VStr _) | PrivObj (VStr _) => (H, PyRaise)
  | PubObj (VOther _ c) | PrivObj (VOther _ c) =>
      match c with Some bs => let (H, i) := alloc H bs in (H, PyReturn (RValue (VBytes i))) | None => (H, PyRaise) end
  end.

(** bytes.hex() (ffi/fips205.py:104, 136): two lower-case digits per byte *)
Definition hex_digit (d : N) : Ascii.ascii :=
  Ascii.ascii_of_N (if d <? 10 then 48 + d else 87 + d).
(** bytes.hex() (ffi/fips205.py:104, 136) *)
Fixpoint hex (bs : bytes) : string :=
  match bs with
  | [] => EmptyString
  | b :: bs => String (hex_digit (b2n b / 16)) (String (hex_digit (b2n b mod 16)) (hex bs))
  end.

(** ffi/fips205.py:103-104 and 135-136; only bytes objects have hex() *)
Definition py_repr (H : heap) (k : py_key) : py_result py_ret :=
  let text kind data :=
    match data with
    | VBytes i => match content H i with
                  | Some bs => PyReturn (RText ("<slh_dsa_sha2_128f " ++ kind ++ " key: " ++ hex bs ++ ">")%string)
                  | None => PyRaise
                  end
    | _ => PyRaise
    end in
  match k with
  | PubObj data => text "public"%string data
  | PrivObj data => text "private"%string data
  end.

(** ffi/fips205.py:109-118; message and signature must be bytes objects (111-112) *)
Definition py_obj_verify (H : heap) (k : py_key) (message signature : py_value) : py_result py_ret :=
  match k, message, signature with
  | PubObj data, VBytes i, VBytes j =>
      match content H i, content H j with
      | Some m, Some sg =>
          if negb (nlen sg =? PY_SIG_LEN) then PyRaise else
          match struct_arg H data PY_PK_LEN with
          | None => PyRaise
          | Some None => PyUB
          | Some (Some key) =>
              if same_object data i (ctypes_int (nlen m)) || same_object signature i (ctypes_int (nlen m)) then PyUB
              else match ffi_verify (Some m) (ctypes_int (nlen m)) (Some key) (Some sg) with
                   | FReturn ret _ =>
                       if negb (ret =? ERR_OK) && negb (ret =? ERR_VERIFY_ERROR) then PyRaise
                       else PyReturn (RBool (ret =? ERR_OK))
                   | FAbort => PyAbort
                   | FUB => PyUB
                   end
          end
      | _, _ => PyRaise
      end
  | _, _, _ => PyRaise
  end.

(** ffi/fips205.py:141-149 *)
Definition py_obj_sign (os : Rng) (g : rng_st os) (H : heap) (k : py_key) (message : py_value)
  : rng_st os * heap * py_result py_ret :=
  match k, message with
  | PrivObj data, VBytes i =>
      match content H i with
      | Some m =>
          let (H, sg) := alloc H (nrepeat x00 PY_SIG_LEN) in
          match struct_arg H data PY_SK_LEN with
          | None => (g, H, PyRaise)
          | Some None => (g, H, PyUB)
          | Some (Some key) =>
              if same_object data i (ctypes_int (nlen m)) then (g, H, PyUB)
              else
                let (g, r) := ffi_sign os g (Some m) (ctypes_int (nlen m)) (Some key) (content H sg) in
                match r with
                | FReturn ret out =>
                    let H := write H sg out in
                    (g, H, if negb (ret =? ERR_OK) then PyRaise else PyReturn (RValue (VBytes sg)))
                | FAbort => (g, H, PyAbort)
                | FUB => (g, H, PyUB)
                end
          end
      | None => (g, H, PyRaise)
      end
  | _, _ => (g, H, PyRaise)
  end.

(** ffi/fips205.py:161-168 *)
Definition py_obj_keygen (os : Rng) (g : rng_st os) (H : heap) : rng_st os * heap * py_result py_ret :=
  let (H, pk) := alloc H (nrepeat x00 PY_PK_LEN) in
  let (H, sk) := alloc H (nrepeat x00 PY_SK_LEN) in
  let (g, r) := ffi_keygen os g (content H pk) (content H sk) in
  match r with
  | FReturn ret (pk_out, sk_out) =>
      let H := write (write H pk pk_out) sk sk_out in
      (g, H, if negb (ret =? ERR_OK) then PyRaise
             else match py_public H (VBytes pk), py_private H (VBytes sk) with
                  | PyReturn (RKey kp), PyReturn (RKey ks) => PyReturn (RPair kp ks)
                  | _, _ => PyRaise
                  end)
  | FAbort => (g, H, PyAbort)
  | FUB => (g, H, PyUB)
  end.

(** One action of a Python program (ffi/fips205.py:89-168): it makes a bytes object of its own, or calls the wrapper. *)
Inductive py_op :=
| PNew (bs : bytes)
| PPublic (data : py_value)
| PPrivate (data : py_value)
| PBytes (k : py_key)
| PRepr (k : py_key)
| PKeygen
| PSign (k : py_key) (message : py_value)
| PVerify (k : py_key) (message signature : py_value).

(** its effect (ffi/fips205.py:89-168) *)
Definition py_step (os : Rng) (g : rng_st os) (H : heap) (op : py_op) : rng_st os * heap * py_result py_ret :=
  match op with
  | PNew bs => let (H, i) := alloc H bs in (g, H, PyReturn (RValue (VBytes i)))
  | PPublic data => (g, H, py_public H data)
  | PPrivate data => (g, H, py_private H data)
  | PBytes k => let (H, r) := py_bytes H k in (g, H, r)
  | PRepr k => (g, H, py_repr H k)
  | PKeygen => py_obj_keygen os g H
  | PSign k m => py_obj_sign os g H k m
  | PVerify k m sg => (g, H, py_obj_verify H k m sg)
  end.

End PyObj.
