(** The exceptions of the Python wrapper (ffi/fips205.py). *)
From Coq Require Import String.
From Verif Require Import Spec.Fips205 Spec.Fips205Hash.
From Verif Require Import Model.Api Spec.Vocab Model.PyErr Spec.VocabPy Proof.TopPyObj Proof.TopPyErr Proof.Toy Proof.ToyKeys Proof.ToyPy.
Import ListNotations.
Open Scope list_scope.
Open Scope N_scope.

(** C90. Python exceptions name the cause and nothing else. Every exception that the Python wrapper
    itself raises has one of the following causes, and its text says which. (Exceptions of Python's
    own, for objects without a length or calls of a method that does not exist, are told apart from
    these.) A key object is asked for with data of the wrong length; the message or the signature is
    not a bytes object; the signature does not have 17088 bytes; key generation reports 4 exactly
    when the system generator refused one of three draws; signing reports 3 when the private key is
    not consistent and 5 when the generator refused. Signing with a consistent key and a working
    generator raises nothing, and neither does verifying with a key and a signature of the right
    lengths: a wrong signature is False, not an exception. There are eight texts in all, and none
    contains key bytes. *)
Theorem python_exceptions :
  forall (T : Target) (P : Prims) (W : Wide) (os : Rng) (g : rng_st os) (H : heap),
    let ps := fips_params SHA2_128f in
    let hs := fips_hash SHA2_128f in
    let raises op text := py_exception os g H op = Some (OwnText text) in
    (** a call raises exactly when there is an exception *)
    (forall op, snd (py_step os g H op) = PyRaise <-> exists e, py_exception os g H op = Some e) /\
    (** arguments of the wrong kind or length *)
    (forall v l, py_len H v = Some l ->
       (l <> 32 -> raises (PPublic v) "Inconsistent public key source/length"%string) /\
       (l <> 64 -> raises (PPrivate v) "Inconsistent private key source/length"%string)) /\
    (forall d m, (forall i, m <> VBytes i) -> raises (PSign (PrivObj d) m) "Message must be bytes"%string) /\
    (forall d m sg, (forall i, m <> VBytes i) \/ (forall j, sg <> VBytes j) ->
       raises (PVerify (PubObj d) m sg) "Signature and message must be bytes"%string) /\
    (forall d i j m sig, content H i = Some m -> content H j = Some sig -> nlen sig <> 17088 ->
       raises (PVerify (PubObj d) (VBytes i) (VBytes j)) "Inconsistent signature source/length"%string) /\
    (** key generation: one of the three draws was refused, and nothing else *)
    (raises PKeygen "slh_dsa_sha2_128f_keygen() returned 4"%string <->
       refuses os g 16 \/
       (exists a g1, gives os g 16 a g1 /\ refuses os g1 16) \/
       (exists a b g1 g2, gives os g 16 a g1 /\ gives os g1 16 b g2 /\ refuses os g2 16)) /\
    (forall e, py_exception os g H PKeygen = Some e -> raises PKeygen "slh_dsa_sha2_128f_keygen() returned 4"%string) /\
    (** signing: 3 for a private key that is not consistent, 5 for a refused draw, otherwise nothing *)
    (forall i m k SK, content H i = Some m -> nlen m < 2 ^ 31 -> nlen m < 2 ^ usize_bits ->
       content H k = Some SK -> nlen SK = 64 -> k <> i ->
       let sign := PSign (PrivObj (VBytes k)) (VBytes i) in
       let '(_, PK) := Fips205.slh_keygen_internal ps hs (sub_bytes SK 0 16) (sub_bytes SK 16 32) (sub_bytes SK 32 48) in
       (PK <> sub_bytes SK 32 64 -> raises sign "slh_dsa_sha2_128f_sign() returned 3"%string) /\
       (PK = sub_bytes SK 32 64 -> refuses os g 16 -> raises sign "slh_dsa_sha2_128f_sign() returned 5"%string) /\
       (PK = sub_bytes SK 32 64 -> forall b g', gives os g 16 b g' -> py_exception os g H sign = None)) /\
    (** verifying with a key and a signature of the right lengths: nothing *)
    (forall i m k PK j sig, content H i = Some m -> content H k = Some PK -> nlen PK = 32 ->
       content H j = Some sig -> nlen sig = 17088 ->
       py_exception os g H (PVerify (PubObj (VBytes k)) (VBytes i) (VBytes j)) = None) /\
    (** no other texts *)
    (forall op text, raises op text ->
       In text ["Inconsistent public key source/length"; "Inconsistent private key source/length";
                "Signature and message must be bytes"; "Inconsistent signature source/length"; "Message must be bytes";
                "slh_dsa_sha2_128f_keygen() returned 4"; "slh_dsa_sha2_128f_sign() returned 3"; "slh_dsa_sha2_128f_sign() returned 5"]%string).
Proof. exact prop_python_exceptions. Qed.
Print Assumptions python_exceptions.

(** the heap of a program that generated a key pair and signed: signing again raises nothing, a signature cannot be
    signed as a key, and with a generator that fails key generation raises the text of the theorem *)
Example python_exceptions_applies :
  exists g PK SK sig, let H := [five; PK; SK; sig] in
    let exc := fun op => py_exception (T := debug64) (P := toy_prims) (W := wide32) counter g H op in
    exc (PSign (PrivObj (VBytes 2)) (VBytes 0)) = None /\
    exc (PVerify (PubObj (VBytes 1)) (VBytes 0) (VBytes 3)) = None /\
    exc (PVerify (PubObj (VBytes 1)) (VBytes 0) (VBytes 2)) = Some (OwnText "Inconsistent signature source/length") /\
    exc (PPrivate (VBytes 3)) = Some (OwnText "Inconsistent private key source/length") /\
    exc (PSign (PrivObj (VBytes 2)) (VStr [65])) = Some (OwnText "Message must be bytes") /\
    py_exception (T := debug64) (P := toy_prims) (W := wide32) broken tt H PKeygen =
      Some (OwnText "slh_dsa_sha2_128f_keygen() returned 4").
Proof.
  destruct toy_py_program as (g & PK & SK & sig & objs & Hi & _ & _ & Lp & Lk & Ls). exists g, PK, SK, sig. cbv zeta.
  destruct (python_exceptions debug64 toy_prims wide32 counter g [five; PK; SK; sig]) as (R & Le & Mb & _ & Sl & _ & _ & _ & V & _).
  split; [|split; [|split; [|split; [|split]]]].
  - destruct (prop_python_program_histories debug64 toy_prims wide32 _ _ _ _ _ _ _ _ Hi) as (_ & _ & _ & _ & S).
    destruct (S PK SK (or_introl eq_refl)) as [_ Sg].
    destruct (Sg 0 2 five eq_refl eq_refl ltac:(discriminate) eq_refl eq_refl) as (_ & _ & Sg2).
    destruct (Sg2 _ _ (counter_gives g 16)) as (sig2 & E2).
    destruct (py_exception _ _ _ _) as [e|] eqn:E; [exfalso|reflexivity].
    pose proof (proj2 (R _) (ex_intro _ e E)) as Q. rewrite E2 in Q. discriminate Q.
  - exact (V 0 five 1 PK 3 sig eq_refl eq_refl Lp eq_refl Ls).
  - apply (Sl (VBytes 1) 0 2 five SK eq_refl eq_refl). rewrite Lk. discriminate.
  - apply (proj2 (Le (VBytes 3) (nlen sig) eq_refl)). rewrite Ls. discriminate.
  - apply Mb. discriminate.
  - destruct (python_exceptions debug64 toy_prims wide32 broken tt [five; PK; SK; sig]) as (_ & _ & _ & _ & _ & K & _).
    apply K. left. do 2 eexists. reflexivity.
Qed.

(** C73, the part that holds: every text a call produces, as its value or as the text of an
    exception of the wrapper, is the printed form of a private key object, the printed form of a
    public key object, which holds the public key, or one of eight fixed texts. Missing: the printed
    form of a private key object (python_repr_hides_key_refuted), and the texts of exceptions that
    Python itself raises, which are not modelled. *)
Theorem python_texts_hide_key_partial :
  forall (T : Target) (P : Prims) (W : Wide) (os : Rng) (g : rng_st os) (H : heap) (op : py_op) (text : string),
    py_exception os g H op = Some (OwnText text) \/ snd (py_step os g H op) = PyReturn (RText text) ->
    (exists d, op = PRepr (PrivObj d)) \/
    (exists i PK, op = PRepr (PubObj (VBytes i)) /\ content H i = Some PK /\
       text = ("<slh_dsa_sha2_128f public key: " ++ hex PK ++ ">")%string) \/
    In text ["Inconsistent public key source/length"; "Inconsistent private key source/length";
             "Signature and message must be bytes"; "Inconsistent signature source/length"; "Message must be bytes";
             "slh_dsa_sha2_128f_keygen() returned 4"; "slh_dsa_sha2_128f_sign() returned 3"; "slh_dsa_sha2_128f_sign() returned 5"]%string.
Proof. exact prop_python_texts_hide_key_partial. Qed.
Print Assumptions python_texts_hide_key_partial.

Example python_texts_hide_key_partial_applies :
  exists g PK SK sig text, let H := [five; PK; SK; sig] in
    snd (py_step (T := debug64) (P := toy_prims) (W := wide32) counter g H (PRepr (PubObj (VBytes 1)))) = PyReturn (RText text) /\
    py_exception (T := debug64) (P := toy_prims) (W := wide32) counter g H (PSign (PrivObj (VBytes 2)) (VStr [65])) =
      Some (OwnText "Message must be bytes").
Proof.
  destruct toy_py_program as (g & PK & SK & sig & objs & _). exists g, PK, SK, sig. eexists. cbv zeta. split; reflexivity.
Qed.
