(** Python programs: objects and histories (ffi/fips205.py). *)
From Coq Require Import String.
From Verif Require Import Spec.Fips205 Spec.Fips205Hash.
From Verif Require Import Model.Api Spec.Vocab Model.PyObj Spec.VocabPy Proof.TopPyObj Proof.TopPyExact Proof.Toy Proof.ToyKeys Proof.ToyPy.
Import ListNotations.
Open Scope list_scope.
Open Scope N_scope.

(** C71. Python programs keep their objects and get what they asked for. A Python program that makes
    bytes objects, builds key objects from any objects, and calls keygen, sign, verify, bytes() and
    repr() any number of times, catching exceptions, observes the following at every point. No bytes
    object the program already holds ever changes, although the wrapper lets C code write into bytes
    objects. Every call comes back with a value or an exception (the process does not abort),
    provided messages are shorter than 2 GiB and are not the very object a key was made from. Every
    signature handed out so far verifies under the public half of its key, and every key pair handed
    out so far can sign. Constructors accept exactly objects of the right length, keygen, sign and
    verify are those of FIPS 205 on the contents of the objects, and a message or signature that is
    not a bytes object raises an exception without touching the generator. *)
Theorem python_program_histories :
  forall (T : Target) (P : Prims) (W : Wide) (os : Rng) (g0 g : rng_st os) (H0 H : heap)
         (objs : list py_key) (pairs : list (bytes * bytes)) (issued : list (bytes * bytes * bytes)),
    py_history os g0 H0 g H objs pairs issued ->
    (never_panics os -> forall op, py_legal H objs op ->
       exists g' H' r, py_step os g H op = (g', H', r) /\ came_back r) /\
    (forall i bs, content H0 i = Some bs -> content H i = Some bs) /\
    (forall op g' H' r, py_step os g H op = (g', H', r) ->
       forall i bs, content H i = Some bs -> content H' i = Some bs) /\
    (forall pkb m sigb, In (pkb, m, sigb) issued ->
       forall i j k, content H i = Some pkb -> content H j = Some m -> content H k = Some sigb -> i <> j -> j <> k ->
         py_step os g H (PPublic (VBytes i)) = (g, H, PyReturn (RKey (PubObj (VBytes i)))) /\
         py_step os g H (PVerify (PubObj (VBytes i)) (VBytes j) (VBytes k)) = (g, H, PyReturn (RBool true))) /\
    (forall pkb skb, In (pkb, skb) pairs ->
       sub_bytes skb 32 64 = pkb /\
       forall i k m, content H k = Some skb -> content H i = Some m -> k <> i -> nlen m < 2 ^ 31 -> nlen m < 2 ^ usize_bits ->
         py_step os g H (PPrivate (VBytes k)) = (g, H, PyReturn (RKey (PrivObj (VBytes k)))) /\
         (refuses os g 16 -> snd (py_step os g H (PSign (PrivObj (VBytes k)) (VBytes i))) = PyRaise) /\
         (forall b g', gives os g 16 b g' ->
            exists sig, py_step os g H (PSign (PrivObj (VBytes k)) (VBytes i)) =
                          (g', H ++ [sig], PyReturn (RValue (VBytes (nlen H)))))).
Proof. exact prop_python_program_histories. Qed.
Print Assumptions python_program_histories.

Example python_program_histories_applies :
  exists g PK SK sig objs,
    py_history (T := debug64) (P := toy_prims) (W := wide32) counter 0 [] g [five; PK; SK; sig] objs [(PK, SK)] [(PK, five, sig)] /\
    py_legal (T := debug64) [five; PK; SK; sig] objs (PVerify (PubObj (VBytes 1)) (VBytes 0) (VBytes 3)) /\
    py_step (T := debug64) (P := toy_prims) (W := wide32) counter g [five; PK; SK; sig]
      (PVerify (PubObj (VBytes 1)) (VBytes 0) (VBytes 3)) = (g, [five; PK; SK; sig], PyReturn (RBool true)).
Proof.
  destruct toy_py_program as (g & PK & SK & sig & objs & Hi & I1 & _). exists g, PK, SK, sig, objs.
  split; [exact Hi|]. split.
  - refine (conj I1 (conj _ (conj _ (conj _ _)))).
    + intros i Q. replace i with 0 by congruence. reflexivity.
    + intros i Q. replace i with 3 by congruence. reflexivity.
    + intros i bs Q E. assert (Qi : i = 0) by congruence. subst i. cbn in E. apply some_inj in E. subst bs.
      split; [reflexivity|]. split; [reflexivity|discriminate].
    + discriminate.
  - destruct (python_program_histories _ _ _ _ _ _ _ _ _ _ _ Hi) as (_ & _ & _ & V & _).
    apply (V PK five sig (or_introl eq_refl) 1 0 3 eq_refl eq_refl eq_refl); discriminate.
Qed.

(** C71, the results of single calls. *)
Theorem python_object_calls :
  forall (T : Target) (P : Prims) (W : Wide) (os : Rng) (g : rng_st os) (H : heap),
    let ps := fips_params SHA2_128f in
    let hs := fips_hash SHA2_128f in
    (forall v, py_step os g H (PPublic v) = (g, H, if match py_len H v with Some l => l =? 32 | None => false end
                                                   then PyReturn (RKey (PubObj v)) else PyRaise)) /\
    (forall v, py_step os g H (PPrivate v) = (g, H, if match py_len H v with Some l => l =? 64 | None => false end
                                                    then PyReturn (RKey (PrivObj v)) else PyRaise)) /\
    (forall a b c g1 g2 g3, gives os g 16 a g1 -> gives os g1 16 b g2 -> gives os g2 16 c g3 ->
       exists PK SK, Fips205.slh_keygen_internal ps hs a b c = (SK, PK) /\
         py_step os g H PKeygen =
           (g3, H ++ [PK; SK], PyReturn (RPair (PubObj (VBytes (nlen H))) (PrivObj (VBytes (nlen H + 1)))))) /\
    (refuses os g 16 \/
     (exists a g1, gives os g 16 a g1 /\ refuses os g1 16) \/
     (exists a b g1 g2, gives os g 16 a g1 /\ gives os g1 16 b g2 /\ refuses os g2 16) ->
     snd (py_step os g H PKeygen) = PyRaise) /\
    (forall i m, content H i = Some m -> nlen m < 2 ^ 31 -> nlen m < 2 ^ usize_bits ->
       (forall k SK, content H k = Some SK -> nlen SK = 64 -> k <> i ->
          let sign := py_step os g H (PSign (PrivObj (VBytes k)) (VBytes i)) in
          let '(_, PK) := Fips205.slh_keygen_internal ps hs (sub_bytes SK 0 16) (sub_bytes SK 16 32) (sub_bytes SK 32 48) in
          (PK <> sub_bytes SK 32 64 -> fst (fst sign) = g /\ snd sign = PyRaise) /\
          (PK = sub_bytes SK 32 64 -> refuses os g 16 -> snd sign = PyRaise) /\
          (PK = sub_bytes SK 32 64 -> forall b g', gives os g 16 b g' ->
             exists sig, sign = (g', H ++ [sig], PyReturn (RValue (VBytes (nlen H)))) /\
               Some sig = Fips205.slh_sign ps hs m [] SK (Some (Some b)))) /\
       (forall k PK j sig, content H k = Some PK -> nlen PK = 32 -> k <> i -> content H j = Some sig -> j <> i ->
          py_step os g H (PVerify (PubObj (VBytes k)) (VBytes i) (VBytes j)) =
            (g, H, if nlen sig =? sig_size SHA2_128f then PyReturn (RBool (Fips205.slh_verify ps hs m sig [] PK)) else PyRaise))) /\
    (forall k m, (forall i, m <> VBytes i) -> py_step os g H (PSign k m) = (g, H, PyRaise)) /\
    (forall k m sig, (forall i, m <> VBytes i) \/ (forall j, sig <> VBytes j) ->
       py_step os g H (PVerify k m sig) = (g, H, PyRaise)).
Proof. exact prop_python_object_calls. Qed.
Print Assumptions python_object_calls.

Example python_object_calls_applies :
  content [five; toy_sig SHA2_128f] 0 = Some five /\ nlen five < 2 ^ 31 /\
  nlen (nrepeat x00 32) = 32 /\
  (exists a b c g1 g2 g3, gives counter 5 16 a g1 /\ gives counter g1 16 b g2 /\ gives counter g2 16 c g3) /\
  refuses broken tt 16 /\ (forall i, VStr [65] <> VBytes i).
Proof.
  split; [reflexivity|]. split; [reflexivity|]. split; [reflexivity|]. split; [|split].
  - do 6 eexists. split; [reflexivity|]. split; reflexivity.
  - repeat eexists.
  - discriminate.
Qed.

(** C72. Every call on a Python key object is defined and uses the key the program supplied. Whatever
    object a Python program builds a key from and whatever bytes object it passes as message or
    signature, a call that does not raise is defined by the rules of the language underneath and
    uses the key bytes the program supplied. (False of the code. bytes(pk) returns the very object
    inside pk, so pk.verify(bytes(pk), sig) passes one buffer both as the message and as an
    exclusive reference, which Rust's aliasing rules leave undefined; likewise sk.sign(bytes(sk)).
    And a public key built from a text of 32 characters is accepted, cannot be turned into bytes,
    and verifies against the wide-character encoding of the text.)
    Refuted: the call the model reports as undefined. *)
Theorem python_own_bytes_refuted :
  forall (T : Target) (P : Prims) (W : Wide) (os : Rng) (g : rng_st os) (H : heap) (i : N) (key : bytes),
    content H i = Some key ->
    (nlen key = 32 -> forall j sig, content H j = Some sig -> nlen sig = sig_size SHA2_128f ->
       py_step os g H (PBytes (PubObj (VBytes i))) = (g, H, PyReturn (RValue (VBytes i))) /\
       py_step os g H (PVerify (PubObj (VBytes i)) (VBytes i) (VBytes j)) = (g, H, PyUB)) /\
    (nlen key = 64 ->
       py_step os g H (PBytes (PrivObj (VBytes i))) = (g, H, PyReturn (RValue (VBytes i))) /\
       snd (py_step os g H (PSign (PrivObj (VBytes i)) (VBytes i))) = PyUB).
Proof. exact prop_python_own_bytes_refuted. Qed.
Print Assumptions python_own_bytes_refuted.

Example python_own_bytes_refuted_applies :
  exists g PK SK sig objs,
    py_history (T := debug64) (P := toy_prims) (W := wide32) counter 0 [] g [five; PK; SK; sig] objs [(PK, SK)] [(PK, five, sig)] /\
    py_step (T := debug64) (P := toy_prims) (W := wide32) counter g [five; PK; SK; sig]
      (PVerify (PubObj (VBytes 1)) (VBytes 1) (VBytes 3)) = (g, [five; PK; SK; sig], PyUB).
Proof.
  destruct toy_py_program as (g & PK & SK & sig & objs & Hi & _ & _ & Lp & _ & Ls). exists g, PK, SK, sig, objs.
  split; [exact Hi|].
  apply (proj1 (python_own_bytes_refuted debug64 toy_prims wide32 counter g [five; PK; SK; sig] 1 PK eq_refl) Lp 3 sig eq_refl Ls).
Qed.

(** C72, keys built from text: accepted, and judged against bytes the program did not supply. *)
Theorem python_text_keys_refuted :
  forall (T : Target) (P : Prims) (W : Wide) (os : Rng) (g : rng_st os) (H : heap) (s : list N) (w : bytes),
    nlen s = 32 -> wide s = Some w ->
    py_step os g H (PPublic (VStr s)) = (g, H, PyReturn (RKey (PubObj (VStr s)))) /\
    py_step os g H (PBytes (PubObj (VStr s))) = (g, H, PyRaise) /\
    forall i j m sig, content H i = Some m -> nlen m < 2 ^ 31 -> nlen m < 2 ^ usize_bits ->
      content H j = Some sig -> nlen sig = sig_size SHA2_128f -> i <> j ->
      py_step os g H (PVerify (PubObj (VStr s)) (VBytes i) (VBytes j)) =
        (g, H, PyReturn (RBool (Fips205.slh_verify (fips_params SHA2_128f) (fips_hash SHA2_128f) m sig [] (sub_bytes w 0 32)))).
Proof. exact prop_python_text_keys_refuted. Qed.
Print Assumptions python_text_keys_refuted.

Example python_text_keys_refuted_applies :
  nlen (nrepeat 97 32) = 32 /\ wide (Wide := wide32) (nrepeat 97 32) = Some (le32 (nrepeat 97 32)) /\
  sub_bytes (le32 (nrepeat 97 32)) 0 5 = [Byte.x61; x00; x00; x00; Byte.x61].
Proof. repeat split. Qed.

(** C73. The printed form of a Python private key does not reveal the key. repr() of a private key
    object, which ends up in logs, tracebacks and debuggers, does not determine the secret key.
    (False of the code: the whole key, including SK.seed, is printed in hexadecimal and can be read
    back from the text.)
    Refuted: a function that reads every private key back from its printed form. *)
Theorem python_repr_hides_key_refuted :
  forall (T : Target) (P : Prims) (W : Wide),
    exists read_back : string -> bytes,
      forall (os : Rng) (g : rng_st os) (H : heap) (i : N) (SK : bytes), content H i = Some SK ->
        exists text, py_step os g H (PRepr (PrivObj (VBytes i))) = (g, H, PyReturn (RText text)) /\ read_back text = SK.
Proof. exact prop_python_repr_hides_key_refuted. Qed.
Print Assumptions python_repr_hides_key_refuted.

Example python_repr_hides_key_refuted_applies :
  exists g PK SK sig, content [five; PK; SK; sig] 2 = Some SK /\ nlen SK = 64 /\
    exists text, py_step (T := debug64) (P := toy_prims) (W := wide32) counter g [five; PK; SK; sig] (PRepr (PrivObj (VBytes 2))) =
      (g, [five; PK; SK; sig], PyReturn (RText text)).
Proof.
  destruct toy_py_program as (g & PK & SK & sig & objs & _ & _ & _ & _ & Lk & _). exists g, PK, SK, sig.
  split; [reflexivity|]. split; [exact Lk|].
  destruct (python_repr_hides_key_refuted debug64 toy_prims wide32) as (rb & K).
  destruct (K counter g [five; PK; SK; sig] 2 SK eq_refl) as (text & E & _). exists text. exact E.
Qed.

(** C72, the part that holds: the calls on key objects that are undefined are exactly those that
    pass one bytes object both as message and as key, or both as message and as signature. All other
    calls are defined. Missing: these calls (python_own_bytes_refuted), and keys made from text
    (python_text_keys_refuted). *)
Theorem python_calls_defined_partial :
  forall (T : Target) (P : Prims) (W : Wide) (os : Rng) (g : rng_st os) (H : heap),
    (forall op, match op with PSign _ _ | PVerify _ _ _ => False | _ => True end -> snd (py_step os g H op) <> PyUB) /\
    (forall d m, py_len H d = Some 64 ->
       snd (py_step os g H (PSign (PrivObj d) m)) = PyUB <-> exists i, i < nlen H /\ m = VBytes i /\ d = VBytes i) /\
    (forall d m sg, py_len H d = Some 32 ->
       snd (py_step os g H (PVerify (PubObj d) m sg)) = PyUB <->
       exists i j sig, m = VBytes i /\ i < nlen H /\ sg = VBytes j /\ content H j = Some sig /\ nlen sig = 17088 /\
         (d = VBytes i \/ (i = j /\ ((exists k, d = VBytes k) \/ exists s w, d = VStr s /\ wide s = Some w)))).
Proof. exact prop_python_calls_defined_partial. Qed.
Print Assumptions python_calls_defined_partial.

(** the heap of a program that generated a key pair and signed: signing the message again is defined, signing the
    bytes of the key is not, nor is verifying the signature as a message *)
Example python_calls_defined_partial_applies :
  exists g PK SK sig objs, let H := [five; PK; SK; sig] in
    let step := fun op => snd (py_step (T := debug64) (P := toy_prims) (W := wide32) counter g H op) in
    py_history (T := debug64) (P := toy_prims) (W := wide32) counter 0 [] g H objs [(PK, SK)] [(PK, five, sig)] /\
    py_len H (VBytes 1) = Some 32 /\ py_len H (VBytes 2) = Some 64 /\
    step (PSign (PrivObj (VBytes 2)) (VBytes 0)) <> PyUB /\ step (PSign (PrivObj (VBytes 2)) (VBytes 2)) = PyUB /\
    step (PVerify (PubObj (VBytes 1)) (VBytes 3) (VBytes 3)) = PyUB /\
    step (PVerify (PubObj (VBytes 1)) (VBytes 2) (VBytes 3)) <> PyUB.
Proof.
  destruct toy_py_program as (g & PK & SK & sig & objs & Hi & _ & _ & Lp & Lk & Ls). exists g, PK, SK, sig, objs. cbv zeta.
  destruct (prop_python_calls_defined_partial debug64 toy_prims wide32 counter g [five; PK; SK; sig]) as (_ & S & V).
  assert (E1 : py_len [five; PK; SK; sig] (VBytes 1) = Some 32) by (rewrite <- Lp; reflexivity).
  assert (E2 : py_len [five; PK; SK; sig] (VBytes 2) = Some 64) by (rewrite <- Lk; reflexivity).
  split; [exact Hi|]. split; [exact E1|]. split; [exact E2|].
  split; [intros X; apply (S _ _ E2) in X; destruct X as (i & _ & Q1 & Q2); congruence|].
  split; [apply (S _ _ E2); exists 2; split; [reflexivity|]; split; reflexivity|].
  split; [apply (V _ _ _ E1); exists 3, 3, sig; refine (conj eq_refl (conj eq_refl (conj eq_refl (conj eq_refl (conj Ls _)))));
          right; split; [reflexivity|]; left; eexists; reflexivity|].
  intros X. apply (V _ _ _ E1) in X. destruct X as (i & j & sg & Q1 & _ & Q2 & _ & _ & [D|[D _]]); congruence.
Qed.
