(** Calls made by several threads at once: words used in the statement about them. The only mutable thing
    that calls of this library can share is the random generator; keys are shared by reference and read only
    (there is no static, no cell and no unsafe code in src/). A generator request is atomic. *)
From Coq Require Import String.
From Verif Require Import Machine Model.Api Spec.Fips205Hash Spec.Vocab.
Import ListNotations.
Open Scope list_scope.
Open Scope N_scope.

(** a call made by a thread, and what it returns *)
Inductive tcall :=
| TKeygen
| TSign (sk : SlhPrivateKey) (m ctx : bytes) (hedged : bool)
| THashSign (sk : SlhPrivateKey) (m ctx : bytes) (ph : prehash) (hedged : bool)
| TRawSign (sk : SlhPrivateKey) (m : bytes) (hedged : bool)
| TVerify (pk : SlhPublicKey) (m sig ctx : bytes)
| THashVerify (pk : SlhPublicKey) (m sig ctx : bytes) (ph : prehash)
| TRawVerify (pk : SlhPublicKey) (m sig : bytes).
Inductive tout := OKeys (pk : SlhPublicKey) (sk : SlhPrivateKey) | OSig (sig : bytes) | OVerdict (b : bool).

Section Conc.
Context {T : Target} {P : Prims} (s : set_name).

(** the call, with the generator r *)
Definition perform (c : tcall) (r : Rng) : RM r tout :=
  match c with
  | TKeygen => kp <-- try_keygen_with_rng (param_set s) r ;; rlift (ret (OKeys (fst kp) (snd kp)))
  | TSign sk m ctx hedged =>
      sig <-- try_sign_with_rng (param_set s) r sk m ctx hedged ;; rlift (ret (OSig sig))
  | THashSign sk m ctx ph hedged =>
      sig <-- try_hash_sign_with_rng (param_set s) r sk m ctx (ph_arg ph) hedged ;; rlift (ret (OSig sig))
  | TRawSign sk m hedged => sig <-- raw_sign (param_set s) r sk m hedged ;; rlift (ret (OSig sig))
  | TVerify pk m sig ctx => b <-- rlift (verify (param_set s) pk m sig ctx) ;; rlift (ret (OVerdict b))
  | THashVerify pk m sig ctx ph =>
      b <-- rlift (hash_verify (param_set s) pk m sig ctx (ph_arg ph)) ;; rlift (ret (OVerdict b))
  | TRawVerify pk m sig => b <-- rlift (raw_verify (param_set s) pk m sig) ;; rlift (ret (OVerdict b))
  end.

(** a generator that gives the answers of a list, and fails when the list is exhausted *)
Definition script_fill (l : list (outcome bytes)) (n : N) : list (outcome bytes) * outcome bytes :=
  match l with
  | [] => ([], Err EmptyString)
  | Val b :: l' => (l', if nlen b =? n then Val b else Err EmptyString)
  | o :: l' => (l', o)
  end.
Lemma script_fill_len l n l' b : script_fill l n = (l', Val b) -> nlen b = n.
Proof.
  destruct l as [|[c|e|q] l]; cbn [script_fill]; try discriminate.
  destruct (nlen c =? n) eqn:E; [|discriminate]. intros X. injection X as _ <-. apply N.eqb_eq, E.
Qed.
Definition script : Rng := mkRng (list (outcome bytes)) script_fill script_fill_len.

(** what happens in a concurrent execution, in the order of time: the call of thread i begins; thread i
    requests n bytes and gets answer o; the call of thread i ends *)
Inductive happening :=
| Begin (i : nat)
| Ask (i : nat) (n : N) (o : outcome bytes)
| End_ (i : nat).
Definition thread (e : happening) : nat := match e with Begin i => i | Ask i _ _ => i | End_ i => i end.

(** the generator, starting in state g, gives the answers in the log, and ends in state g' *)
Inductive served (r : Rng) : rng_st r -> list happening -> rng_st r -> Prop :=
| served_nil g : served r g [] g
| served_begin i g log g' : served r g log g' -> served r g (Begin i :: log) g'
| served_end i g log g' : served r g log g' -> served r g (End_ i :: log) g'
| served_ask i n o g g1 log g' :
    try_fill r g n = (g1, o) -> served r g1 log g' -> served r g (Ask i n o :: log) g'.

(** what thread i sees of the log *)
Definition own (i : nat) (log : list happening) : list happening :=
  filter (fun e => Nat.eqb (thread e) i) log.

(** thread i makes the call c, which makes the requests [asks], gets those answers, and returns o *)
Definition completes (i : nat) (c : tcall) (log : list happening) (asks : list (N * outcome bytes))
    (o : outcome tout) : Prop :=
  own i log = Begin i :: map (fun a => Ask i (fst a) (snd a)) asks ++ [End_ i] /\
  let f := perform c script in
  let answers := map snd asks in
  call f answers = o /\ draws (trace_of f answers) = map fst asks /\ gen_after f answers = [].

(** [concurrent r g0 calls log g outs]: threads 0, 1, .. make one call each; the log is any interleaving of
    what they do *)
Definition concurrent (r : Rng) (g0 : rng_st r) (calls : list tcall) (log : list happening) (g : rng_st r)
    (outs : list (outcome tout)) : Prop :=
  served r g0 log g /\
  (forall e, In e log -> (thread e < length calls)%nat) /\
  length outs = length calls /\
  forall i c o, nth_error calls i = Some c -> nth_error outs i = Some o ->
    exists asks, completes i c log asks o.

(** calls made one after the other, with their outcomes *)
Inductive sequential (r : Rng) : rng_st r -> list (tcall * outcome tout) -> rng_st r -> Prop :=
| seq_nil g : sequential r g [] g
| seq_cons c g l g' :
    sequential r (gen_after (perform c r) g) l g' ->
    sequential r g ((c, call (perform c r) g) :: l) g'.
End Conc.

(** x stands somewhere before y in l *)
Definition precedes {A} (l : list A) (x y : A) : Prop := exists l1 l2, l = l1 ++ l2 /\ In x l1 /\ In y l2.

(** the answers thread i got *)
Definition answers (i : nat) (log : list happening) : list (outcome bytes) :=
  flat_map (fun e => match e with Ask j _ o => if Nat.eqb j i then [o] else [] | _ => [] end) log.
(** the randomness FIPS 205 is given when the answers are these: none, or the first answer *)
Definition randomness (l : list (outcome bytes)) : option (option bytes) :=
  match l with [] => None | a :: _ => Some (ok a) end.
Definition sig_of (o : outcome tout) : option bytes :=
  match o with Val (OSig sig) => Some sig | _ => None end.
