(** C programs with several threads that call the library on structs in shared memory: words used in the
    statements about them. Nothing is assumed to be atomic except the access to one byte and a request to the
    generator: a call reads each of its input bytes at any moment while it runs, and writes each of its output
    bytes at any moment, any number of times. *)
From Verif Require Import Machine Model.Api Model.FfiMem Spec.VocabC Spec.VocabConc.
Import ListNotations.
Open Scope list_scope.
Open Scope N_scope.

(** What happens in an execution, in the order of time. Thread i performs one operation (a program thread that
    performs several counts as several, running one after the other). It begins; it asks the generator for n
    bytes and gets o; it writes b at address x; it returns. *)
Inductive c_event :=
| CBegin (i : nat)
| CAsk (i : nat) (n : N) (o : outcome bytes)
| CWrite (i : nat) (x : N) (b : byte)
| CEnd (i : nat).
Definition c_thread (e : c_event) : nat :=
  match e with CBegin i => i | CAsk i _ _ => i | CWrite i _ _ => i | CEnd i => i end.

(** the event at position t; moment t is the one before it, when t events have happened *)
Definition event_at (log : list c_event) (t : nat) (e : c_event) : Prop := nth_error log t = Some e.

(** the memory at the end of a log, and at moment t *)
Fixpoint written (M : cmem) (log : list c_event) : cmem :=
  match log with
  | [] => M
  | CWrite _ x b :: log => written (store M x [b]) log
  | _ :: log => written M log
  end.
Definition memory_at (M0 : cmem) (log : list c_event) (t : nat) : cmem := written M0 (firstn t log).

(** the operation of thread i is running at moment t *)
Definition running (log : list c_event) (i t : nat) : Prop :=
  exists b e, event_at log b (CBegin i) /\ event_at log e (CEnd i) /\ (b < t <= e)%nat.

(** the requests of thread i, with the answers *)
Definition asked (i : nat) (log : list c_event) : list (N * outcome bytes) :=
  flat_map (fun e => match e with CAsk j n o => if Nat.eqb j i then [(n, o)] else [] | _ => [] end) log.

(** A generator that expects exactly the requests of a list and gives the answers of the list. It panics, which
    makes the C function abort instead of returning, on any other request. *)
Definition replay_fill (l : list (N * outcome bytes)) (n : N) : list (N * outcome bytes) * outcome bytes :=
  match l with
  | (k, Val b) :: l' => if (k =? n) && (nlen b =? n) then (l', Val b) else (l', Panic PUnwrap)
  | (k, Err e) :: l' => if k =? n then (l', Err e) else (l', Panic PUnwrap)
  | _ => (l, Panic PUnwrap)
  end.
Lemma replay_fill_len l n l' b : replay_fill l n = (l', Val b) -> nlen b = n.
Proof.
  destruct l as [|[k [c|e|q]] l]; cbn [replay_fill]; try discriminate.
  - destruct (k =? n); [|discriminate]. destruct (nlen c =? n) eqn:E; [|discriminate].
    intros X. injection X as _ <-. apply N.eqb_eq, E.
  - destruct (k =? n); discriminate.
Qed.
Definition replay : Rng := mkRng (list (N * outcome bytes)) replay_fill replay_fill_len.

(** the bytes an operation reads *)
Definition c_reads (op : c_op) (x : N) : Prop :=
  match op with
  | CStore _ _ | CKeygen _ _ => False
  | CSign buf len sk out => buf <> 0 /\ sk <> 0 /\ out <> 0 /\ (buf <= x < buf + Z.to_N len \/ sk <= x < sk + 64)
  | CVerify buf len pk sig =>
      pk <> 0 /\ sig <> 0 /\ (buf <= x < buf + Z.to_N len \/ pk <= x < pk + 32 \/ sig <= x < sig + 17088)
  end.
(** the bytes it writes if it succeeds *)
Definition c_writes (op : c_op) (x : N) : Prop :=
  match op with
  | CStore a _ => x = a
  | CKeygen pub priv => pub <> 0 /\ priv <> 0 /\ (pub <= x < pub + 32 \/ priv <= x < priv + 64)
  | CSign buf _ sk out => buf <> 0 /\ sk <> 0 /\ out <> 0 /\ out <= x < out + 17088
  | CVerify _ _ _ _ => False
  end.

Section Threads.
Context {T : Target} {P : Prims}.

(** In the log, thread i performs op, and gets code. All its events lie between its begin and its end. There are
    input bytes seen, each of them the content of memory at some moment while the operation runs, such that
    the operation, on a memory with these bytes and with the answers i was given, returns code and leaves V';
    thread i writes only where the operation with this code writes, and the last byte it writes at each such
    address is the one in V'. *)
Definition performs (M0 : cmem) (log : list c_event) (i : nat) (op : c_op) (code : N) : Prop :=
  (exists b e, event_at log b (CBegin i) /\ event_at log e (CEnd i) /\ (b < e)%nat /\
     forall t x, event_at log t x -> c_thread x = i ->
       (t = b /\ x = CBegin i) \/ (t = e /\ x = CEnd i) \/ ((b < t < e)%nat /\ x <> CBegin i /\ x <> CEnd i)) /\
  exists V V',
    mem_top V = mem_top M0 /\
    (forall x, c_reads op x -> exists t, running log i t /\ mem_at V x = mem_at (memory_at M0 log t) x) /\
    c_step replay (asked i log) V op = ([], FReturn code V') /\
    (forall t x b, event_at log t (CWrite i x b) -> may_change op code x) /\
    (forall x, may_change op code x ->
       exists t, event_at log t (CWrite i x (mem_at V' x)) /\
         forall t' b, event_at log t' (CWrite i x b) -> (t' <= t)%nat).

(** An execution of the operations calls, with their return codes: they are legal, and whenever two of them run at
    the same moment, neither reads or writes a byte that the other may write. Keys, signatures and messages that
    are only read may be shared. *)
Definition c_concurrent (M0 : cmem) (log : list c_event) (calls : list (c_op * N)) : Prop :=
  (forall t e, event_at log t e -> (c_thread e < length calls)%nat) /\
  (forall i op code, nth_error calls i = Some (op, code) -> legal M0 op /\ performs M0 log i op code) /\
  (forall i j t op1 code1 op2 code2, i <> j ->
     nth_error calls i = Some (op1, code1) -> nth_error calls j = Some (op2, code2) ->
     running log i t -> running log j t ->
     forall x, c_writes op1 x -> ~ (c_reads op2 x \/ c_writes op2 x)).

(** operations performed one after the other, by one thread *)
Inductive one_by_one : list (N * outcome bytes) -> cmem -> list (c_op * N) -> list (N * outcome bytes) -> cmem -> Prop :=
| obo_nil l M : one_by_one l M [] l M
| obo_cons l M op code l1 M1 calls l2 M2 :
    c_step replay l M op = (l1, FReturn code M1) -> one_by_one l1 M1 calls l2 M2 ->
    one_by_one l M ((op, code) :: calls) l2 M2.
End Threads.
