(** Python programs with several threads that call the wrapper: words used in the statements about them. ctypes
    releases the interpreter's lock while a C function runs (ffi/fips205.py:113, 146, 165), so the C functions of
    several threads run at the same time, on the buffers of bytes objects. Nothing is assumed to be atomic there
    except the access to one byte and a request to the generator. The Python code before the C function is entered
    counts as one event, in which the objects for the results are created (ffi/fips205.py:145, 164); the number that
    stands for the identity of an object is its place in the order of creation. *)
From Verif Require Import Machine Model.Api Model.PyObj Spec.VocabPy Spec.VocabConc Spec.VocabThreads.
Import ListNotations.
Open Scope list_scope.
Open Scope N_scope.

(** What happens in an execution, in the order of time. Thread i performs one action (a program thread that performs
    several counts as several, running one after the other). It begins; it asks the generator for n bytes and
    gets o; it writes b as byte k of object x; it returns or raises. *)
Inductive py_event :=
| PyBegin (i : nat)
| PyAsk (i : nat) (n : N) (o : outcome bytes)
| PyWrite (i : nat) (x k : N) (b : byte)
| PyEnd (i : nat).
Definition py_thread (e : py_event) : nat :=
  match e with PyBegin i => i | PyAsk i _ _ => i | PyWrite i _ _ _ => i | PyEnd i => i end.
(** the event at position t; moment t is the one before it, when t events have happened *)
Definition py_at (log : list py_event) (t : nat) (e : py_event) : Prop := nth_error log t = Some e.

(** the objects an action creates before a C function is entered, and what is in them then *)
Definition creates (op : py_op) : list bytes :=
  match op with
  | PNew bs => [bs]
  | PKeygen => [nrepeat x00 32; nrepeat x00 64]
  | PSign (PrivObj _) (VBytes _) => [nrepeat x00 17088]
  | PBytes (PubObj (VOther _ (Some bs))) | PBytes (PrivObj (VOther _ (Some bs))) => [bs]
  | _ => []
  end.

(** byte k of object x *)
Definition byte_of (H : heap) (x k : N) : option byte :=
  match content H x with Some bs => nth_error bs (N.to_nat k) | None => None end.
Definition length_of (H : heap) (x : N) : option N := option_map (@nlen byte) (content H x).
Definition set_byte (H : heap) (x k : N) (b : byte) : heap :=
  match content H x with
  | Some bs => if k <? nlen bs then upd_list H x (upd_list bs k b) else H
  | None => H
  end.

(** the objects an action is given, and those in what it returns *)
Definition refs (v : py_value) : list N := match v with VBytes x => [x] | _ => [] end.
Definition uses (op : py_op) : list N :=
  match op with
  | PNew _ | PKeygen => []
  | PPublic v | PPrivate v => refs v
  | PBytes k | PRepr k => refs (data_of k)
  | PSign k m => refs (data_of k) ++ refs m
  | PVerify k m sg => refs (data_of k) ++ refs m ++ refs sg
  end.
Definition handed (r : py_result py_ret) : list N :=
  match r with
  | PyReturn (RValue v) => refs v
  | PyReturn (RKey k) => refs (data_of k)
  | PyReturn (RPair pk sk) => refs (data_of pk) ++ refs (data_of sk)
  | _ => []
  end.

Definition py_calls := list (py_op * py_result py_ret).

(** the objects at the end of a log, and at moment t *)
Fixpoint evolved (calls : py_calls) (H : heap) (log : list py_event) : heap :=
  match log with
  | [] => H
  | PyBegin i :: log =>
      evolved calls (H ++ match nth_error calls i with Some (op, _) => creates op | None => [] end) log
  | PyWrite _ x k b :: log => evolved calls (set_byte H x k b) log
  | _ :: log => evolved calls H log
  end.
Definition heap_at (calls : py_calls) (H0 : heap) (log : list py_event) (t : nat) : heap := evolved calls H0 (firstn t log).

(** the action of thread i is running at moment t *)
Definition py_running (log : list py_event) (i t : nat) : Prop :=
  exists b e, py_at log b (PyBegin i) /\ py_at log e (PyEnd i) /\ (b < t <= e)%nat.

(** the requests of thread i, with the answers *)
Definition py_asked (i : nat) (log : list py_event) : list (N * outcome bytes) :=
  flat_map (fun e => match e with PyAsk j n o => if Nat.eqb j i then [(n, o)] else [] | _ => [] end) log.

Section PyThreads.
Context {T : Target} {P : Prims} {W : Wide}.

(** In the log, thread i performs op, which returns r. All its events lie between its begin, at b, and its end. There
    are contents V of the objects, in which each byte of each object given to op is what it is at some moment while
    the action runs, such that the action, on V and with the answers i was given, has result r and leaves V'; thread i
    writes only to the objects it created; and the last byte it writes at each place in them, or the byte there from the
    beginning if it writes none, is the one in V'. *)
Definition py_performs (calls : py_calls) (H0 : heap) (log : list py_event) (i : nat) (op : py_op) (r : py_result py_ret) : Prop :=
  exists b e, py_at log b (PyBegin i) /\ py_at log e (PyEnd i) /\ (b < e)%nat /\
    (forall t x, py_at log t x -> py_thread x = i ->
       (t = b /\ x = PyBegin i) \/ (t = e /\ x = PyEnd i) \/ ((b < t < e)%nat /\ x <> PyBegin i /\ x <> PyEnd i)) /\
    exists V V',
      nlen V = nlen (heap_at calls H0 log b) /\
      (forall x, In x (uses op) -> length_of V x = length_of (heap_at calls H0 log b) x /\
         forall k, exists t, py_running log i t /\ byte_of V x k = byte_of (heap_at calls H0 log t) x k) /\
      py_step replay (py_asked i log) V op = ([], V', r) /\ came_back r /\
      (forall t x k v, py_at log t (PyWrite i x k v) -> nlen V <= x < nlen V + nlen (creates op)) /\
      (forall x k v, nlen V <= x -> byte_of V' x k = Some v ->
         (exists t, py_at log t (PyWrite i x k v) /\ forall t' v', py_at log t' (PyWrite i x k v') -> (t' <= t)%nat) \/
         ((forall t v', ~ py_at log t (PyWrite i x k v')) /\ byte_of (V ++ creates op) x k = Some v)).

(** An execution of actions, with their results. A thread can only use objects that existed at the start, or
    that an action had returned before. Objects may be shared. *)
Definition py_concurrent (H0 : heap) (log : list py_event) (calls : py_calls) : Prop :=
  (forall t e, py_at log t e -> (py_thread e < length calls)%nat) /\
  (forall i op r, nth_error calls i = Some (op, r) -> py_performs calls H0 log i op r) /\
  (forall i op r b x, nth_error calls i = Some (op, r) -> py_at log b (PyBegin i) -> In x (uses op) ->
     x < nlen H0 \/
     exists j op' r' e, nth_error calls j = Some (op', r') /\ In x (handed r') /\ py_at log e (PyEnd j) /\ (e < b)%nat).

(** actions performed one after the other, by one thread *)
Inductive py_one_by_one : list (N * outcome bytes) -> heap -> py_calls -> list (N * outcome bytes) -> heap -> Prop :=
| py_obo_nil l H : py_one_by_one l H [] l H
| py_obo_cons l H op r l1 H1 calls l2 H2 :
    py_step replay l H op = (l1, H1, r) -> py_one_by_one l1 H1 calls l2 H2 ->
    py_one_by_one l H ((op, r) :: calls) l2 H2.
End PyThreads.
