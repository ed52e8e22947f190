(** Python programs with several threads. *)
From Coq Require Import String Permutation.
From Verif Require Import Spec.Fips205 Spec.Fips205Hash.
From Verif Require Import Model.Api Spec.Vocab Model.PyObj Spec.VocabPy Spec.VocabConc Spec.VocabThreads Spec.VocabPyThreads Proof.TopPyThreads Proof.Toy Proof.ToyPy Proof.ToyPyThreads.
Import ListNotations.
Open Scope list_scope.
Open Scope N_scope.

(** C77. Python threads do not disturb each other. When several threads of a Python program use the
    wrapper at the same time (ctypes lets C functions of different threads run in parallel), on
    shared messages, signatures and key objects and with requests to the system generator
    interleaved in any way, then: every action returns or raises what it would alone, on the objects
    it finds when it begins and with the random bytes it received; every bytes object keeps its
    contents from the moment the program holds it, although the wrapper passes bytes objects to C
    functions as output buffers; and the whole execution ends with the results and the objects of
    performing the actions one after the other in an order that respects real time. No locking is
    needed. This holds although a C function may read its inputs and write its outputs byte by byte
    at any moment while it runs. *)
Theorem python_threads_serializable :
  forall (T : Target) (P : Prims) (W : Wide) (H0 : heap) (log : list py_event) (calls : py_calls),
    py_concurrent H0 log calls ->
    exists order : list nat,
      Permutation order (seq 0 (length calls)) /\
      (forall i j e b, py_at log e (PyEnd i) -> py_at log b (PyBegin j) -> (e < b)%nat -> precedes order i j) /\
      py_one_by_one (flat_map (fun i => py_asked i log) order) H0 (map (fun i => nth i calls (PKeygen, PyRaise)) order)
        [] (evolved calls H0 log).
Proof. exact prop_python_threads_serializable. Qed.
Print Assumptions python_threads_serializable.

(** two threads sign the same message with the same key object at the same time, and a third one verifies a
    signature while the other signing is not finished *)
Example python_threads_serializable_applies :
  exists PK SK s0 s1,
    py_concurrent (T := debug64) (P := toy_prims) (W := wide32) [five; PK; SK] (three_log s0 s1)
      [(PSign (PrivObj (VBytes 2)) (VBytes 0), PyReturn (RValue (VBytes 3)));
       (PSign (PrivObj (VBytes 2)) (VBytes 0), PyReturn (RValue (VBytes 4)));
       (PVerify (PubObj (VBytes 1)) (VBytes 0) (VBytes 3), PyReturn (RBool true))] /\
    nlen s0 = 17088 /\ nlen s1 = 17088 /\
    py_running (three_log s0 s1) 0 100 /\ py_running (three_log s0 s1) 1 100 /\
    exists t, py_running (three_log s0 s1) 1 t /\ py_running (three_log s0 s1) 2 t.
Proof. exact toy_three. Qed.

(** Each action is as if alone, and no object changes once the program holds it. *)
Theorem python_threads_as_if_alone :
  forall (T : Target) (P : Prims) (W : Wide) (H0 : heap) (log : list py_event) (calls : py_calls),
    py_concurrent H0 log calls ->
    (forall t x, x < nlen H0 -> content (heap_at calls H0 log t) x = content H0 x) /\
    forall i op r b e, nth_error calls i = Some (op, r) -> py_at log b (PyBegin i) -> py_at log e (PyEnd i) ->
      let H := heap_at calls H0 log b in
      exists new, py_step replay (py_asked i log) H op = ([], H ++ new, r) /\
        forall t k, (e < t)%nat -> k < nlen new ->
          content (heap_at calls H0 log t) (nlen H + k) = nth_error new (N.to_nat k).
Proof. exact prop_python_threads_as_if_alone. Qed.
Print Assumptions python_threads_as_if_alone.

(** the second signature is in object 4 from the moment the call returns *)
Example python_threads_as_if_alone_applies :
  exists PK SK s0 s1,
    py_concurrent (T := debug64) (P := toy_prims) (W := wide32) (start PK SK) (three_log s0 s1) three /\
    py_at (three_log s0 s1) 1 (PyBegin 1) /\ exists e, py_at (three_log s0 s1) e (PyEnd 1) /\ (100 < e)%nat.
Proof.
  destruct toy_three as (PK & SK & s0 & s1 & C & L0 & L1 & _ & (b & e & _ & En & Lt) & _).
  exists PK, SK, s0, s1. split; [exact C|]. split; [reflexivity|].
  destruct (Nat.eq_dec e 100) as [Q|D]; [|exists e; split; [exact En|lia]].
  exfalso. subst e.
  assert (Q0 : length s0 = N.to_nat 17088) by (rewrite <- L0; unfold nlen; lia).
  assert (Q1 : length s1 = N.to_nat 17088) by (rewrite <- L1; unfold nlen; lia).
  destruct (at_cases s0 s1 Q0 Q1 _ _ En) as [[Qt Qe]|[[Qt Qe]|[[Qt Qe]|[[Qt Qe]|[[Qt (v & Qb & Qe)]|[[Qt (v & Qb & Qe)]|[[Qt Qe]|[[Qt Qe]|[[Qt Qe]|[Qt Qe]]]]]]]]]];
    try discriminate Qe. unfold nlen in L0. lia.
Qed.
