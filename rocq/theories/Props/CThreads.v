(** C programs with several threads. *)
From Coq Require Import String Permutation.
From Verif Require Import Spec.Fips205 Spec.Fips205Hash.
From Verif Require Import Model.Api Spec.Vocab Model.Ffi Model.FfiMem Spec.VocabC Spec.VocabConc Spec.VocabThreads Proof.TopThreads Proof.Toy Proof.ToyC Proof.ToyThreads.
Import ListNotations.
Open Scope list_scope.
Open Scope N_scope.

(** C68. C threads without data races do not disturb each other. When several threads of a C program call
    the library at the same time, on structs in shared memory and with requests to the system
    generator interleaved in any way, and no output struct of a call is accessed by another call
    running at the same time (keys, signatures and messages that are only read may be shared), then:
    each call returns the code and writes the bytes that it would return and write alone, on the
    memory it finds when it begins and with the random bytes it received; and the whole execution
    ends with the codes and the memory contents of performing the calls one after the other in an
    order that respects real time. This holds although a call may read its inputs at any moment
    while it runs, and write its outputs at any moment, in any order and repeatedly. *)
Theorem c_threads_serializable :
  forall (T : Target) (P : Prims) (M0 : cmem) (log : list c_event) (calls : list (c_op * N)),
    c_concurrent M0 log calls ->
    exists (order : list nat) (M : cmem),
      Permutation order (seq 0 (length calls)) /\
      (forall i j e b, event_at log e (CEnd i) -> event_at log b (CBegin j) -> (e < b)%nat -> precedes order i j) /\
      one_by_one (flat_map (fun i => asked i log) order) M0 (map (fun i => nth i calls (CStore 0 x00, 0)) order) [] M /\
      mem_top M = mem_top M0 /\
      forall x, mem_at M x = mem_at (written M0 log) x.
Proof. exact prop_c_threads_serializable. Qed.
Print Assumptions c_threads_serializable.

(** two threads generate key pairs at the same time, with alternating requests *)
Example c_threads_serializable_applies :
  exists V0 V1, c_concurrent (T := debug64) (P := toy_prims) zeros (two_keygens_log V0 V1) two_keygens.
Proof. exact toy_two_keygens. Qed.

(** two threads sign the same message with the same private-key struct at the same time *)
Example c_threads_serializable_applies_shared_key :
  exists M V0 V1, c_concurrent (T := debug64) (P := toy_prims) M (two_signs_log V0 V1) two_signs /\
    two_signs = [(CSign 300 5 200 1000, 0); (CSign 300 5 200 20000, 0)] /\
    running (two_signs_log V0 V1) 0 3 /\ running (two_signs_log V0 V1) 1 3.
Proof.
  destruct toy_two_signs as (M & V0 & V1 & C). exists M, V0, V1. split; [exact C|]. split; [reflexivity|]. apply two_signs_run.
Qed.

(** C68. C threads without data races do not disturb each other. When several threads of a C program call
    the library at the same time, on structs in shared memory and with requests to the system
    generator interleaved in any way, and no output struct of a call is accessed by another call
    running at the same time (keys, signatures and messages that are only read may be shared), then:
    each call returns the code and writes the bytes that it would return and write alone, on the
    memory it finds when it begins and with the random bytes it received; and the whole execution
    ends with the codes and the memory contents of performing the calls one after the other in an
    order that respects real time. This holds although a call may read its inputs at any moment
    while it runs, and write its outputs at any moment, in any order and repeatedly.
    Each call is as if alone. *)
Theorem c_threads_as_if_alone :
  forall (T : Target) (P : Prims) (M0 : cmem) (log : list c_event) (calls : list (c_op * N)),
    c_concurrent M0 log calls ->
    forall i op code b e, nth_error calls i = Some (op, code) ->
      event_at log b (CBegin i) -> event_at log e (CEnd i) ->
      exists M', c_step replay (asked i log) (memory_at M0 log b) op = ([], FReturn code M') /\
        forall x, c_reads op x \/ c_writes op x -> mem_at (memory_at M0 log e) x = mem_at M' x.
Proof. exact prop_c_threads_as_if_alone. Qed.
Print Assumptions c_threads_as_if_alone.

Example c_threads_as_if_alone_applies :
  exists V0 V1, c_concurrent (T := debug64) (P := toy_prims) zeros (two_keygens_log V0 V1) two_keygens /\
    event_at (two_keygens_log V0 V1) 1 (CBegin 1) /\ event_at (two_keygens_log V0 V1) 201 (CEnd 1) /\
    running (two_keygens_log V0 V1) 0 100 /\ running (two_keygens_log V0 V1) 1 100.
Proof.
  destruct toy_two_keygens as (V0 & V1 & C). exists V0, V1. split; [exact C|]. split; [reflexivity|]. split; [reflexivity|].
  split; [exists 0%nat, 200%nat|exists 1%nat, 201%nat]; (split; [reflexivity|split; [reflexivity|lia]]).
Qed.
