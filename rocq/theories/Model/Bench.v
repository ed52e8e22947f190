(** Model of the benchmarks, benches/benchmark.rs. The criterion crate runs each closure as often as it
    likes, measures the time and drops the results; here the results are kept, to talk about them. *)
From Coq Require Import String.
From Verif Require Export Model.Examples.
Import ListNotations.
Open Scope list_scope.
Open Scope N_scope.

(** benches/benchmark.rs:12-13 *)
Definition bench_message : bytes := map n2b [0; 1; 2; 3; 4; 5; 6; 7].
(** benches/benchmark.rs:13 *)
Definition bench_hedged : bool := false.

Section Bench.
Context {T : Target} {P : Prims} (os : Rng).

(** benches/benchmark.rs:15-26: twelve key pairs *)
Fixpoint bench_keys (ps : list Params) : RM os (list (Params * SlhPublicKey * SlhPrivateKey)) :=
  match ps with
  | [] => rlift (ret [])
  | p :: ps =>
      kp <-- unwrap (try_keygen p os) ;;
      l <-- bench_keys ps ;;
      rlift (ret ((p, fst kp, snd kp) :: l))
  end.

(** benches/benchmark.rs:28-39: twelve signatures *)
Fixpoint bench_sigs (l : list (Params * SlhPublicKey * SlhPrivateKey)) :
  RM os (list (Params * SlhPublicKey * SlhPrivateKey * bytes)) :=
  match l with
  | [] => rlift (ret [])
  | (p, pk, sk) :: l =>
      sig <-- unwrap (try_sign p os sk bench_message lit_context bench_hedged) ;;
      r <-- bench_sigs l ;;
      rlift (ret ((p, pk, sk, sig) :: r))
  end.

(** the order of benches/benchmark.rs:15-39 *)
Definition setup_order : list Params :=
  [slh_dsa_sha2_128s; slh_dsa_sha2_128f; slh_dsa_sha2_192s; slh_dsa_sha2_192f; slh_dsa_sha2_256s; slh_dsa_sha2_256f;
   slh_dsa_shake_128s; slh_dsa_shake_128f; slh_dsa_shake_192s; slh_dsa_shake_192f; slh_dsa_shake_256s; slh_dsa_shake_256f].

(** b.iter(f) (benches/benchmark.rs:41-126): f is run k times, an Err is a result like any other *)
Definition attempt {A} (f : RM os A) : RM os (outcome A) :=
  fun g => let '(g', (t, o)) := f g in (g', (t, match o with Panic q => Panic q | _ => Val o end)).
(** b.iter(f) (benches/benchmark.rs:41-126): k runs *)
Fixpoint iter {A} (k : nat) (f : RM os A) : RM os (list (outcome A)) :=
  match k with
  | O => rlift (ret [])
  | S k => o <-- attempt f ;; l <-- iter k f ;; rlift (ret (o :: l))
  end.

(** the results of a benchmark (benches/benchmark.rs:41-126), by kind *)
Inductive measured :=
| KeygenRuns (l : list (outcome (SlhPublicKey * SlhPrivateKey)))
| SignRuns (l : list (outcome bytes))
| VerifyRuns (l : list (outcome bool)).

(** the names of the parameter sets in benches/benchmark.rs:41-125, with the position of their variables in
    [setup_order] *)
Definition bench_names : list (string * nat) :=
  [("sha2_128f "%string, 1%nat); ("sha2_192f "%string, 3%nat); ("sha2_256f "%string, 5%nat);
   ("shake_128f"%string, 7%nat); ("shake_192f"%string, 9%nat); ("shake_256f"%string, 11%nat);
   ("sha2_128s "%string, 0%nat); ("sha2_192s "%string, 2%nat); ("sha2_256s "%string, 4%nat);
   ("shake_128s"%string, 6%nat); ("shake_192s"%string, 8%nat); ("shake_256s"%string, 10%nat)].

Notation entry := (Params * SlhPublicKey * SlhPrivateKey * bytes)%type.

(** benches/benchmark.rs:41-52, 54-89, 91-126: the closures *)
Definition bench_keygen (e : entry) (k : nat) : RM os measured :=
  let '(p, pk, sk, sig) := e in l <-- iter k (try_keygen p os) ;; rlift (ret (KeygenRuns l)).
(** benches/benchmark.rs:54-89 *)
Definition bench_sign (e : entry) (k : nat) : RM os measured :=
  let '(p, pk, sk, sig) := e in
  l <-- iter k (try_sign p os sk bench_message lit_context bench_hedged) ;; rlift (ret (SignRuns l)).
(** benches/benchmark.rs:91-126 *)
Definition bench_verify (e : entry) (k : nat) : RM os measured :=
  let '(p, pk, sk, sig) := e in
  l <-- iter k (rlift (verify p pk bench_message sig lit_context)) ;; rlift (ret (VerifyRuns l)).

(** c.bench_function(label, ..) (benches/benchmark.rs:41-126) for the twelve sets; k gives the number of iterations for each label *)
Fixpoint bench_group (suffix : string) (f : entry -> nat -> RM os measured) (k : string -> nat) (l : list (string * entry)) :
  RM os (list (string * measured)) :=
  match l with
  | [] => rlift (ret [])
  | (name, e) :: l =>
      let label := (name ++ suffix)%string in
      r <-- f e (k label) ;;
      rs <-- bench_group suffix f k l ;;
      rlift (ret ((label, r) :: rs))
  end.

(** the variables of the set at a position of benches/benchmark.rs:15-39; there are twelve *)
Definition at_position (env : list entry) (i : nat) : entry :=
  nth i env (slh_dsa_sha2_128s, mkPk [] [], mkSk [] [] [] [], []).

(** benches/benchmark.rs:11-127 [criterion_benchmark] *)
Definition benchmark (k : string -> nat) : RM os (list (string * measured)) :=
  keys <-- bench_keys setup_order ;;
  env <-- bench_sigs keys ;;
  let l := map (fun '(name, i) => (name, at_position env i)) bench_names in
  a <-- bench_group " keygen" bench_keygen k l ;;
  b <-- bench_group " sign  " bench_sign k l ;;
  c <-- bench_group " verify" bench_verify k l ;;
  rlift (ret (a ++ b ++ c)).
End Bench.
