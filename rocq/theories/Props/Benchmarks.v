(** The benchmarks. *)
From Coq Require Import String.
From Verif Require Import Spec.Fips205 Spec.Fips205Hash.
From Verif Require Import Model.Api Spec.Vocab Model.Bench Spec.VocabBench Proof.TopBench Proof.Toy.
Import ListNotations.
Open Scope list_scope.
Open Scope N_scope.

(** C81. The benchmarks measure successful work. However often the benchmark runner iterates each of the
    36 measured closures: every measured signing call returns the one deterministic FIPS 205
    signature of the message under that set's key, every measured verification accepts (no measured
    verification is a quick rejection), and every measured key generation returns a key pair unless
    the system generator refused a request. The program stops early only in its setup, when the
    generator refuses a request there. Each of the three operations is measured once for each of the
    twelve parameter sets, under the labels of the published table. *)
Theorem benchmarks_measure_successes :
  forall (T : Target) (P : Prims) (os : Rng) (g : rng_st os) (k : string -> nat), never_panics os ->
    let refusal := exists g' n, refuses os g' n in
    (** the setup ends the program only if the generator refuses a request *)
    (call (benchmark os k) g = Panic PUnwrap /\ refusal) \/
    exists report, call (benchmark os k) g = Val report /\ map fst report = bench_labels /\
      forall s,
        (exists l, In (keygen_label s, KeygenRuns l) report /\ length l = k (keygen_label s) /\
           forall o, In o l -> (exists pk sk, o = Val (pk, sk) /\ key_pair s pk sk) \/ (exists e, o = Err e /\ refusal)) /\
        exists pk sk SK sig, key_pair s pk sk /\ result (sk_into_bytes (param_set s) sk) = Val SK /\
          Fips205.slh_sign (fips_params s) (fips_hash s) (map n2b [0; 1; 2; 3; 4; 5; 6; 7]) (list_byte_of_string "context") SK None = Some sig /\
          In (sign_label s, SignRuns (repeat (Val sig) (k (sign_label s)))) report /\
          In (verify_label s, VerifyRuns (repeat (Val true) (k (verify_label s)))) report.
Proof. exact prop_benchmarks_measure_successes. Qed.
Print Assumptions benchmarks_measure_successes.

(** a generator that never refuses: all benchmarks run *)
Example benchmarks_measure_successes_applies :
  never_panics counter /\
  exists report, call (benchmark (T := debug64) (P := toy_prims) counter (fun _ => 3%nat)) 0 = Val report /\ report <> [].
Proof.
  split; [exact counter_safe|].
  destruct (benchmarks_measure_successes debug64 toy_prims counter 0 (fun _ => 3%nat) counter_safe) as [[_ (g & n & g' & e & R)]|(r & E & L & _)].
  - exfalso. pose proof (counter_gives g n) as G. unfold gives in G. rewrite G in R. discriminate R.
  - exists r. split; [exact E|]. intros ->. discriminate L.
Qed.
