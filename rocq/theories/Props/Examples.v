(** The example programs shipped with the crate. *)
From Coq Require Import String.
From Verif Require Import Spec.Fips205 Spec.Fips205Hash.
From Verif Require Import Model.Api Spec.Vocab Model.Ffi Model.FfiMem Model.PyObj Model.Examples Spec.VocabC Spec.VocabForge Spec.VocabBind Spec.VocabPy Spec.VocabEx Proof.TopEx Proof.Toy Proof.ToyKeys Proof.ToyC Proof.ToyPy.
Import ListNotations.
Open Scope list_scope.
Open Scope N_scope.

(** C75. The example programs shipped with the crate do what they show. The example of the README
    succeeds for every parameter set whenever the system's generator answers its four requests,
    returns an error when one of them is refused, and never panics. The C test program, wherever its
    four local variables lie in memory, exits with code 0 whenever its four requests are answered,
    unless the signature it made is accepted for the altered message as well, which takes a break of
    a hash function; it exits with code 1 when a request is refused, and is never undefined and
    never aborts. Running the Python wrapper as a program prints True, the public key and the
    private key (sic) of the standard for the bytes drawn, or raises if a request is refused. The
    unit test passes for every set and every generator that answers, unless a signature is accepted
    for a key or context it was not made for. The ignored test signs with an empty context and
    verifies with a non-empty one, so it fails for every generator that answers, unless one
    signature is accepted for two framed messages. *)
Theorem readme_example_succeeds :
  forall (T : Target) (P : Prims) (s : set_name) (os : Rng) (g : rng_st os),
    let run := readme_example (param_set s) os in
    (forall bs g', answers os (seed_bytes s) g bs g' -> nlen bs = 4 -> call run g = Val tt /\ gen_after run g = g') /\
    (fails_within os (seed_bytes s) 4 g -> exists e, call run g = Err e) /\
    (never_panics os -> no_panic (call run g)).
Proof. exact prop_readme_example_succeeds. Qed.
Print Assumptions readme_example_succeeds.

Lemma counter_four n : answers counter n 0 (map (fun k => nrepeat (n2b k) n) [0; 1; 2; 3]) 4.
Proof. repeat (eapply answers_next; [apply counter_gives|]). apply answers_none. Qed.
Lemma flaky_fails n : fails_within flaky n 4 0.
Proof.
  exists [nrepeat (n2b 0) n], 1. split; [|split; [reflexivity|exists 2, "no entropy"%string; reflexivity]].
  eapply answers_next; [reflexivity|apply answers_none].
Qed.
Example readme_example_succeeds_applies :
  nlen (map (fun k => nrepeat (n2b k) 32) [0; 1; 2; 3]) = 4 /\
  call (readme_example (T := debug64) (P := toy_prims) (param_set SHA2_256s) counter) 0 = Val tt /\
  exists e, call (readme_example (T := debug64) (P := toy_prims) (param_set SHA2_256s) flaky) 0 = Err e.
Proof.
  split; [reflexivity|]. split.
  - exact (proj1 (proj1 (readme_example_succeeds debug64 toy_prims SHA2_256s counter 0) _ _ (counter_four _) eq_refl)).
  - exact (proj1 (proj2 (readme_example_succeeds debug64 toy_prims SHA2_256s flaky 0)) (flaky_fails _)).
Qed.

(**  *)
Theorem unit_test_passes :
  forall (T : Target) (P : Prims) (s : set_name) (r : Rng) (g : rng_st r),
    (forall g k, exists b g', gives r g k b g') ->
    let p := param_set s in
    let n := seed_bytes s in
    let run := call (simple_round_trips p r) g in
    run = Val tt \/
    (run = Panic PAssert /\ exists pk sk, key_pair s pk sk /\
       ((exists pk3 sk3 g3 sig,
           result (keygen_with_seeds p (nrepeat (n2b 0) n) (nrepeat (n2b 1) n) (nrepeat (n2b 2) n)) = Val (pk3, sk3) /\
           call (try_sign_with_rng p r sk3 test_message lit_context true) g3 = Val sig /\
           result (verify p pk test_message sig lit_other) = Val true) \/
        (exists ph, let '(OID, digest) := PH_fn ph test_message in
           accepted_for_two s pk (Fips205.hash_M' OID digest lit_context) (Fips205.hash_M' OID digest lit_other)))).
Proof. exact prop_unit_test_passes. Qed.
Print Assumptions unit_test_passes.

Lemma counter_alive g k : exists b g', gives counter g k b g'.
Proof. do 2 eexists. apply counter_gives. Qed.
(** every request of the counter is answered; the two contexts of the test differ *)
Example unit_test_passes_applies :
  (forall g k, exists b g', gives counter g k b g') /\ lit_context <> lit_other /\ nlen test_message = 4.
Proof. split; [exact counter_alive|]. split; [discriminate|reflexivity]. Qed.

(**  *)
Theorem ignored_test_fails :
  forall (T : Target) (P : Prims) (r : Rng) (g : rng_st r),
    (forall g k, exists b g', gives r g k b g') ->
    let run := call (browser_message r) g in
    let asdf := map n2b [97; 115; 100; 102] in
    run = Panic PAssert \/
    (run = Val tt /\ exists pk sk, key_pair SHA2_128f pk sk /\
       accepted_for_two SHA2_128f pk (Fips205.pure_M' asdf []) (Fips205.pure_M' asdf lit_context)).
Proof. exact prop_ignored_test_fails. Qed.
Print Assumptions ignored_test_fails.

(** the two framed messages that one signature would have to be accepted for differ *)
Example ignored_test_fails_applies :
  (forall g k, exists b g', gives counter g k b g') /\
  Fips205.pure_M' (map n2b [97; 115; 100; 102]) [] <> Fips205.pure_M' (map n2b [97; 115; 100; 102]) lit_context.
Proof. split; [exact counter_alive|]. vm_compute. discriminate. Qed.

(**  *)
Theorem baseline_c_succeeds :
  forall (T : Target) (P : Prims) (os : Rng) (g : rng_st os) (M : cmem) (public private sig message : N),
    locals M public private sig message ->
    let run := baseline_main os public private sig message g M in
    (forall bs g', answers os 16 g bs g' -> nlen bs = 4 ->
       (exists M', run = (g', FReturn 0 M')) \/
       (exists M' pk sk, run = (g', FReturn 1 M') /\ key_pair SHA2_128f pk sk /\
          accepted_for_two SHA2_128f pk (Fips205.pure_M' (map n2b [0; 17; 34]) []) (Fips205.pure_M' (map n2b [99; 17; 34]) []))) /\
    (fails_within os 16 4 g -> exists g' M', run = (g', FReturn 1 M')) /\
    (never_panics os -> exists g' code M', run = (g', FReturn code M')).
Proof. exact prop_baseline_c_succeeds. Qed.
Print Assumptions baseline_c_succeeds.

Example baseline_c_succeeds_applies :
  locals zeros 100 200 1000 300 /\ answers counter 16 0 (map (fun k => nrepeat (n2b k) 16) [0; 1; 2; 3]) 4 /\
  fails_within flaky 16 4 0 /\ never_panics counter.
Proof.
  split; [unfold locals, apart; change (mem_top zeros) with 20000; lia|].
  split; [exact (counter_four 16)|]. split; [exact (flaky_fails 16)|exact counter_safe].
Qed.

(**  *)
Theorem python_main_prints :
  forall (T : Target) (P : Prims) (W : Wide) (os : Rng) (g : rng_st os) (H : heap),
    (forall a b c d g', answers os 16 g [a; b; c; d] g' ->
       let (SK, PK) := Fips205.slh_keygen_internal (fips_params SHA2_128f) (fips_hash SHA2_128f) a b c in
       py_main os g H = PyReturn ("True" ++ line_end ++ ("<slh_dsa_sha2_128f public key: " ++ in_hex PK ++ ">") ++ line_end ++
                                  ("<slh_dsa_sha2_128f private key: " ++ in_hex SK ++ ">"))%string) /\
    (fails_within os 16 4 g -> py_main os g H = PyRaise) /\
    (never_panics os -> (exists text, py_main os g H = PyReturn text) \/ py_main os g H = PyRaise).
Proof. exact prop_python_main_prints. Qed.
Print Assumptions python_main_prints.

Example python_main_prints_applies :
  (exists text, py_main (T := debug64) (P := toy_prims) (W := wide32) counter 0 [five] = PyReturn ("True" ++ line_end ++ text)%string) /\
  py_main (T := debug64) (P := toy_prims) (W := wide32) flaky 0 [five] = PyRaise.
Proof.
  split.
  - pose proof (proj1 (python_main_prints debug64 toy_prims wide32 counter 0 [five]) _ _ _ _ _ (counter_four 16)) as X.
    destruct (Fips205.slh_keygen_internal _ _ _ _ _) as [SK PK]. eexists. exact X.
  - exact (proj1 (proj2 (python_main_prints debug64 toy_prims wide32 flaky 0 [five])) (flaky_fails 16)).
Qed.
