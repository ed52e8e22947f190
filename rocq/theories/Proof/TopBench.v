(** The benchmarks. *)
From Coq Require Import String.
From Verif Require Import Spec.Fips205 Spec.Fips205Hash.
From Verif Require Import Model.Api Model.Examples Model.Bench Spec.Vocab Spec.VocabEx Spec.VocabBench Proof.TopCorrect Proof.TopSafety Proof.TopKeys
  Proof.TopRandom Proof.TopFips Proof.TopFuzz Proof.TopEx.
Import ListNotations.
Open Scope list_scope.
Open Scope N_scope.

Section Bench.
Context {T : Target} {P : Prims} (os : Rng) (NP : never_panics os).

Definition refusal : Prop := exists g n, refuses os g n.

(** m returns a value satisfying Q, or panics in unwrap because the generator refused a request *)
Definition good {A} (m : RM os A) (Q : A -> Prop) : Prop :=
  forall g, (exists a, call m g = Val a /\ Q a) \/ (call m g = Panic PUnwrap /\ refusal).

Lemma good_ret {A} (a : A) (Q : A -> Prop) : Q a -> good (rlift (ret a)) Q.
Proof. intros K g. left. exists a. split; [reflexivity|exact K]. Qed.
Lemma good_bind {A B} (m : RM os A) (k : A -> RM os B) (Q : A -> Prop) (R : B -> Prop) :
  good m Q -> (forall a, Q a -> good (k a) R) -> good (rbind m k) R.
Proof.
  intros Hm Hk g. rewrite call_rbind. destruct (Hm g) as [(a & E & K)|[E K]]; rewrite E.
  - exact (Hk a K (gen_after m g)).
  - right. split; [reflexivity|exact K].
Qed.
Lemma good_weaken {A} (m : RM os A) (Q R : A -> Prop) : good m Q -> (forall a, Q a -> R a) -> good m R.
Proof. intros Hm HQ g. destruct (Hm g) as [(a & E & K)|X]; [left; exists a; auto|right; exact X]. Qed.

Lemma call_attempt {A} (f : RM os A) g :
  call (attempt os f) g = match call f g with Panic q => Panic q | o => Val o end.
Proof. unfold call, attempt. destruct (f g) as [g' [t [a|e|q]]]; reflexivity. Qed.

Lemma good_iter {A} (f : RM os A) (Q : outcome A -> Prop) : good (attempt os f) Q ->
  forall k, good (iter os k f) (fun l => length l = k /\ Forall Q l).
Proof.
  intros Hf. induction k as [|k IH]; cbn [iter]; [apply good_ret; split; [reflexivity|constructor]|].
  eapply good_bind; [exact Hf|]. intros o Ho. cbv beta. eapply good_bind; [exact IH|]. intros l [L F].
  apply good_ret. split; [cbn [length]; rewrite L; reflexivity|constructor; assumption].
Qed.

Section Set_.
Context (s : set_name).
Notation p := (param_set s).

Lemma keygen_cases3 g :
  (exists pk sk, call (try_keygen p os) g = Val (pk, sk) /\ key_pair s pk sk /\ sk_typed s sk) \/
  (exists e, call (try_keygen p os) g = Err e /\ refusal).
Proof.
  unfold try_keygen.
  destruct (try_fill os g (seed_bytes s)) as [g1 [a|e|q]] eqn:E1; [|right|exfalso; exact (NP _ _ _ _ E1)].
  2:{ assert (R : refuses os g (seed_bytes s)) by (exists g1, e; exact E1).
      destruct (keygen_fails s os g (or_introl R)) as [e' E]. exists e'. split; [exact E|]. exists g, (seed_bytes s). exact R. }
  destruct (try_fill os g1 (seed_bytes s)) as [g2 [b|e|q]] eqn:E2; [|right|exfalso; exact (NP _ _ _ _ E2)].
  2:{ assert (R : refuses os g1 (seed_bytes s)) by (exists g2, e; exact E2).
      destruct (keygen_fails s os g) as [e' E]; [right; left; exists a, g1; split; [exact E1|exact R]|].
      exists e'. split; [exact E|]. exists g1, (seed_bytes s). exact R. }
  destruct (try_fill os g2 (seed_bytes s)) as [g3 [c|e|q]] eqn:E3; [|right|exfalso; exact (NP _ _ _ _ E3)].
  2:{ assert (R : refuses os g2 (seed_bytes s)) by (exists g3, e; exact E3).
      destruct (keygen_fails s os g) as [e' E]; [right; right; exists a, b, g1, g2; split; [exact E1|split; [exact E2|exact R]]|].
      exists e'. split; [exact E|]. exists g2, (seed_bytes s). exact R. }
  left. destruct (keygen_does s os g a b c g1 g2 g3 E1 E2 E3) as (pk & sk & [K _] & KP & _ & Ts).
  exists pk, sk. split; [exact K|]. split; assumption.
Qed.

(** the variables of a parameter set after the setup *)
Definition env_ok (e : Params * SlhPublicKey * SlhPrivateKey * bytes) : Prop :=
  let '(p', pk, sk, sig) := e in
  p' = p /\ key_pair s pk sk /\
  (forall g, call (try_sign p os sk bench_message lit_context bench_hedged) g = Val sig) /\
  result (verify p pk bench_message sig lit_context) = Val true /\
  exists SK, result (sk_into_bytes p sk) = Val SK /\
    Fips205.slh_sign (fips_params s) (fips_hash s) bench_message lit_context SK None = Some sig.
Definition keys_ok (e : Params * SlhPublicKey * SlhPrivateKey) : Prop :=
  let '(p', pk, sk) := e in p' = p /\ key_pair s pk sk /\ sk_typed s sk.

Lemma good_keygen : good (unwrap (try_keygen p os)) (fun kp => keys_ok (p, fst kp, snd kp)).
Proof.
  intros g. rewrite call_unwrap. destruct (keygen_cases3 g) as [(pk & sk & E & K & W)|(e & E & R)]; rewrite E.
  - left. exists (pk, sk). split; [reflexivity|]. split; [reflexivity|]. split; assumption.
  - right. split; [reflexivity|exact R].
Qed.

Lemma good_sign pk sk : keys_ok (p, pk, sk) ->
  good (unwrap (try_sign p os sk bench_message lit_context bench_hedged)) (fun sig => env_ok (p, pk, sk, sig)).
Proof.
  intros (_ & K & W).
  destruct (prop_deterministic_signing_ignores_rng T P s sk bench_message lit_context PH_SHA256 W context_len) as (sig & hsig & rsig & D).
  assert (D' : forall g, call (try_sign p os sk bench_message lit_context bench_hedged) g = Val sig) by (intros g; apply (D os g)).
  clear D. intros g. left. exists sig. rewrite call_unwrap, D'. split; [reflexivity|].
  split; [reflexivity|]. split; [exact K|]. split; [exact D'|]. split.
  - exact (proj2 (proj1 (prop_pure_signatures_verify T P s pk sk K os g bench_message lit_context false context_len) sig (D' g))).
  - destruct (prop_output_sizes T P s) as [_ [Z _]]. destruct (Z _ W) as [[SK [Es _]] _]. exists SK. split; [exact Es|].
    pose proof (prop_sign_is_fips T P s os g sk SK bench_message lit_context false W Es) as F. unfold addrnd in F.
    rewrite <- F. unfold try_sign in D'. change bench_hedged with false in D'. rewrite D'. reflexivity.
Qed.

Lemma keygen_runs e k : env_ok e ->
  good (bench_keygen os e k) (fun r => exists l, r = KeygenRuns l /\ length l = k /\
    forall o, In o l -> (exists pk sk, o = Val (pk, sk) /\ key_pair s pk sk) \/ (exists x, o = Err x /\ refusal)).
Proof.
  destruct e as [[[p' pk] sk] sig]. intros (-> & _). unfold bench_keygen.
  eapply good_bind.
  - apply (good_iter _ (fun o => (exists pk sk, o = Val (pk, sk) /\ key_pair s pk sk) \/ (exists x, o = Err x /\ refusal))).
    intros g. left. rewrite call_attempt. destruct (keygen_cases3 g) as [(pk' & sk' & E & K & _)|(x & E & R)]; rewrite E; eexists;
      (split; [reflexivity|]); [left|right]; eauto.
  - intros l [L F]. apply good_ret. exists l. split; [reflexivity|]. split; [exact L|]. apply Forall_forall. exact F.
Qed.

Lemma all_repeat {A} (a : A) l : Forall (eq a) l -> l = repeat a (length l).
Proof. induction 1 as [|x l E _ IH]; [reflexivity|]. subst x. cbn [length repeat]. rewrite <- IH. reflexivity. Qed.

Lemma sign_runs p' pk sk sig k : env_ok (p', pk, sk, sig) ->
  good (bench_sign os (p', pk, sk, sig) k) (fun r => r = SignRuns (repeat (Val sig) k)).
Proof.
  intros (-> & _ & D & _). unfold bench_sign. eapply good_bind.
  - apply (good_iter _ (eq (Val sig))). intros g. left. rewrite call_attempt, D. eexists. split; reflexivity.
  - intros l [L F]. apply good_ret. rewrite (all_repeat _ _ F), L. reflexivity.
Qed.

Lemma verify_runs p' pk sk sig k : env_ok (p', pk, sk, sig) ->
  good (bench_verify os (p', pk, sk, sig) k) (fun r => r = VerifyRuns (repeat (Val true) k)).
Proof.
  intros (-> & _ & _ & V & _). unfold bench_verify. eapply good_bind.
  - apply (good_iter _ (eq (Val true))). intros g. left. rewrite call_attempt, call_rlift, V. eexists. split; reflexivity.
  - intros l [L F]. apply good_ret. rewrite (all_repeat _ _ F), L. reflexivity.
Qed.
End Set_.

Lemma good_keys ss : good (bench_keys os (map param_set ss)) (Forall2 keys_ok ss).
Proof.
  induction ss as [|s ss IH]; cbn [map bench_keys]; [apply good_ret; constructor|].
  eapply good_bind; [apply good_keygen|]. intros kp K. cbv beta. eapply good_bind; [exact IH|]. intros l F.
  apply good_ret. constructor; assumption.
Qed.

Lemma good_sigs ss l : Forall2 keys_ok ss l -> good (bench_sigs os l) (Forall2 env_ok ss).
Proof.
  induction 1 as [|s [[p' pk] sk] ss l K _ IH]; cbn [bench_sigs]; [apply good_ret; constructor|].
  pose proof (proj1 K) as E. subst p'.
  eapply good_bind; [apply (good_sign s pk sk K)|]. intros sig K'. cbv beta. eapply good_bind; [exact IH|]. intros r F.
  apply good_ret. constructor; assumption.
Qed.

(** one group of benchmarks *)
Lemma good_group suffix f k (Q : set_name -> Params * SlhPublicKey * SlhPrivateKey * bytes -> nat -> measured -> Prop) :
  (forall s e k, env_ok s e -> good (f e k) (Q s e k)) ->
  forall ss es, Forall2 env_ok ss es ->
  good (bench_group os suffix f k (combine (map short_name ss) es))
    (fun r => map fst r = map (fun s => (short_name s ++ suffix)%string) ss /\
       forall s e, In (s, e) (combine ss es) ->
         exists m, In ((short_name s ++ suffix)%string, m) r /\ Q s e (k (short_name s ++ suffix)%string) m).
Proof.
  intros Hf ss es F. induction F as [|s e ss es K _ IH]; cbn [map combine bench_group].
  - apply good_ret. split; [reflexivity|]. intros s e [].
  - eapply good_bind; [apply (Hf s e _ K)|]. intros m Hm. cbv beta. eapply good_bind; [exact IH|]. intros r [E C].
    apply good_ret. split; [cbn [map fst]; rewrite E; reflexivity|].
    intros s' e' [X|I].
    + apply pair_equal_spec in X. destruct X as [<- <-]. exists m. split; [left; reflexivity|exact Hm].
    + destruct (C s' e' I) as (m' & I' & K'). exists m'. split; [right; exact I'|exact K'].
Qed.

Definition setup_sets : list set_name :=
  [SHA2_128s; SHA2_128f; SHA2_192s; SHA2_192f; SHA2_256s; SHA2_256f;
   SHAKE_128s; SHAKE_128f; SHAKE_192s; SHAKE_192f; SHAKE_256s; SHAKE_256f].

Lemma reorder env : Forall2 env_ok setup_sets env -> exists es,
  map (fun '(name, i) => (name, at_position env i)) bench_names = combine (map short_name bench_sets) es /\
  Forall2 env_ok bench_sets es.
Proof.
  intros F. unfold setup_sets in F.
  repeat match goal with K : Forall2 _ _ _ |- _ => inversion K; clear K; subst end.
  eexists [_; _; _; _; _; _; _; _; _; _; _; _]. split; [reflexivity|]. unfold bench_sets. repeat (constructor; [eassumption|]). constructor.
Qed.

Lemma all_sets s : In s bench_sets.
Proof. destruct s; cbn; tauto. Qed.

Lemma in_combine_left {A B} (R : A -> B -> Prop) l r a : Forall2 R l r -> In a l -> exists b, In (a, b) (combine l r) /\ R a b.
Proof.
  induction 1 as [|x y l r K _ IH]; intros I; [contradiction|]. destruct I as [->|I].
  - exists y. split; [left; reflexivity|exact K].
  - destruct (IH I) as (b & Ib & Kb). exists b. split; [right; exact Ib|exact Kb].
Qed.

Definition report_ok (k : string -> nat) (report : list (string * measured)) : Prop :=
  map fst report = bench_labels /\
  forall s,
    (exists l, In (keygen_label s, KeygenRuns l) report /\ length l = k (keygen_label s) /\
       forall o, In o l -> (exists pk sk, o = Val (pk, sk) /\ key_pair s pk sk) \/ (exists e, o = Err e /\ refusal)) /\
    exists pk sk SK sig, key_pair s pk sk /\ result (sk_into_bytes (param_set s) sk) = Val SK /\
      Fips205.slh_sign (fips_params s) (fips_hash s) bench_message lit_context SK None = Some sig /\
      In (sign_label s, SignRuns (repeat (Val sig) (k (sign_label s)))) report /\
      In (verify_label s, VerifyRuns (repeat (Val true) (k (verify_label s)))) report.

Lemma good_benchmark k : good (benchmark os k) (report_ok k).
Proof.
  unfold benchmark. change setup_order with (map param_set setup_sets).
  eapply good_bind; [apply good_keys|]. intros keys K. cbv beta. eapply good_bind; [apply (good_sigs _ _ K)|]. intros env F.
  cbv beta zeta. destruct (reorder env F) as (es & E & F'). rewrite E.
  eapply good_bind.
  { apply (good_group " keygen" (bench_keygen os) k _ (fun s e k => keygen_runs s e k) bench_sets es F'). }
  intros r1 [E1 C1]. cbv beta. eapply good_bind.
  { apply (good_group " sign  " (bench_sign os) k (fun s e k r => r = SignRuns (repeat (Val (snd e)) k))); [|exact F'].
    intros s [[[p' pk] sk] sig] k' Ke. apply (sign_runs s p' pk sk sig k' Ke). }
  intros r2 [E2 C2]. cbv beta. eapply good_bind.
  { apply (good_group " verify" (bench_verify os) k (fun s e k r => r = VerifyRuns (repeat (Val true) k))); [|exact F'].
    intros s [[[p' pk] sk] sig] k' Ke. apply (verify_runs s p' pk sk sig k' Ke). }
  intros r3 [E3 C3]. cbv beta. apply good_ret. split.
  - rewrite !map_app, E1, E2, E3. reflexivity.
  - intros s. destruct (in_combine_left _ _ _ s F' (all_sets s)) as ([[[p' pk] sk] sig] & I & Ok). split.
    + destruct (C1 _ _ I) as (m & Im & l & -> & L & B). exists l. split; [apply in_or_app; left; exact Im|]. split; [exact L|exact B].
    + destruct Ok as (_ & KP & _ & _ & SK & Es & Sg). exists pk, sk, SK, sig. split; [exact KP|]. split; [exact Es|]. split; [exact Sg|].
      destruct (C2 _ _ I) as (m & Im & ->). destruct (C3 _ _ I) as (m' & Im' & ->). split.
      * apply in_or_app; right. apply in_or_app; left. exact Im.
      * apply in_or_app; right. apply in_or_app; right. exact Im'.
Qed.
End Bench.

Lemma prop_benchmarks_measure_successes :
  forall (T : Target) (P : Prims) (os : Rng) (g : rng_st os) (k : string -> nat), never_panics os ->
    let refusal := exists g' n, refuses os g' n in
    (** the setup ends the program only if the generator refuses a request *)
    (call (benchmark os k) g = Panic PUnwrap /\ refusal) \/
    exists report, call (benchmark os k) g = Val report /\ map fst report = bench_labels /\
      forall s,
        (exists l, In (keygen_label s, KeygenRuns l) report /\ length l = k (keygen_label s) /\
           forall o, In o l -> (exists pk sk, o = Val (pk, sk) /\ key_pair s pk sk) \/ (exists e, o = Err e /\ refusal)) /\
        exists pk sk SK sig, key_pair s pk sk /\ result (sk_into_bytes (param_set s) sk) = Val SK /\
          Fips205.slh_sign (fips_params s) (fips_hash s) (map n2b [0; 1; 2; 3; 4; 5; 6; 7]) (list_byte_of_string "context") SK None = Some sig /\
          In (sign_label s, SignRuns (repeat (Val sig) (k (sign_label s)))) report /\
          In (verify_label s, VerifyRuns (repeat (Val true) (k (verify_label s)))) report.
Proof.
  intros T P os g k NP refusal0. destruct (good_benchmark os NP k g) as [(r & E & K)|X]; [right|left; exact X].
  exists r. split; [exact E|exact K].
Qed.
