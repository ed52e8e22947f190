(** The example programs shipped with the crate. *)
From Coq Require Import String.
From Verif Require Import Spec.Fips205 Spec.Fips205Hash.
From Verif Require Import Model.Api Model.Ffi Model.FfiMem Model.PyObj Model.Examples Spec.Vocab Spec.VocabC Spec.VocabForge Spec.VocabBind
  Spec.VocabPy Spec.VocabEx Proof.TopCorrect Proof.TopSafety Proof.TopKeys Proof.TopRandom Proof.TopFips Proof.TopFraming Proof.TopBind
  Proof.TopFuzz Proof.TopC Proof.TopPyObj.
Import ListNotations.
Open Scope list_scope.
Open Scope N_scope.

(** *** Generators *)
Lemma answers_or_fails os n k : never_panics os -> forall g,
  (exists bs g', answers os n g bs g' /\ nlen bs = N.of_nat k) \/ fails_within os n (N.of_nat k) g.
Proof.
  intros NP. induction k as [|k IH]; intros g.
  - left. exists [], g. split; [constructor|reflexivity].
  - destruct (try_fill os g n) as [g1 [b|e|q]] eqn:E.
    + destruct (IH g1) as [(bs & g' & A & L)|(bs & g' & A & L & R)].
      * left. exists (b :: bs), g'. split; [econstructor; [exact E|exact A]|]. rewrite nlen_cons. lia.
      * right. exists (b :: bs), g'. split; [econstructor; [exact E|exact A]|]. rewrite nlen_cons. split; [lia|exact R].
    + right. exists [], g. split; [constructor|]. split; [rewrite nlen_nil; lia|]. exists g1, e. exact E.
    + exfalso. exact (NP _ _ _ _ E).
Qed.

Lemma answers_four os n g bs g' : answers os n g bs g' -> nlen bs = 4 ->
  exists a b c d g1 g2 g3, bs = [a; b; c; d] /\ gives os g n a g1 /\ gives os g1 n b g2 /\ gives os g2 n c g3 /\ gives os g3 n d g'.
Proof.
  intros A L.
  destruct A as [?|? ? ? ? ? G1 A]; [exfalso; rewrite nlen_nil in L; lia|]. rewrite nlen_cons in L.
  destruct A as [?|? ? ? ? ? G2 A]; [exfalso; rewrite nlen_nil in L; lia|]. rewrite nlen_cons in L.
  destruct A as [?|? ? ? ? ? G3 A]; [exfalso; rewrite nlen_nil in L; lia|]. rewrite nlen_cons in L.
  destruct A as [?|? ? ? ? ? G4 A]; [exfalso; rewrite nlen_nil in L; lia|]. rewrite nlen_cons in L.
  destruct A as [?|? ? ? ? ? G5 A]; [|exfalso; rewrite nlen_cons in L; lia].
  do 7 eexists. split; [reflexivity|]. repeat (split; [eassumption|]). assumption.
Qed.

(** three requests are made by key generation, the fourth by signing *)
Lemma fails_four os n g : fails_within os n 4 g ->
  (refuses os g n \/
   (exists a g1, gives os g n a g1 /\ refuses os g1 n) \/
   (exists a b g1 g2, gives os g n a g1 /\ gives os g1 n b g2 /\ refuses os g2 n)) \/
  (exists a b c g1 g2 g3, gives os g n a g1 /\ gives os g1 n b g2 /\ gives os g2 n c g3 /\ refuses os g3 n).
Proof.
  intros (bs & g' & A & L & R).
  destruct A as [?|? ? ? ? ? G1 A]; [left; left; exact R|]. rewrite nlen_cons in L.
  destruct A as [?|? ? ? ? ? G2 A]; [left; right; left; eauto|]. rewrite nlen_cons in L.
  destruct A as [?|? ? ? ? ? G3 A]; [left; right; right; eauto 10|]. rewrite nlen_cons in L.
  destruct A as [?|? ? ? ? ? G4 A]; [right; eauto 20|]. rewrite nlen_cons in L. exfalso. lia.
Qed.

(** *** Programs *)
Section Runs.
Context {r : Rng}.

Lemma gen_rbind {A B} (m : RM r A) (k : A -> RM r B) g a : call m g = Val a ->
  gen_after (rbind m k) g = gen_after (k a) (gen_after m g).
Proof.
  unfold call, gen_after, rbind. destruct (m g) as [g' [t o]]. cbn. intros ->.
  destruct (k a g') as [g'' [t' o']]. reflexivity.
Qed.

(** f returns a and leaves the generator in state g' *)
Definition does {A} (f : RM r A) (g : rng_st r) (a : A) (g' : rng_st r) : Prop := call f g = Val a /\ gen_after f g = g'.

Lemma does_bind {A B} (m : RM r A) (k : A -> RM r B) g a g1 b g2 :
  does m g a g1 -> does (k a) g1 b g2 -> does (rbind m k) g b g2.
Proof.
  intros [E1 E2] [F1 F2]. subst g1. split; [|rewrite (gen_rbind _ _ _ _ E1); exact F2].
  rewrite call_rbind, E1. exact F1.
Qed.
Lemma does_lift {A} (m : M A) g a : result m = Val a -> does (rlift m) g a g.
Proof. intros E. split; [exact E|reflexivity]. Qed.

Lemma call_unwrap {A} (f : RM r A) g :
  call (unwrap f) g = match call f g with Val a => Val a | Err _ => Panic PUnwrap | Panic q => Panic q end.
Proof. unfold call, unwrap. destruct (f g) as [g' [t [a|e|q]]]; reflexivity. Qed.
Lemma gen_unwrap {A} (f : RM r A) g : gen_after (unwrap f) g = gen_after f g.
Proof. unfold gen_after, unwrap. destruct (f g) as [g' [t [a|e|q]]]; reflexivity. Qed.
Lemma does_unwrap {A} (f : RM r A) g a g' : does f g a g' -> does (unwrap f) g a g'.
Proof. intros [E <-]. split; [rewrite call_unwrap, E; reflexivity|apply gen_unwrap]. Qed.
End Runs.

(** *** README.md *)
Lemma seed_sizes s : 16 <= seed_bytes s.
Proof. destruct s; vm_compute; discriminate. Qed.

Lemma context_len : nlen lit_context <= 255.
Proof. vm_compute. discriminate. Qed.
Lemma other_len : nlen lit_other <= 255.
Proof. vm_compute. discriminate. Qed.

Section Keys.
Context {T : Target} {P : Prims} (s : set_name).
Notation p := (param_set s).
Notation n := (seed_bytes s).

(** a typed public key survives export and import *)
Lemma pk_trip pk : pk_typed s pk ->
  exists bs, result (pk_into_bytes p pk) = Val bs /\ result (pk_try_from_bytes p bs) = Val pk.
Proof.
  intros Tp. destruct (proj2 (TopKeys.prop_public_key_round_trip T P s) pk Tp) as [bs [E [_ I]]].
  exists bs. split; assumption.
Qed.

Lemma keygen_does os g a b c g1 g2 g3 : gives os g n a g1 -> gives os g1 n b g2 -> gives os g2 n c g3 ->
  exists pk sk, does (try_keygen_with_rng p os) g (pk, sk) g3 /\ key_pair s pk sk /\ pk_typed s pk /\ sk_typed s sk.
Proof.
  intros A B C. destruct (prop_keygen_draws T P s os g) as (_ & _ & _ & K).
  destruct (K _ _ _ _ _ _ A B C) as (pk & sk & E & _ & Eg & _).
  destruct (proj2 (proj2 (prop_output_sizes T P s)) os g pk sk E) as [Tp Ts].
  exists pk, sk. split; [split; assumption|]. split; [exact (kp_generated s os g pk sk E)|]. split; assumption.
Qed.

Lemma sign_does os g sk m ctx b g' : sk_typed s sk -> nlen ctx <= 255 -> gives os g n b g' ->
  exists sig, does (try_sign_with_rng p os sk m ctx true) g sig g'.
Proof.
  intros Ts L G. destruct (prop_output_sizes T P s) as [_ [K _]]. destruct (K _ Ts) as [[SK [Es _]] _].
  pose proof (prop_hedged_signing_draws_once T P s os g sk SK m ctx PH_SHA256 Ts Es L) as X. cbv zeta in X.
  destruct (PH_fn PH_SHA256 m) as [OID digest].
  destruct (X _ _ (or_introl (conj eq_refl eq_refl))) as (_ & Eg & V & _).
  eexists. split; [exact (V _ _ G)|]. rewrite Eg. unfold gives in G. rewrite G. reflexivity.
Qed.

Lemma hash_sign_does os g sk m ctx ph b g' : sk_typed s sk -> nlen ctx <= 255 -> gives os g n b g' ->
  exists sig, does (try_hash_sign_with_rng p os sk m ctx (ph_arg ph) true) g sig g'.
Proof.
  intros Ts L G. destruct (prop_output_sizes T P s) as [_ [K _]]. destruct (K _ Ts) as [[SK [Es _]] _].
  pose proof (prop_hedged_signing_draws_once T P s os g sk SK m ctx ph Ts Es L) as X. cbv zeta in X.
  destruct (PH_fn ph m) as [OID digest].
  destruct (X _ _ (or_intror (or_introl (conj eq_refl eq_refl)))) as (_ & Eg & V & _).
  eexists. split; [exact (V _ _ G)|]. rewrite Eg. unfold gives in G. rewrite G. reflexivity.
Qed.

Lemma sign_fails os g sk m ctx : sk_typed s sk -> nlen ctx <= 255 -> refuses os g n ->
  exists e, call (try_sign_with_rng p os sk m ctx true) g = Err e.
Proof.
  intros Ts L G. destruct (prop_output_sizes T P s) as [_ [K _]]. destruct (K _ Ts) as [[SK [Es _]] _].
  pose proof (prop_hedged_signing_draws_once T P s os g sk SK m ctx PH_SHA256 Ts Es L) as X. cbv zeta in X.
  destruct (PH_fn PH_SHA256 m) as [OID digest].
  destruct (X _ _ (or_introl (conj eq_refl eq_refl))) as (_ & _ & _ & R). eexists. exact (R G).
Qed.

Lemma keygen_fails os g :
  refuses os g n \/
  (exists a g1, gives os g n a g1 /\ refuses os g1 n) \/
  (exists a b g1 g2, gives os g n a g1 /\ gives os g1 n b g2 /\ refuses os g2 n) ->
  exists e, call (try_keygen_with_rng p os) g = Err e.
Proof.
  destruct (prop_keygen_draws T P s os g) as (K1 & K2 & K3 & _). cbv zeta in K1, K2, K3.
  intros [R|[(a & g1 & A & R)|(a & b & g1 & g2 & A & B & R)]]; eexists; [apply (K1 R)|apply (K2 _ _ A R)|apply (K3 _ _ _ _ A B R)].
Qed.

Lemma verifies os g pk sk m ctx sig g' : key_pair s pk sk -> nlen ctx <= 255 ->
  does (try_sign_with_rng p os sk m ctx true) g sig g' ->
  nlen sig = sig_size s /\ result (verify p pk m sig ctx) = Val true.
Proof. intros KP L [E _]. exact (proj1 (prop_pure_signatures_verify T P s pk sk KP os g m ctx true L) sig E). Qed.

Lemma hash_verifies os g pk sk m ctx ph sig g' : key_pair s pk sk -> nlen ctx <= 255 ->
  does (try_hash_sign_with_rng p os sk m ctx (ph_arg ph) true) g sig g' ->
  nlen sig = sig_size s /\ result (hash_verify p pk m sig ctx (ph_arg ph)) = Val true.
Proof. intros KP L [E _]. exact (proj1 (prop_prehash_signatures_verify T P s pk sk KP os g m ctx ph true L) sig E). Qed.

(** two acceptances of one signature *)
Lemma two_accepted pk M1 M2 sig t1 t2 : M1 <> M2 ->
  accepting_run s pk M1 sig t1 -> accepting_run s pk M2 sig t2 -> accepted_for_two s pk M1 M2.
Proof.
  intros Ne A1 A2. split; [exact Ne|]. exists sig, t1, t2. split; [exact A1|]. split; [exact A2|].
  exact (prop_signature_binds_message T P s pk sig M1 M2 t1 t2 A1 A2).
Qed.
End Keys.

Lemma prop_readme_example_succeeds :
  forall (T : Target) (P : Prims) (s : set_name) (os : Rng) (g : rng_st os),
    let run := readme_example (param_set s) os in
    (forall bs g', answers os (seed_bytes s) g bs g' -> nlen bs = 4 -> call run g = Val tt /\ gen_after run g = g') /\
    (fails_within os (seed_bytes s) 4 g -> exists e, call run g = Err e) /\
    (never_panics os -> no_panic (call run g)).
Proof.
  intros T P s os g run.
  assert (OK : forall bs g', answers os (seed_bytes s) g bs g' -> nlen bs = 4 -> does run g tt g').
  { intros bs g' A L. destruct (answers_four _ _ _ _ _ A L) as (a & b & c & d & g1 & g2 & g3 & _ & G1 & G2 & G3 & G4).
    destruct (keygen_does s os g a b c g1 g2 g3 G1 G2 G3) as (pk & sk & K & KP & Tp & Ts).
    destruct (sign_does s os g3 sk readme_msg lit_context d g' Ts context_len G4) as [sig S].
    destruct (pk_trip s pk Tp) as (bs' & E1 & E2).
    destruct (verifies s os g3 pk sk readme_msg lit_context sig g' KP context_len S) as [_ V].
    unfold run, readme_example. eapply does_bind; [exact K|]. eapply does_bind; [exact S|].
    eapply does_bind; [apply does_lift; exact E1|]. eapply does_bind; [apply does_lift; exact E2|].
    eapply does_bind; [apply does_lift; exact V|]. apply does_lift. reflexivity. }
  assert (BAD : fails_within os (seed_bytes s) 4 g -> exists e, call run g = Err e).
  { intros F. destruct (fails_four _ _ _ F) as [K|(a & b & c & g1 & g2 & g3 & G1 & G2 & G3 & R)].
    - destruct (keygen_fails s os g K) as [e E]. exists e. unfold run, readme_example. rewrite call_rbind.
      unfold try_keygen. rewrite E. reflexivity.
    - destruct (keygen_does s os g a b c g1 g2 g3 G1 G2 G3) as (pk & sk & [K Kg] & KP & Tp & Ts).
      destruct (sign_fails s os g3 sk readme_msg lit_context Ts context_len R) as [e E]. exists e.
      unfold run, readme_example. rewrite call_rbind. unfold try_keygen. rewrite K, Kg. rewrite call_rbind.
      unfold try_sign. rewrite E. reflexivity. }
  split; [exact OK|]. split; [exact BAD|]. intros NP.
  destruct (answers_or_fails os (seed_bytes s) 4 NP g) as [(bs & g' & A & L)|F].
  - destruct (OK _ _ A L) as [E _]. rewrite E. discriminate.
  - destruct (BAD F) as [e E]. rewrite E. discriminate.
Qed.

(** *** The unit test *)
Lemma hash_ctx_ne OID D : Fips205.hash_M' OID D lit_context <> Fips205.hash_M' OID D lit_other.
Proof. intros E. apply (f_equal (fun l => nth 1 l (n2b 0))) in E. vm_compute in E. discriminate. Qed.
Lemma pure_ctx_ne m : Fips205.pure_M' m [] <> Fips205.pure_M' m lit_context.
Proof. intros E. apply (f_equal (fun l => nth 1 l (n2b 0))) in E. vm_compute in E. discriminate. Qed.

Section Unit.
Context {T : Target} {P : Prims} (s : set_name) (r : Rng).
Notation p := (param_set s).
Notation n := (seed_bytes s).

(** f returns, or stops at an assertion and then Q holds *)
Definition asserts {A} (f : RM r A) (g : rng_st r) (Q : Prop) : Prop :=
  (exists a, call f g = Val a) \/ (call f g = Panic PAssert /\ Q).

Lemma asserts_bind {A B} (m : RM r A) (k : A -> RM r B) g a g1 Q :
  does m g a g1 -> asserts (k a) g1 Q -> asserts (rbind m k) g Q.
Proof. intros [E1 <-] V. unfold asserts. rewrite call_rbind, E1. exact V. Qed.

Lemma asserts_seq {A B} (m : RM r A) (k : A -> RM r B) g Q :
  asserts m g Q -> (forall a g1, asserts (k a) g1 Q) -> asserts (rbind m k) g Q.
Proof.
  intros [[a E]|[E q]] V; unfold asserts; rewrite call_rbind, E; [apply V|]. right. split; [reflexivity|exact q].
Qed.

Lemma asserts_not b g (Q : Prop) : (b = true -> Q) -> asserts (rlift (assert_ (negb b))) g Q.
Proof.
  intros K. unfold asserts. rewrite !call_rlift. destruct b; [right|left; exists tt; reflexivity].
  split; [reflexivity|exact (K eq_refl)].
Qed.

Hypothesis alive : forall g k, exists b g', gives r g k b g'.

Lemma keygen_alive g : exists pk sk g', does (try_keygen_with_rng p r) g (pk, sk) g' /\ key_pair s pk sk /\ pk_typed s pk.
Proof.
  destruct (alive g n) as (a & g1 & G1). destruct (alive g1 n) as (b & g2 & G2). destruct (alive g2 n) as (c & g3 & G3).
  destruct (keygen_does s r g a b c g1 g2 g3 G1 G2 G3) as (pk & sk & K & KP & Tp & _). exists pk, sk, g3.
  split; [exact K|]. split; assumption.
Qed.

Lemma sign_alive pk sk m ctx g : key_pair s pk sk -> nlen ctx <= 255 ->
  exists sig g', does (try_sign_with_rng p r sk m ctx true) g sig g' /\
    nlen sig = sig_size s /\ result (verify p pk m sig ctx) = Val true.
Proof.
  intros KP L. destruct (prop_pure_signatures_verify T P s pk sk KP r g m ctx true L) as [V S].
  destruct (S (fun _ => alive g n)) as [sig E]. exists sig, (gen_after (try_sign_with_rng p r sk m ctx true) g).
  split; [split; [exact E|reflexivity]|]. exact (V sig E).
Qed.

Lemma hash_sign_alive pk sk m ctx ph g : key_pair s pk sk -> nlen ctx <= 255 ->
  exists sig g', does (try_hash_sign_with_rng p r sk m ctx (ph_arg ph) true) g sig g' /\
    nlen sig = sig_size s /\ result (hash_verify p pk m sig ctx (ph_arg ph)) = Val true.
Proof.
  intros KP L. destruct (prop_prehash_signatures_verify T P s pk sk KP r g m ctx ph true L) as [V S].
  destruct (S (fun _ => alive g n)) as [sig E]. exists sig, (gen_after (try_hash_sign_with_rng p r sk m ctx (ph_arg ph) true) g).
  split; [split; [exact E|reflexivity]|]. exact (V sig E).
Qed.

(** verification of a signature of the right size always answers *)
Lemma verify_answers pk m sig ctx ph : pk_typed s pk -> nlen sig = sig_size s ->
  (exists b, result (verify p pk m sig ctx) = Val b) /\ (exists b, result (hash_verify p pk m sig ctx (ph_arg ph)) = Val b).
Proof.
  intros Tp L. destruct (proj2 (TopKeys.prop_public_key_round_trip T P s) pk Tp) as (bs & E & Lb & Ei).
  destruct (prop_verify_never_panics T P s bs m sig ctx ph Lb L) as (pk' & E' & V1 & V2 & _).
  rewrite Ei in E'. assert (Q : pk = pk') by (apply (f_equal (fun o => match o with Val x => x | _ => pk end)) in E'; exact E').
  subst pk'. split; assumption.
Qed.

Definition ph_slip (pk : SlhPublicKey) : Prop :=
  exists ph, let '(OID, digest) := PH_fn ph test_message in
    accepted_for_two s pk (Fips205.hash_M' OID digest lit_context) (Fips205.hash_M' OID digest lit_other).

Lemma loop_asserts pk sk phs g : key_pair s pk sk -> pk_typed s pk ->
  asserts (round_trip_loop p r pk sk (map ph_arg phs)) g (ph_slip pk).
Proof.
  intros KP Tp. revert g. induction phs as [|ph phs IH]; intros g; [left; exists tt; reflexivity|].
  cbn [map round_trip_loop]. apply asserts_seq; [|intros _ g1; apply IH].
  destruct (hash_sign_alive pk sk test_message lit_context ph g KP context_len) as (sig & g1 & S & L & V).
  unfold round_trip_ph. eapply asserts_bind; [apply does_unwrap; exact S|].
  eapply asserts_bind; [apply does_lift; exact V|]. eapply asserts_bind; [apply does_lift; reflexivity|].
  destruct (proj2 (verify_answers pk test_message sig lit_other ph Tp L)) as [b E].
  eapply asserts_bind; [apply does_lift; exact E|]. apply asserts_not. intros ->.
  exists ph. pose proof (accepts_hash s pk test_message sig lit_context ph L V) as A1.
  pose proof (accepts_hash s pk test_message sig lit_other ph L E) as A2.
  destruct (PH_fn ph test_message) as [OID digest]. cbn [fst snd] in A1, A2.
  exact (two_accepted s pk _ _ sig _ _ (hash_ctx_ne OID digest) A1 A2).
Qed.
End Unit.

Lemma prop_unit_test_passes :
  forall (T : Target) (P : Prims) (s : set_name) (r : Rng) (g : rng_st r),
    (forall g k, exists b g', gives r g k b g') ->
    let p := param_set s in
    let n := seed_bytes s in
    let run := call (simple_round_trips p r) g in
    run = Val tt \/
    (run = Panic PAssert /\ exists pk sk, key_pair s pk sk /\
       ((exists pk3 sk3 g3 sig,
           result (keygen_with_seeds p (nrepeat (n2b 0) n) (nrepeat (n2b 1) n) (nrepeat (n2b 2) n)) = Val (pk3, sk3) /\
           call (try_sign_with_rng p r sk3 test_message lit_context true) g3 = Val sig /\
           result (verify p pk test_message sig lit_other) = Val true) \/
        (exists ph, let '(OID, digest) := PH_fn ph test_message in
           accepted_for_two s pk (Fips205.hash_M' OID digest lit_context) (Fips205.hash_M' OID digest lit_other)))).
Proof.
  intros T P s r g alive p n run.
  enough (X : asserts r (simple_round_trips p r) g (exists pk sk, key_pair s pk sk /\
       ((exists pk3 sk3 g3 sig,
           result (keygen_with_seeds p (nrepeat (n2b 0) n) (nrepeat (n2b 1) n) (nrepeat (n2b 2) n)) = Val (pk3, sk3) /\
           call (try_sign_with_rng p r sk3 test_message lit_context true) g3 = Val sig /\
           result (verify p pk test_message sig lit_other) = Val true) \/ ph_slip s pk))).
  { destruct X as [[[] E]|[E Q]]; [left; exact E|right]. split; [exact E|exact Q]. }
  destruct (keygen_alive s r alive g) as (pk & sk & g1 & K & KP & Tp).
  destruct (pk_trip s pk Tp) as (pkb & Ep1 & Ep2).
  destruct (proj1 (TopKeys.prop_private_key_round_trip T P s) pk sk KP) as (skb & Es1 & _ & Es2).
  destruct (sign_alive s r alive pk sk test_message lit_context g1 KP context_len) as (sig & g2 & S & L & V).
  assert (Ln : forall c, nlen (nrepeat (n2b c) n) = seed_bytes s) by (intros c; apply nlen_nrepeat).
  destruct (proj1 (prop_keygen_with_seeds T P s _ _ _) (Ln 0) (Ln 1) (Ln 2)) as (pk3 & sk3 & E3 & _).
  pose proof (kp_seeded s _ _ _ _ _ E3) as KP3.
  destruct (sign_alive s r alive pk3 sk3 test_message lit_context g2 KP3 context_len) as (sig3 & g3 & S3 & L3 & V3).
  destruct (proj1 (verify_answers s pk test_message sig3 lit_other PH_SHA256 Tp L3)) as [b E].
  unfold simple_round_trips.
  eapply asserts_bind; [apply does_unwrap; exact K|]. cbv iota beta.
  eapply asserts_bind; [apply does_lift; exact Ep1|]. eapply asserts_bind; [apply does_lift; exact Es1|].
  eapply asserts_bind; [apply does_unwrap, does_lift; exact Ep2|]. eapply asserts_bind; [apply does_unwrap, does_lift; exact Es2|].
  eapply asserts_bind; [apply does_unwrap; exact S|]. eapply asserts_bind; [apply does_lift; exact V|].
  eapply asserts_bind; [apply does_lift; reflexivity|].
  assert (Cn : cN p = n) by (unfold p, n; destruct s; reflexivity). rewrite Cn.
  eapply asserts_bind; [apply does_lift; exact E3|]. cbv iota beta.
  eapply asserts_bind; [apply does_unwrap; exact S3|]. eapply asserts_bind; [apply does_lift; exact V3|].
  eapply asserts_bind; [apply does_lift; reflexivity|]. eapply asserts_bind; [apply does_lift; exact E|].
  apply asserts_seq.
  - apply asserts_not. intros ->. exists pk, sk. split; [exact KP|]. left. exists pk3, sk3, g2, sig3.
    split; [exact E3|]. split; [exact (proj1 S3)|exact E].
  - intros _ g4.
    destruct (loop_asserts s r alive pk sk [PH_SHA256; PH_SHA512; PH_SHAKE128; PH_SHAKE256] g4 KP Tp) as [X|[X Q]]; [left; exact X|].
    right. split; [exact X|]. exists pk, sk. split; [exact KP|right; exact Q].
Qed.

(** *** The ignored test *)
Lemma prop_ignored_test_fails :
  forall (T : Target) (P : Prims) (r : Rng) (g : rng_st r),
    (forall g k, exists b g', gives r g k b g') ->
    let run := call (browser_message r) g in
    let asdf := map n2b [97; 115; 100; 102] in
    run = Panic PAssert \/
    (run = Val tt /\ exists pk sk, key_pair SHA2_128f pk sk /\
       accepted_for_two SHA2_128f pk (Fips205.pure_M' asdf []) (Fips205.pure_M' asdf lit_context)).
Proof.
  intros T P r g alive run asdf.
  change slh_dsa_sha2_128f with (param_set SHA2_128f) in *.
  destruct (keygen_alive SHA2_128f r alive g) as (pk & sk & g1 & K & KP & Tp).
  assert (L0 : nlen (@nil byte) <= 255) by (rewrite nlen_nil; lia).
  destruct (sign_alive SHA2_128f r alive pk sk asdf [] g1 KP L0) as (sig & g2 & S & L & V).
  destruct (proj1 (verify_answers SHA2_128f pk asdf sig lit_context PH_SHA256 Tp L)) as [b E].
  assert (R : run = match b with true => Val tt | false => Panic PAssert end).
  { unfold run, browser_message. change slh_dsa_sha2_128f with (param_set SHA2_128f).
    change (list_byte_of_string "asdf"%string) with asdf.
    rewrite call_rbind. destruct (does_unwrap _ _ _ _ K) as [-> ->]. cbv iota beta.
    rewrite call_rbind. destruct (does_unwrap _ _ _ _ S) as [-> ->].
    rewrite call_rbind, call_rlift, E. rewrite call_rlift. destruct b; reflexivity. }
  destruct b; [right|left; exact R]. split; [exact R|]. exists pk, sk. split; [exact KP|].
  exact (two_accepted SHA2_128f pk _ _ sig _ _ (pure_ctx_ne asdf) (accepts_pure SHA2_128f pk asdf sig [] L V)
           (accepts_pure SHA2_128f pk asdf sig lit_context L E)).
Qed.

(** *** baseline.c *)
Lemma check_pass {T : Target} {P : Prims} os op ok k g M g' code M' : c_step os g M op = (g', FReturn code M') -> ok code = true ->
  check (os := os) (fun g M => c_step os g M op) ok k g M = k g' M'.
Proof. intros E O. unfold check. rewrite E, O. reflexivity. Qed.
Lemma check_fail {T : Target} {P : Prims} os op ok k g M g' code M' : c_step os g M op = (g', FReturn code M') -> ok code = false ->
  check (os := os) (fun g M => c_step os g M op) ok k g M = (g', FReturn 1 M').
Proof. intros E O. unfold check. rewrite E, O. reflexivity. Qed.

Lemma verify_step {T : Target} {P : Prims} os g M buf pk sig m sg pkb : legal M (CVerify buf 3 pk sig) -> pk <> 0 -> sig <> 0 ->
  load M buf 3 = m -> load M sig 17088 = sg -> load M pk 32 = pkb ->
  c_step os g M (CVerify buf 3 pk sig) =
    (g, FReturn (if Fips205.slh_verify (fips_params SHA2_128f) (fips_hash SHA2_128f) m sg [] pkb then 0 else 6) M).
Proof.
  intros L Np Ns <- <- <-. cbn [c_step]. rewrite (verify_code M buf 3%Z pk sig L).
  rewrite (proj2 (N.eqb_neq _ _) Np), (proj2 (N.eqb_neq _ _) Ns). reflexivity.
Qed.

Lemma small_len {T : Target} : Z.to_N 3 < 2 ^ usize_bits.
Proof.
  pose proof usize_16 as U. change (bits Usize) with usize_bits in U. change (Z.to_N 3) with 3.
  eapply N.lt_le_trans; [|exact U]. reflexivity.
Qed.

Lemma prop_baseline_c_succeeds :
  forall (T : Target) (P : Prims) (os : Rng) (g : rng_st os) (M : cmem) (public private sig message : N),
    locals M public private sig message ->
    let run := baseline_main os public private sig message g M in
    (forall bs g', answers os 16 g bs g' -> nlen bs = 4 ->
       (exists M', run = (g', FReturn 0 M')) \/
       (exists M' pk sk, run = (g', FReturn 1 M') /\ key_pair SHA2_128f pk sk /\
          accepted_for_two SHA2_128f pk (Fips205.pure_M' (map n2b [0; 17; 34]) []) (Fips205.pure_M' (map n2b [99; 17; 34]) []))) /\
    (fails_within os 16 4 g -> exists g' M', run = (g', FReturn 1 M')) /\
    (never_panics os -> exists g' code M', run = (g', FReturn code M')).
Proof.
  intros T P os g M pub priv sg msg ((Np & Bp) & (Ns & Bs) & (Ng & Bg) & (Nm & Bm) & A1 & A2 & A3 & A4 & A5 & A6) run.
  set (M0 := store M msg (map n2b [0; 17; 34])).
  assert (L3 : forall X, mem_top X = mem_top M -> legal X (CKeygen pub priv)).
  { intros X E. unfold legal, null_or_struct. rewrite E. split; [right; exact Bp|]. split; [right; exact Bs|exact A1]. }
  assert (LS : forall X, mem_top X = mem_top M -> legal X (CSign msg 3 priv sg)).
  { intros X E. unfold legal, null_or_struct, readable. rewrite E. change (Z.to_N 3) with 3.
    split; [right; exact Bs|]. split; [right; exact Bg|]. split; [exact A3|]. right.
    split; [split; [exact Nm|split; [lia|split; [exact Bm|exact small_len]]]|]. split; [exact A5|exact A6]. }
  assert (LV : forall X, mem_top X = mem_top M -> legal X (CVerify msg 3 pub sg)).
  { intros X E. unfold legal, null_or_struct, readable. rewrite E. change (Z.to_N 3) with 3.
    split; [right; exact Bp|]. split; [right; exact Bg|]. split; [exact A2|].
    split; [split; [exact Nm|split; [lia|split; [exact Bm|exact small_len]]]|]. split; [exact A4|exact A6]. }
  assert (T0 : mem_top M0 = mem_top M) by reflexivity.
  assert (Lm : load M0 msg 3 = map n2b [0; 17; 34]) by (apply (load_store M msg (map n2b [0; 17; 34]))).
  (* key generation *)
  assert (KG : forall a b c g1 g2 g3, gives os g 16 a g1 -> gives os g1 16 b g2 -> gives os g2 16 c g3 ->
            exists M1, c_step os g M0 (CKeygen pub priv) = (g3, FReturn 0 M1) /\ mem_top M1 = mem_top M /\
              load M1 msg 3 = map n2b [0; 17; 34] /\
              c_history os g M0 g3 M1 [(load M1 pub 32, load M1 priv 64)] [] /\
              exists pk sk, key_pair SHA2_128f pk sk /\ pk_typed SHA2_128f pk /\ result (pk_into_bytes (param_set SHA2_128f) pk) = Val (load M1 pub 32)).
  { intros a b c g1 g2 g3 G1 G2 G3.
    destruct (named_c_call_results T P os g M0) as [K _].
    destruct (proj2 (proj2 (K pub priv (L3 M0 T0)) Np Ns) _ _ _ _ _ _ G1 G2 G3) as (M1 & E1 & F1).
    destruct (step_effect _ _ _ _ _ _ _ (L3 M0 T0) E1) as (_ & T1 & Ch & _).
    exists M1. split; [exact E1|]. split; [exact T1|]. split; [|split].
    - rewrite <- Lm. apply load_ext. intros x Lx.
      destruct (Byte.byte_eq_dec (mem_at M1 x) (mem_at M0 x)) as [Y|Y]; [exact Y|].
      exfalso. destruct (Ch x Y) as [_ B]. unfold apart in A4, A5. lia.
    - pose proof (c_next os g M0 g M0 [] [] _ _ _ _ (c_start os g M0) (L3 M0 T0) E1) as H1.
      cbn [new_keys new_issues app] in H1. change (SLH_DSA_OK =? 0) with true in H1. cbn iota in H1. exact H1.
    - destruct (prop_keygen_draws T P SHA2_128f os g) as (_ & _ & _ & KD).
      destruct (KD _ _ _ _ _ _ G1 G2 G3) as (pk & sk & E & _ & _ & X).
      destruct (proj2 (proj2 (prop_output_sizes T P SHA2_128f)) os g pk sk E) as [Tp Ts].
      exists pk, sk. split; [exact (kp_generated SHA2_128f os g pk sk E)|]. split; [exact Tp|].
      rewrite F1 in X. unfold exported in X.
      destruct (result (sk_into_bytes (param_set SHA2_128f) sk)) as [SK| |]; [|discriminate X..].
      destruct (result (pk_into_bytes (param_set SHA2_128f) pk)) as [PK| |]; [|discriminate X..].
      apply some_inj, pair_equal_spec in X. destruct X as [_ ->]. reflexivity. }
  set (nulls :=
    check (fun g M => c_step os g M (CKeygen pub 0)) (N.eqb HEADER_NULL_PTR_ERROR) (
    check (fun g M => c_step os g M (CKeygen 0 priv)) (N.eqb HEADER_NULL_PTR_ERROR) (
    check (fun g M => c_step os g M (CSign 0 3 priv sg)) (N.eqb HEADER_NULL_PTR_ERROR) (
    check (fun g M => c_step os g M (CSign msg 3 0 sg)) (N.eqb HEADER_NULL_PTR_ERROR) (
    check (fun g M => c_step os g M (CSign msg 3 priv 0)) (N.eqb HEADER_NULL_PTR_ERROR) (
    fun g M => (g, FReturn 0 M)))))) : rng_st os -> cmem -> rng_st os * ffi_result cmem).
  set (sign_on := check (fun g M => c_step os g M (CSign msg 3 priv sg)) (N.eqb 0) (
    check (fun g M => c_step os g M (CVerify msg 3 pub sg)) (N.eqb 0) (
    check (fun g M => c_step os g M (CStore msg (n2b 99))) (fun _ => true) (
    check (fun g M => c_step os g M (CVerify msg 3 pub sg)) (N.eqb HEADER_VERIFY_ERROR) nulls)))).
  assert (RUN : run = check (fun g M => c_step os g M (CKeygen pub priv)) (N.eqb 0) sign_on g M0) by reflexivity.
  clearbody run.
  (* the calls with null pointers *)
  assert (NULLS : forall g X, mem_top X = mem_top M -> exists X', nulls g X = (g, FReturn 0 X')).
  { intros h X E.
    assert (L1 : forall Y, mem_top Y = mem_top M -> legal Y (CKeygen pub 0)).
    { intros Y EY. unfold legal, null_or_struct, apart. rewrite EY. split; [right; exact Bp|]. split; [left; reflexivity|lia]. }
    assert (L2 : forall Y, mem_top Y = mem_top M -> legal Y (CKeygen 0 priv)).
    { intros Y EY. unfold legal, null_or_struct, apart. rewrite EY. split; [left; reflexivity|]. split; [right; exact Bs|lia]. }
    assert (L4 : forall Y, mem_top Y = mem_top M -> legal Y (CSign 0 3 priv sg)).
    { intros Y EY. unfold legal, null_or_struct. rewrite EY. split; [right; exact Bs|]. split; [right; exact Bg|].
      split; [exact A3|]. left. reflexivity. }
    assert (L5 : forall Y, mem_top Y = mem_top M -> legal Y (CSign msg 3 0 sg)).
    { intros Y EY. destruct (LS Y EY) as (_ & G & _ & [Z|(R & _ & G2)]); [contradiction|]. unfold legal.
      split; [left; reflexivity|]. split; [exact G|]. split; [left; reflexivity|]. right.
      split; [exact R|]. split; [unfold apart; lia|exact G2]. }
    assert (L6 : forall Y, mem_top Y = mem_top M -> legal Y (CSign msg 3 priv 0)).
    { intros Y EY. destruct (LS Y EY) as (G & _ & _ & [Z|(R & G2 & _)]); [contradiction|]. unfold legal.
      split; [exact G|]. split; [left; reflexivity|]. split; [unfold apart; lia|]. right.
      split; [exact R|]. split; [exact G2|unfold apart; lia]. }
    assert (KN : forall a b Y, legal Y (CKeygen a b) -> a = 0 \/ b = 0 -> mem_top Y = mem_top M ->
              exists Y', c_step os h Y (CKeygen a b) = (h, FReturn 1 Y') /\ mem_top Y' = mem_top M).
    { intros a b Y LY Z EY. destruct (proj1 (proj1 (named_c_call_results T P os h Y) a b LY) Z) as [Y' EY'].
      exists Y'. split; [exact EY'|]. destruct (step_effect _ _ _ _ _ _ _ LY EY') as (_ & TY & _). rewrite TY. exact EY. }
    assert (SN : forall a b c Y, legal Y (CSign a 3 b c) -> a = 0 \/ b = 0 \/ c = 0 -> mem_top Y = mem_top M ->
              exists Y', c_step os h Y (CSign a 3 b c) = (h, FReturn 1 Y') /\ mem_top Y' = mem_top M).
    { intros a b c Y LY Z EY. destruct (named_c_call_results T P os h Y) as (_ & S & _). specialize (S a 3%Z b c LY). cbv zeta in S.
      destruct (Fips205.slh_keygen_internal _ _ _ _ _) as [SK PK]. destruct S as [S _]. destruct (S Z) as [Y' EY'].
      exists Y'. split; [exact EY'|]. destruct (step_effect _ _ _ _ _ _ _ LY EY') as (_ & TY & _). rewrite TY. exact EY. }
    destruct (KN pub 0 X (L1 X E) (or_intror eq_refl) E) as (X1 & E1 & T1).
    destruct (KN 0 priv X1 (L2 X1 T1) (or_introl eq_refl) T1) as (X2 & E2 & T2).
    destruct (SN 0 priv sg X2 (L4 X2 T2) (or_introl eq_refl) T2) as (X3 & E3 & T3).
    destruct (SN msg 0 sg X3 (L5 X3 T3) (or_intror (or_introl eq_refl)) T3) as (X4 & E4 & T4).
    destruct (SN msg priv 0 X4 (L6 X4 T4) (or_intror (or_intror eq_refl)) T4) as (X5 & E5 & T5).
    exists X5. unfold nulls. rewrite (check_pass _ _ _ _ _ _ _ _ _ E1 eq_refl).
    rewrite (check_pass _ _ _ _ _ _ _ _ _ E2 eq_refl).
    rewrite (check_pass _ _ _ _ _ _ _ _ _ E3 eq_refl).
    rewrite (check_pass _ _ _ _ _ _ _ _ _ E4 eq_refl).
    rewrite (check_pass _ _ _ _ _ _ _ _ _ E5 eq_refl). reflexivity. }
  assert (OK : forall bs g', answers os 16 g bs g' -> nlen bs = 4 ->
       (exists M', run = (g', FReturn 0 M')) \/
       (exists M' pk sk, run = (g', FReturn 1 M') /\ key_pair SHA2_128f pk sk /\
          accepted_for_two SHA2_128f pk (Fips205.pure_M' (map n2b [0; 17; 34]) []) (Fips205.pure_M' (map n2b [99; 17; 34]) []))).
  { intros bs g' A L. destruct (answers_four _ _ _ _ _ A L) as (a & b & c & d & g1 & g2 & g3 & _ & G1 & G2 & G3 & G4).
    destruct (KG a b c g1 g2 g3 G1 G2 G3) as (M1 & E1 & T1 & Lm1 & H1 & pk & sk & KP & Tp & Epk).
    rewrite (check_pass _ _ _ _ _ _ _ _ _ E1 eq_refl) in RUN.
    destruct (prop_c_program_histories _ _ _ _ _ _ _ _ _ H1) as (_ & F1 & _ & S1).
    destruct (S1 _ _ (or_introl eq_refl) msg 3%Z priv sg (LS M1 T1) Nm Ns Ng eq_refl) as (Ep & _ & Sg).
    destruct (Sg _ _ G4) as (M2 & E2).
    pose proof (c_next os g M0 _ _ _ _ _ _ _ _ H1 (LS M1 T1) E2) as H2.
    cbn [new_keys new_issues app] in H2. change (0 =? 0) with true in H2. cbn iota in H2.
    destruct (F1 _ _ _ _ (LS M1 T1) E2) as (_ & T2 & Ch). rewrite T1 in T2. cbn [may_change] in Ch.
    assert (Same : forall a n, apart a n sg 17088 -> a <> 0 -> load M2 a n = load M1 a n).
    { intros x n Ap Nx. apply load_ext. intros y Ly. destruct (Byte.byte_eq_dec (mem_at M2 y) (mem_at M1 y)) as [Y|Y]; [exact Y|].
      exfalso. destruct (Ch y Y) as [_ B]. unfold apart in Ap. lia. }
    assert (Lm2 : load M2 msg 3 = map n2b [0; 17; 34]) by (rewrite (Same msg 3 A6 Nm); exact Lm1).
    assert (Lp2 : load M2 pub 32 = load M1 pub 32) by (exact (Same pub 32 A2 Np)).
    unfold sign_on in RUN. rewrite (check_pass _ _ _ _ _ _ _ _ _ E2 eq_refl) in RUN.
    destruct (prop_c_program_histories _ _ _ _ _ _ _ _ _ H2) as (_ & _ & V2 & _).
    pose proof (V2 _ _ _ (or_introl eq_refl) msg 3%Z pub sg (LV M2 T2) Np Ng) as E3.
    change (Z.to_N 3) with 3 in E3. rewrite Ep, Lm1 in E3. specialize (E3 Lp2 Lm2 eq_refl).
    rewrite (check_pass _ _ _ _ _ _ _ _ _ E3 eq_refl) in RUN.
    set (M3 := store M2 msg [n2b 99]) in *.
    assert (E4 : c_step os g' M2 (CStore msg (n2b 99)) = (g', FReturn 0 M3)) by reflexivity.
    rewrite (check_pass _ _ _ _ _ _ _ _ _ E4 eq_refl) in RUN.
    assert (T3 : mem_top M3 = mem_top M) by exact T2.
    assert (Lp3 : load M3 pub 32 = load M1 pub 32).
    { rewrite <- Lp2. apply load_store_apart. change (nlen [n2b 99]) with 1. unfold apart in A4. lia. }
    assert (Ls3 : load M3 sg 17088 = load M2 sg 17088).
    { apply load_store_apart. change (nlen [n2b 99]) with 1. unfold apart in A6. lia. }
    assert (Lm3 : load M3 msg 3 = map n2b [99; 17; 34]).
    { assert (D : forall X, load X msg 3 = load X msg 1 ++ load X (msg + 1) 2).
      { intros X. unfold load. change (N.to_nat 3) with 3%nat. change (N.to_nat 1) with 1%nat. change (N.to_nat 2) with 2%nat.
        cbn [seq map app]. rewrite N.add_0_r. change (N.of_nat 1) with 1. change (N.of_nat 2) with 2. change (N.of_nat 0) with 0.
        rewrite !N.add_0_r. replace (msg + 1 + 1) with (msg + 2) by lia. reflexivity. }
      rewrite D. rewrite D in Lm2. unfold M3 at 1. change 1 with (nlen [n2b 99]) at 1. rewrite load_store.
      assert (R : load M3 (msg + 1) 2 = load M2 (msg + 1) 2).
      { apply load_store_apart. change (nlen [n2b 99]) with 1. lia. }
      rewrite R. apply (f_equal (skipn 1)) in Lm2.
      change (skipn 1 (load M2 msg 1 ++ load M2 (msg + 1) 2)) with (load M2 (msg + 1) 2) in Lm2. rewrite Lm2. reflexivity. }
    assert (Tsg : nlen (load M2 sg 17088) = sig_size SHA2_128f) by apply nlen_load.
    pose proof (fun m sg0 => prop_verify_is_fips T P SHA2_128f pk _ m sg0 [] Tp Epk) as VF.
    remember (load M2 sg 17088) as sb eqn:Esb. symmetry in Esb.
    assert (V1 : Fips205.slh_verify (fips_params SHA2_128f) (fips_hash SHA2_128f) (map n2b [0; 17; 34]) sb [] (load M1 pub 32) = true).
    { pose proof (verify_step os g' M2 msg pub sg _ _ _ (LV M2 T2) Np Ng Lm2 Esb Lp2) as Q.
      rewrite E3 in Q. apply pair_equal_spec in Q. destruct Q as [_ Q]. apply ret_inv in Q. destruct Q as [Q _].
      revert Q. destruct (Fips205.slh_verify _ _ _ _ _ _); [reflexivity|]. intros Q. discriminate Q. }
    pose proof (verify_step os g' M3 msg pub sg _ _ _ (LV M3 T3) Np Ng Lm3 Ls3 Lp3) as E5.
    pose proof (VF (map n2b [0; 17; 34]) sb Tsg) as W1. rewrite V1 in W1.
    pose proof (VF (map n2b [99; 17; 34]) sb Tsg) as W2.
    destruct (Fips205.slh_verify (fips_params SHA2_128f) (fips_hash SHA2_128f) (map n2b [99; 17; 34]) sb [] (load M1 pub 32)).
    - right. rewrite (check_fail _ _ _ _ _ _ _ _ _ E5 eq_refl) in RUN.
      exists M3, pk, sk. split; [exact RUN|]. split; [exact KP|].
      refine (two_accepted SHA2_128f pk _ _ sb _ _ _ (accepts_pure SHA2_128f pk _ sb [] Tsg W1) (accepts_pure SHA2_128f pk _ sb [] Tsg W2)).
      intros E. apply (f_equal (fun l => nth 2 l (n2b 0))) in E. vm_compute in E. discriminate E.
    - left. rewrite (check_pass _ _ _ _ _ _ _ _ _ E5 eq_refl) in RUN.
      destruct (NULLS g' M3 T3) as [X E]. exists X. rewrite RUN. exact E. }
  assert (BAD : fails_within os 16 4 g -> exists g' M', run = (g', FReturn 1 M')).
  { intros F. destruct (fails_four _ _ _ F) as [K|(a & b & c & g1 & g2 & g3 & G1 & G2 & G3 & R)].
    - destruct (proj1 (proj2 (proj1 (named_c_call_results T P os g M0) pub priv (L3 M0 T0)) Np Ns) K) as (g' & M' & E).
      exists g', M'. rewrite RUN. apply (check_fail _ _ _ _ _ _ _ _ _ E eq_refl).
    - destruct (KG a b c g1 g2 g3 G1 G2 G3) as (M1 & E1 & T1 & Lm1 & H1 & _).
      rewrite (check_pass _ _ _ _ _ _ _ _ _ E1 eq_refl) in RUN.
      destruct (prop_c_program_histories _ _ _ _ _ _ _ _ _ H1) as (_ & _ & _ & S1).
      destruct (S1 _ _ (or_introl eq_refl) msg 3%Z priv sg (LS M1 T1) Nm Ns Ng eq_refl) as (_ & Sr & _).
      destruct (Sr R) as (g' & M' & E). exists g', M'. rewrite RUN. unfold sign_on.
      apply (check_fail _ _ _ _ _ _ _ _ _ E eq_refl). }
  split; [exact OK|]. split; [exact BAD|]. intros NP.
  destruct (answers_or_fails os 16 4 NP g) as [(bs & g' & A & L)|F].
  - destruct (OK _ _ A L) as [[M' E]|(M' & pk & sk & E & _)]; [exists g', 0, M'|exists g', 1, M']; exact E.
  - destruct (BAD F) as (g' & M' & E). exists g', 1, M'. exact E.
Qed.

(** *** fips205.py *)
Lemma content_at H l k : content (H ++ l) (nlen H + k) = nth_error l (N.to_nat k).
Proof.
  unfold content. rewrite nth_error_app2; unfold nlen; [|lia]. f_equal. lia.
Qed.

Lemma py_then_ret {os : Rng} {A} g H v (k : rng_st os -> heap -> py_ret -> py_result A) st :
  st = (g, H, PyReturn v) -> py_then st k = k g H v.
Proof. intros ->. reflexivity. Qed.
Lemma py_then_raise {os : Rng} {A} (k : rng_st os -> heap -> py_ret -> py_result A) st :
  snd st = PyRaise -> py_then st k = PyRaise.
Proof. destruct st as [[g H] r]. cbn. intros ->. reflexivity. Qed.

Section PyMain.
Context {T : Target} {P : Prims} {W : Wide} (os : Rng) (g : rng_st os) (H : heap).
Definition msg3 : bytes := map n2b [1; 2; 3].

(** after key generation and the creation of the message *)
Lemma py_keyed a b c g1 g2 g3 : gives os g 16 a g1 -> gives os g1 16 b g2 -> gives os g2 16 c g3 ->
  exists PK SK objs,
    Fips205.slh_keygen_internal (fips_params SHA2_128f) (fips_hash SHA2_128f) a b c = (SK, PK) /\
    py_step os g H PKeygen = (g3, H ++ [PK; SK], PyReturn (RPair (PubObj (VBytes (nlen H))) (PrivObj (VBytes (nlen H + 1))))) /\
    py_history os g H g3 (H ++ [PK; SK; msg3]) objs [(PK, SK)] [] /\
    In (PubObj (VBytes (nlen H))) objs /\ In (PrivObj (VBytes (nlen H + 1))) objs.
Proof.
  intros G1 G2 G3. destruct (prop_python_object_calls T P W os g H) as (_ & _ & K & _).
  destruct (K _ _ _ _ _ _ G1 G2 G3) as (PK & SK & F & E). clear K.
  pose proof (py_next os g H g H [] [] [] PKeygen _ _ _ (py_start os g H) I E (or_introl (ex_intro _ _ eq_refl))) as H1.
  cbn [new_objs app] in H1. change (new_issued H (H ++ [PK; SK]) PKeygen _ ++ []) with (@nil (bytes * bytes * bytes)) in H1.
  unfold new_pairs in H1. rewrite (content_at H [PK; SK] 1) in H1.
  replace (content (H ++ [PK; SK]) (nlen H)) with (Some PK) in H1 by (rewrite <- (N.add_0_r (nlen H)), content_at; reflexivity).
  change (nth_error [PK; SK] (N.to_nat 1)) with (Some SK) in H1. cbn [app] in H1.
  assert (E2 : py_step os g3 (H ++ [PK; SK]) (PNew msg3) = (g3, H ++ [PK; SK; msg3], PyReturn (RValue (VBytes (nlen H + 2))))).
  { cbn [py_step alloc]. rewrite <- app_assoc, nlen_app. reflexivity. }
  pose proof (py_next os g H _ _ _ _ _ (PNew msg3) _ _ _ H1 I E2 (or_introl (ex_intro _ _ eq_refl))) as H2.
  cbn [new_objs new_pairs new_issued app] in H2.
  exists PK, SK. eexists. split; [exact F|]. split; [exact E|]. split; [exact H2|].
  split; [left; reflexivity|right; left; reflexivity].
Qed.

Lemma msg3_fit : nlen msg3 < 2 ^ 31 /\ nlen msg3 < 2 ^ usize_bits.
Proof. split; [reflexivity|]. exact small_len. Qed.

Lemma py_main_keyed a b c g1 g2 g3 : gives os g 16 a g1 -> gives os g1 16 b g2 -> gives os g2 16 c g3 ->
  (refuses os g3 16 -> py_main os g H = PyRaise) /\
  (forall d g4, gives os g3 16 d g4 ->
     exists PK SK, Fips205.slh_keygen_internal (fips_params SHA2_128f) (fips_hash SHA2_128f) a b c = (SK, PK) /\
       py_main os g H = PyReturn ("True" ++ newline ++ ("<slh_dsa_sha2_128f public key: " ++ hex PK ++ ">") ++ newline ++
                                  ("<slh_dsa_sha2_128f private key: " ++ hex SK ++ ">"))%string).
Proof.
  intros G1 G2 G3. destruct (py_keyed a b c g1 g2 g3 G1 G2 G3) as (PK & SK & objs & F & E & Hi & Ip & Is).
  assert (E2 : py_step os g3 (H ++ [PK; SK]) (PNew msg3) = (g3, H ++ [PK; SK; msg3], PyReturn (RValue (VBytes (nlen H + 2))))).
  { cbn [py_step alloc]. rewrite <- app_assoc, nlen_app. reflexivity. }
  destruct (prop_python_program_histories T P W _ _ _ _ _ _ _ _ Hi) as (_ & _ & _ & _ & S).
  destruct (S PK SK (or_introl eq_refl)) as [Eh Sg]. clear S.
  assert (Ne : nlen H + 1 <> nlen H + 2) by lia.
  destruct (Sg (nlen H + 2) (nlen H + 1) msg3 (content_at _ _ _) (content_at _ _ _) Ne (proj1 msg3_fit) (proj2 msg3_fit)) as (_ & Sr & Sd).
  unfold py_main. rewrite (py_then_ret _ _ _ _ _ E). cbv iota beta. rewrite (py_then_ret _ _ _ _ _ E2). cbv iota beta.
  split.
  - intros R. apply py_then_raise. exact (Sr R).
  - intros d g4 G4. destruct (Sd d g4 G4) as [sig E3]. exists PK, SK. split; [exact F|].
    rewrite (py_then_ret _ _ _ _ _ E3). cbv iota beta.
    assert (Q4 : nlen (H ++ [PK; SK; msg3]) = nlen H + 3) by (rewrite nlen_app; reflexivity).
    rewrite Q4 in E3 |- *. rewrite <- app_assoc in E3 |- *. cbn [app] in E3 |- *.
    assert (E4 : py_step os g4 (H ++ [PK; SK; msg3; sig]) (PNew msg3) =
                 (g4, H ++ [PK; SK; msg3; sig; msg3], PyReturn (RValue (VBytes (nlen H + 4))))).
    { cbn [py_step alloc]. rewrite <- app_assoc, nlen_app. reflexivity. }
    change (map n2b [1; 2; 3]) with msg3. rewrite (py_then_ret _ _ _ _ _ E4). cbv iota beta.
    (* history with the signature *)
    assert (Lg : py_legal (H ++ [PK; SK; msg3]) objs (PSign (PrivObj (VBytes (nlen H + 1))) (VBytes (nlen H + 2)))).
    { split; [exact Is|]. split.
      - intros i Q. assert (Qi : i = nlen H + 2) by congruence. subst i. rewrite Q4. lia.
      - intros i bs Q Eb. assert (Qi : i = nlen H + 2) by congruence. subst i. rewrite content_at in Eb.
        change (nth_error [PK; SK; msg3] (N.to_nat 2)) with (Some msg3) in Eb. apply some_inj in Eb. subst bs.
        split; [exact (proj1 msg3_fit)|]. split; [exact (proj2 msg3_fit)|]. cbn [data_of]. intros Q'. apply Ne.
        apply (f_equal (fun v => match v with VBytes i => i | _ => 0 end)) in Q'. exact Q'. }
    pose proof (py_next os g H _ _ _ _ _ _ _ _ _ Hi Lg E3 (or_introl (ex_intro _ _ eq_refl))) as H3.
    unfold new_issued in H3. rewrite !content_at in H3.
    change (nth_error [PK; SK; msg3] (N.to_nat 1)) with (Some SK) in H3. change (nth_error [PK; SK; msg3] (N.to_nat 2)) with (Some msg3) in H3.
    change (nth_error [PK; SK; msg3; sig] (N.to_nat 3)) with (Some sig) in H3. cbn [new_objs new_pairs app] in H3. rewrite Eh in H3.
    pose proof (py_next os g H _ _ _ _ _ (PNew msg3) _ _ _ H3 I E4 (or_introl (ex_intro _ _ eq_refl))) as H4.
    cbn [new_objs new_pairs new_issued app] in H4.
    destruct (prop_python_program_histories T P W _ _ _ _ _ _ _ _ H4) as (_ & _ & _ & V & _).
    assert (C0 : content (H ++ [PK; SK; msg3; sig; msg3]) (nlen H) = Some PK)
      by (rewrite <- (N.add_0_r (nlen H)), content_at; reflexivity).
    assert (C1 : content (H ++ [PK; SK; msg3; sig; msg3]) (nlen H + 1) = Some SK) by apply content_at.
    assert (N1 : nlen H <> nlen H + 4) by lia. assert (N2 : nlen H + 4 <> nlen H + 3) by lia.
    destruct (V PK msg3 sig (or_introl eq_refl) (nlen H) (nlen H + 4) (nlen H + 3) C0 (content_at _ _ _) (content_at _ _ _) N1 N2) as [_ E5].
    rewrite (py_then_ret _ _ _ _ _ E5). cbv iota beta.
    assert (E6 : py_step os g4 (H ++ [PK; SK; msg3; sig; msg3]) (PRepr (PubObj (VBytes (nlen H)))) =
                 (g4, H ++ [PK; SK; msg3; sig; msg3], PyReturn (RText ("<slh_dsa_sha2_128f public key: " ++ hex PK ++ ">")%string))).
    { cbn [py_step py_repr]. rewrite C0. reflexivity. }
    rewrite (py_then_ret _ _ _ _ _ E6). cbv iota beta.
    assert (E7 : py_step os g4 (H ++ [PK; SK; msg3; sig; msg3]) (PRepr (PrivObj (VBytes (nlen H + 1)))) =
                 (g4, H ++ [PK; SK; msg3; sig; msg3], PyReturn (RText ("<slh_dsa_sha2_128f private key: " ++ hex SK ++ ">")%string))).
    { cbn [py_step py_repr]. rewrite C1. reflexivity. }
    rewrite (py_then_ret _ _ _ _ _ E7). cbv iota beta. reflexivity.
Qed.
End PyMain.

Lemma hex_digits_spec b : hex_digits b = String (hex_digit (b2n b / 16)) (String (hex_digit (b2n b mod 16)) EmptyString).
Proof. destruct b; reflexivity. Qed.
Lemma in_hex_spec bs : in_hex bs = hex bs.
Proof.
  induction bs as [|b bs IH]; [reflexivity|]. unfold in_hex in *. cbn [List.fold_right hex]. rewrite IH, hex_digits_spec. reflexivity.
Qed.

Lemma named_python_main_prints :
  forall (T : Target) (P : Prims) (W : Wide) (os : Rng) (g : rng_st os) (H : heap),
    (forall a b c d g', answers os 16 g [a; b; c; d] g' ->
       let (SK, PK) := Fips205.slh_keygen_internal (fips_params SHA2_128f) (fips_hash SHA2_128f) a b c in
       py_main os g H = PyReturn ("True" ++ newline ++ ("<slh_dsa_sha2_128f public key: " ++ hex PK ++ ">") ++ newline ++
                                  ("<slh_dsa_sha2_128f private key: " ++ hex SK ++ ">"))%string) /\
    (fails_within os 16 4 g -> py_main os g H = PyRaise) /\
    (never_panics os -> (exists text, py_main os g H = PyReturn text) \/ py_main os g H = PyRaise).
Proof.
  intros T P W os g H.
  assert (BAD : fails_within os 16 4 g -> py_main os g H = PyRaise).
  { intros F. destruct (fails_four _ _ _ F) as [K|(a & b & c & g1 & g2 & g3 & G1 & G2 & G3 & R)].
    - destruct (prop_python_object_calls T P W os g H) as (_ & _ & _ & X & _).
      unfold py_main. apply py_then_raise. exact (X K).
    - exact (proj1 (py_main_keyed os g H a b c g1 g2 g3 G1 G2 G3) R). }
  assert (OK : forall a b c d g', answers os 16 g [a; b; c; d] g' ->
       let (SK, PK) := Fips205.slh_keygen_internal (fips_params SHA2_128f) (fips_hash SHA2_128f) a b c in
       py_main os g H = PyReturn ("True" ++ newline ++ ("<slh_dsa_sha2_128f public key: " ++ hex PK ++ ">") ++ newline ++
                                  ("<slh_dsa_sha2_128f private key: " ++ hex SK ++ ">"))%string).
  { intros a b c d g' A. destruct (answers_four _ _ _ _ _ A eq_refl) as (a' & b' & c' & d' & g1 & g2 & g3 & Q & G1 & G2 & G3 & G4).
    assert (Qa : a' = a) by congruence. assert (Qb : b' = b) by congruence. assert (Qc : c' = c) by congruence. subst a' b' c'.
    destruct (proj2 (py_main_keyed os g H a b c g1 g2 g3 G1 G2 G3) d' g' G4) as (PK & SK & F & E).
    rewrite F. exact E. }
  split; [exact OK|]. split; [exact BAD|]. intros NP.
  destruct (answers_or_fails os 16 4 NP g) as [(bs & g' & A & L)|F]; [left|right; exact (BAD F)].
  destruct (answers_four _ _ _ _ _ A L) as (a & b & c & d & g1 & g2 & g3 & Q & _). subst bs.
  pose proof (OK _ _ _ _ _ A) as E. destruct (Fips205.slh_keygen_internal _ _ a b c) as [SK PK]. eexists. exact E.
Qed.

Lemma prop_python_main_prints :
  forall (T : Target) (P : Prims) (W : Wide) (os : Rng) (g : rng_st os) (H : heap),
    (forall a b c d g', answers os 16 g [a; b; c; d] g' ->
       let (SK, PK) := Fips205.slh_keygen_internal (fips_params SHA2_128f) (fips_hash SHA2_128f) a b c in
       py_main os g H = PyReturn ("True" ++ line_end ++ ("<slh_dsa_sha2_128f public key: " ++ in_hex PK ++ ">") ++ line_end ++
                                  ("<slh_dsa_sha2_128f private key: " ++ in_hex SK ++ ">"))%string) /\
    (fails_within os 16 4 g -> py_main os g H = PyRaise) /\
    (never_panics os -> (exists text, py_main os g H = PyReturn text) \/ py_main os g H = PyRaise).
Proof.
  intros T P W os g H. destruct (named_python_main_prints T P W os g H) as [A B]. split; [|exact B].
  intros a b c d g' E. pose proof (A a b c d g' E) as X. clear A. destruct (Fips205.slh_keygen_internal _ _ a b c) as [SK PK].
  rewrite !in_hex_spec. exact X.
Qed.
