(** C76: the known-answer tests. *)
From Coq Require Import String.
From Verif Require Import Spec.Fips205 Spec.Fips205Hash.
From Verif Require Import Model.Api Model.Examples Model.Kat Proof.Facts Proof.HelpersP Proof.SpecP Proof.HashP Proof.Fun Proof.WotsP
  Proof.SlhP Proof.SerP Proof.ApiP
  Proof.SpecFun Spec.Vocab Proof.Summary Proof.CallsP Proof.TopCorrect Proof.TopSer Proof.TopSafety Proof.TopKeys
  Proof.TopFips Proof.TopFuzz Proof.TopEx Spec.VocabKat.
Import ListNotations.
Open Scope list_scope.
Open Scope N_scope.

(** *** The loops *)
Section Loops.
Context {T : Target}.

Lemma result_assert b : result (assert_ b) = if b then Val tt else Panic PAssert.
Proof. unfold assert_. rewrite result_bind. destruct b; reflexivity. Qed.
Lemma result_assert_bind {A} b (k : M A) : result (assert_ b ;;; k) = if b then result k else Panic PAssert.
Proof. rewrite result_bind, result_assert. destruct b; reflexivity. Qed.

Lemma count_ok c d : c < 2 ^ 32 - 1 -> result (count_failure c) = Val d -> d = c + 1.
Proof.
  intros L. unfold count_failure. destruct (c =? 2 ^ 31 - 1) eqn:E.
  - apply N.eqb_eq in E. subst c. destruct overflow_checks; [discriminate|]. intros K. apply (f_equal (fun o => match o with Val x => x | _ => 0 end)) in K.
    symmetry. exact K.
  - change (2 ^ 32) with 4294967296 in *. intros K. apply (f_equal (fun o => match o with Val x => x | _ => 0 end)) in K.
    cbn [result ret snd] in K. unfold result, ret in K. cbn [snd] in K. rewrite N.mod_small in K by lia. symmetry. exact K.
Qed.

Context {A : Type}.

Lemma cases_pass (f : A -> M bool) l : forall c, (forall t, In t l -> result (f t) = Val true) ->
  result (kat_cases f l c) = Val c.
Proof.
  induction l as [|t l IH]; intros c K; [reflexivity|]. cbn [kat_cases].
  rewrite result_bind, (K t (or_introl eq_refl)). rewrite result_bind.
  change (result (ret c)) with (Val c). cbv iota. apply IH. intros u I. apply K. right. exact I.
Qed.

Lemma cases_count (f : A -> M bool) l : forall c c', c + nlen l < 2 ^ 32 -> result (kat_cases f l c) = Val c' ->
  c <= c' <= c + nlen l /\ (c' = c -> forall t, In t l -> result (f t) = Val true).
Proof.
  induction l as [|t l IH]; intros c c' L E.
  - cbn in E. assert (c' = c) by congruence. subst c'. rewrite nlen_nil. split; [lia|]. intros _ t [].
  - cbn [kat_cases] in E. rewrite nlen_cons in L |- *. rewrite result_bind in E.
    destruct (result (f t)) as [b|e|q] eqn:Ef; [|discriminate E..]. rewrite result_bind in E. destruct b.
    + change (result (ret c)) with (Val c) in E. cbv iota in E.
      destruct (IH c c' ltac:(lia) E) as [B K]. split; [lia|]. intros Ec u [<-|I]; [exact Ef|]. exact (K Ec u I).
    + destruct (result (count_failure c)) as [d|e|q] eqn:Ed; [|discriminate E..].
      apply count_ok in Ed; [|lia]. subst d. destruct (IH (c + 1) c' ltac:(lia) E) as [B K]. split; [lia|]. intros ->. exfalso. lia.
Qed.

Definition group_passes (f : Params -> bool -> A -> M bool) (g : kat_group A) : Prop :=
  forall p t, kat_params (kg_set g) = Some p -> In t (kg_tests g) -> result (f p (kg_deterministic g) t) = Val true.

Lemma groups_pass f l : forall c, (forall g, In g l -> group_passes f g) -> result (kat_groups f l c) = Val c.
Proof.
  induction l as [|g l IH]; intros c K; [reflexivity|]. cbn [kat_groups]. rewrite result_bind.
  pose proof (K g (or_introl eq_refl)) as Kg. unfold group_passes in Kg.
  destruct (kat_params (kg_set g)) as [p|].
  - rewrite cases_pass by (intros t I; apply Kg; [reflexivity|exact I]). apply IH. intros u I. apply K. right. exact I.
  - change (result (ret c)) with (Val c). cbv iota. apply IH. intros u I. apply K. right. exact I.
Qed.

Lemma groups_count f l : forall c c', c + nlen (flat_map kg_tests l) < 2 ^ 32 -> result (kat_groups f l c) = Val c' ->
  c <= c' <= c + nlen (flat_map kg_tests l) /\ (c' = c -> forall g, In g l -> group_passes f g).
Proof.
  induction l as [|g l IH]; intros c c' L E.
  - cbn in E. assert (c' = c) by congruence. subst c'. cbn [flat_map]. rewrite nlen_nil. split; [lia|]. intros _ g [].
  - cbn [kat_groups flat_map] in *. rewrite nlen_app in L |- *. rewrite result_bind in E.
    unfold group_passes. destruct (kat_params (kg_set g)) as [p|] eqn:Ep.
    + destruct (result (kat_cases (f p (kg_deterministic g)) (kg_tests g) c)) as [c1|e|q] eqn:Ec; [|discriminate E..].
      assert (L1 : c + nlen (kg_tests g) < 2 ^ 32) by lia. destruct (cases_count _ _ _ _ L1 Ec) as [B1 K1].
      destruct (IH c1 c' ltac:(lia) E) as [B2 K2].
      split; [lia|]. intros -> h [<-|I].
      * intros p' t Ep' It. rewrite Ep in Ep'. injection Ep' as <-. apply (K1 ltac:(lia) t It).
      * intros p' t Ep' It. exact (K2 ltac:(lia) h I p' t Ep' It).
    + change (result (ret c)) with (Val c) in E. cbv iota in E. destruct (IH c c' ltac:(lia) E) as [B2 K2].
      split; [lia|]. intros Ec h [<-|I] p' t Ep' It.
      * rewrite Ep in Ep'. discriminate.
      * exact (K2 Ec h I p' t Ep' It).
Qed.

Lemma run_kat_passes mode f (F : kat_file A) : case_count F < 2 ^ 32 ->
  (result (run_kat mode f (Some F)) = Val tt <-> labelled mode F /\ forall g, In g (kf_groups F) -> group_passes f g).
Proof.
  intros L. unfold run_kat, labelled. rewrite !result_assert_bind.
  destruct (String.eqb_spec (kf_algorithm F) "SLH-DSA"); [|split; [discriminate|tauto]].
  destruct (String.eqb_spec (kf_mode F) mode); [|split; [discriminate|tauto]].
  destruct (String.eqb_spec (kf_revision F) "FIPS205"); [|split; [discriminate|tauto]].
  rewrite result_bind. split.
  - intros E. split; [auto|].
    destruct (result (kat_groups f (kf_groups F) 0)) as [c|er|q] eqn:Eg; [|discriminate E..].
    rewrite result_assert in E. destruct (c =? 0) eqn:Ec; [|discriminate E]. apply N.eqb_eq in Ec. subst c.
    unfold case_count in L. assert (L1 : 0 + nlen (flat_map kg_tests (kf_groups F)) < 2 ^ 32) by lia.
    exact (proj2 (groups_count _ _ _ _ L1 Eg) eq_refl).
  - intros [_ K]. rewrite groups_pass by exact K. reflexivity.
Qed.

End Loops.

Lemma kat_params_spec name p : kat_params name = Some p <-> exists s, name = official_name s /\ p = param_set s.
Proof.
  split.
  - unfold kat_params.
    repeat match goal with |- context [String.eqb name ?x] => destruct (String.eqb_spec name x) as [->|_] end;
      intros E; try discriminate E; injection E as <-;
      [exists SHA2_128s|exists SHAKE_128s|exists SHA2_128f|exists SHAKE_128f|exists SHA2_192s|exists SHAKE_192s
      |exists SHA2_192f|exists SHAKE_192f|exists SHA2_256s|exists SHAKE_256s|exists SHA2_256f|exists SHAKE_256f];
      split; reflexivity.
  - intros (s & -> & ->). destruct s; reflexivity.
Qed.

Lemma run_kat_cases {T : Target} {A} mode f right (F : kat_file A) : case_count F < 2 ^ 32 ->
  (forall s d t, result (f (param_set s) d t) = Val true <-> right s d t) ->
  (result (run_kat mode f (Some F)) = Val tt <-> labelled mode F /\ all_cases F right).
Proof.
  intros L K. rewrite (run_kat_passes _ _ _ L). unfold all_cases, group_passes. split; intros [Lb C]; (split; [exact Lb|]).
  - intros g s t Ig En It. apply K. apply (C g Ig); [apply kat_params_spec; eauto|exact It].
  - intros g Ig p t Ep It. apply kat_params_spec in Ep. destruct Ep as (s & En & ->). apply K. exact (C g s t Ig En It).
Qed.

(** *** The cases *)
Section Cases.
Context {T : Target} {P : Prims} (s : set_name).
Notation p := (param_set s).
Notation n := (seed_bytes s).

Lemma result_branch b : result (branch b) = Val b.
Proof. reflexivity. Qed.
Lemma val_true (b : bool) : Val b = Val true <-> b = true.
Proof. split; congruence. Qed.
Lemma result_expect {A} (m : M A) : result (expect m) =
  match result m with Val a => Val a | Err _ => Panic PUnwrap | Panic q => Panic q end.
Proof. destruct m as [t [a|e|q]]; reflexivity. Qed.

Lemma vec_keygen a b c more :
  nlen a = n -> nlen b = n -> nlen c = n ->
  does (try_keygen_with_rng p VecRng) (a :: b :: c :: more) (key_of p a b c) more.
Proof.
  intros La Lb Lc. pose proof (keygen_is _ (param_PF s) (r := VecRng) (a :: b :: c :: more)) as D. unfold keygen_desc in D.
  cbv zeta in D. rewrite param_n in D. cbn [VecRng try_fill vec_fill] in D.
  rewrite La, N.eqb_refl in D. cbn [fst snd] in D. cbn [vec_fill] in D. rewrite Lb, N.eqb_refl in D. cbn [fst snd] in D.
  cbn [vec_fill] in D. rewrite Lc, N.eqb_refl in D. cbn [fst snd] in D. destruct D as (A & B & _). split; assumption.
Qed.

Lemma vec_keygen_bad (a b c : bytes) more :
  ~ (nlen a = n /\ nlen b = n /\ nlen c = n) -> exists q, call (try_keygen_with_rng p VecRng) (a :: b :: c :: more) = Panic q.
Proof.
  intros K. pose proof (keygen_is _ (param_PF s) (r := VecRng) (a :: b :: c :: more)) as D. unfold keygen_desc in D.
  cbv zeta in D. rewrite param_n in D. cbn [VecRng try_fill vec_fill] in D. unfold call.
  destruct (nlen a =? n) eqn:Ea; cbn [fst snd] in D; [|destruct D as (_ & D & _); rewrite D; eauto].
  cbn [vec_fill] in D.
  destruct (nlen b =? n) eqn:Eb; cbn [fst snd] in D; [|destruct D as (_ & D & _); rewrite D; eauto].
  cbn [vec_fill] in D.
  destruct (nlen c =? n) eqn:Ec; cbn [fst snd] in D; [|destruct D as (_ & D & _); rewrite D; eauto].
  apply N.eqb_eq in Ea, Eb, Ec. tauto.
Qed.

Lemma lens_dec (a b c : bytes) : {nlen a = n /\ nlen b = n /\ nlen c = n} + {~ (nlen a = n /\ nlen b = n /\ nlen c = n)}.
Proof.
  destruct (N.eq_dec (nlen a) n) as [A|A], (N.eq_dec (nlen b) n) as [B|B], (N.eq_dec (nlen c) n) as [C|C];
    ((left; tauto) || (right; tauto)).
Qed.

Lemma keygen_case_right d t : result (keygen_case p d t) = Val true <-> keygen_answer s d t.
Proof.
  unfold keygen_case, keygen_answer. destruct t as [a b c SK PK]. cbn [kt_sk_seed kt_sk_prf kt_pk_seed kt_sk kt_pk].
  rewrite result_bind, result_expect.
  change (result (snd (try_keygen_with_rng p VecRng [a; b; c]))) with (call (try_keygen_with_rng p VecRng) [a; b; c]).
  destruct (lens_dec a b c) as [(La & Lb & Lc)|K].
  - rewrite (proj1 (vec_keygen a b c [] La Lb Lc)). rewrite fips_keygen_eq.
    rewrite <- param_n in La, Lb, Lc.
    destruct (wf_key_of _ (param_PF s) a b c La Lb Lc) as [W1 W2]. rewrite param_n in La, Lb, Lc.
    destruct (key_of p a b c) as [pk sk]. cbn [fst snd] in *.
    rewrite result_bind, (proj1 (runs_pk_into_bytes _ (param_PF s) _ W1)).
    rewrite result_bind, (proj1 (runs_sk_into_bytes _ (param_PF s) _ W2)). rewrite result_branch.
    rewrite pair_equal_spec, val_true, andb_true_iff, !bytes_eqb_eq. tauto.
  - destruct (vec_keygen_bad a b c [] K) as [q E]. rewrite E. split; [discriminate|]. tauto.
Qed.

Lemma vec_sign sk m b : sk_typed s sk -> nlen b = n ->
  does (raw_sign p VecRng sk m true) [b] (sign_bytes p sk b m) [].
Proof.
  intros W L. pose proof (raw_sign_desc _ (param_PF s) (r := VecRng) [b] sk m true (typed_sk _ _ W)) as D.
  destruct D as (A & B & _). cbn [draw VecRng try_fill vec_fill] in A, B. rewrite param_n, L, N.eqb_refl in A, B.
  cbn [fst snd] in A, B. rewrite concat1 in B. split; assumption.
Qed.

Lemma vec_sign_bad sk m b : sk_typed s sk -> nlen b <> n -> exists q, call (raw_sign p VecRng sk m true) [b] = Panic q.
Proof.
  intros W L. pose proof (raw_sign_desc _ (param_PF s) (r := VecRng) [b] sk m true (typed_sk _ _ W)) as D.
  destruct D as (_ & B & _). cbn [draw VecRng try_fill vec_fill] in B. rewrite param_n in B.
  apply N.eqb_neq in L. rewrite L in B. cbn [snd] in B. unfold call. rewrite B. eauto.
Qed.

Lemma vec_sign_det sk m : sk_typed s sk -> call (raw_sign p VecRng sk m false) [] = Val (sign_bytes p sk (sk_pk_seed sk) m).
Proof.
  intros W. pose proof (raw_sign_desc _ (param_PF s) (r := VecRng) [] sk m false (typed_sk _ _ W)) as D.
  destruct D as (_ & B & _). cbn [draw snd] in B. rewrite concat1 in B. exact B.
Qed.

(** a string is a private key of the standard exactly if it has the size of one and is consistent *)
Lemma standard_key bs :
  (exists a b c, nlen a = n /\ nlen b = n /\ nlen c = n /\
     fst (Fips205.slh_keygen_internal (fips_params s) (fips_hash s) a b c) = bs) <->
  nlen bs = cSK_LEN p /\ consistent p (sk_of_bytes p bs).
Proof.
  split.
  - intros (a & b & c & La & Lb & Lc & E). rewrite fips_keygen_eq in E. cbn [fst] in E. rewrite <- param_n in La, Lb, Lc.
    destruct (wf_key_of _ (param_PF s) a b c La Lb Lc) as [_ W]. subst bs.
    split; [apply nlen_sk_bytes; [apply param_PF|exact W]|]. rewrite sk_of_bytes_bytes by exact W. reflexivity.
  - intros [L C]. pose proof (wf_sk_of_bytes _ (param_PF s) bs L) as W. destruct W as (W1 & W2 & W3 & W4). rewrite param_n in *.
    exists (quarter s bs 0), (quarter s bs 1), (quarter s bs 2).
    rewrite quarters in W1, W2, W3. cbn [sk_seed sk_prf sk_pk_seed] in W1, W2, W3.
    split; [exact W1|]. split; [exact W2|]. split; [exact W3|]. apply (consistent_fips s bs L). exact C.
Qed.

Lemma sign_case_right d t : result (sign_case p d t) = Val true <-> sign_answer s d t.
Proof.
  unfold sign_case, sign_answer. destruct t as [SK b m sig]. cbn [st_sk st_randomness st_message st_signature].
  rewrite standard_key. rewrite result_bind. unfold into_array.
  destruct (nlen SK =? cSK_LEN p) eqn:L; [apply N.eqb_eq in L|apply N.eqb_neq in L; split; [discriminate|tauto]].
  change (result (ret SK)) with (Val SK). cbv iota. rewrite result_bind, result_expect.
  destruct (import_total _ (param_PF s) SK L) as [[V C]|[V C]]; rewrite V; [|split; [discriminate|tauto]].
  pose proof (wf_typed_sk _ _ (wf_sk_of_bytes _ (param_PF s) SK L)) as W.
  assert (E : result (sk_into_bytes p (sk_of_bytes p SK)) = Val SK).
  { rewrite (proj1 (runs_sk_into_bytes _ (param_PF s) _ (typed_sk _ _ W))).
    rewrite (sk_bytes_of_bytes _ (param_PF s) SK L). reflexivity. }
  rewrite (fips_sign_eq s _ SK m _ W E). rewrite result_bind. destruct d.
  - rewrite result_expect.
    change (result (snd (raw_sign p VecRng (sk_of_bytes p SK) m false []))) with (call (raw_sign p VecRng (sk_of_bytes p SK) m false) []).
    rewrite (vec_sign_det _ _ W). rewrite result_branch. set (X := sign_bytes _ _ _ _). clearbody X.
    rewrite val_true, bytes_eqb_eq. split; [|tauto]. intros K. split; [tauto|]. split; [discriminate|exact K].
  - rewrite result_expect.
    change (result (snd (raw_sign p VecRng (sk_of_bytes p SK) m true [b]))) with (call (raw_sign p VecRng (sk_of_bytes p SK) m true) [b]).
    destruct (N.eq_dec (nlen b) n) as [Lb|Lb].
    + rewrite (proj1 (vec_sign _ m b W Lb)). rewrite result_branch. set (X := sign_bytes _ _ _ _). clearbody X.
      rewrite val_true, bytes_eqb_eq. tauto.
    + destruct (vec_sign_bad _ m b W Lb) as [q Eq]. rewrite Eq. split; [discriminate|]. intros (_ & K & _).
      exfalso. apply Lb, K. reflexivity.
Qed.

Lemma result_catch m : result (catch_unwind m) = match result m with Val b => Val b | _ => Val false end.
Proof. destruct m as [t [b|e|q]]; reflexivity. Qed.

Lemma sig_size_formula : sig_size s =
  (1 + t_k (table2 s) * (1 + t_a (table2 s)) + t_h (table2 s) + t_d (table2 s) * (2 * t_n (table2 s) + 3)) * t_n (table2 s).
Proof. destruct s; reflexivity. Qed.

Lemma verify_wrong_size M SIG PK : nlen SIG <> sig_size s ->
  Fips205.slh_verify_internal (fips_params s) (fips_hash s) M SIG PK = false.
Proof.
  intros L. unfold Fips205.slh_verify_internal.
  match goal with |- (if negb (_ =? ?X) then _ else _) = _ => assert (EX : X = sig_size s) end.
  { destruct s; reflexivity. }
  rewrite EX. apply N.eqb_neq in L. rewrite L. reflexivity.
Qed.

Lemma verify_case_right d t : result (verify_case p d t) = Val true <-> verify_answer s d t.
Proof.
  unfold verify_case, verify_answer. destruct t as [pas PK m SIG]. cbn [vt_passed vt_pk vt_message vt_signature].
  rewrite result_bind, result_catch.
  assert (V : result (pkb <- into_array (cPK_LEN p) PK ;; pk <- expect (pk_try_from_bytes p pkb) ;;
                      sigb <- into_array (cSIG_LEN p) SIG ;; expect (raw_verify p pk m sigb)) =
              if (nlen PK =? pk_size s) && (nlen SIG =? sig_size s)
              then Val (Fips205.slh_verify_internal (fips_params s) (fips_hash s) m SIG PK) else Panic PUnwrap).
  { rewrite result_bind. unfold into_array. rewrite param_pk, param_sig.
    destruct (nlen PK =? pk_size s) eqn:L; [|reflexivity]. apply N.eqb_eq in L.
    change (result (ret PK)) with (Val PK). cbv iota. rewrite result_bind, result_expect.
    destruct (proj1 (prop_public_key_round_trip T P s) PK L) as (pk & E1 & W & E2).
    rewrite E1. rewrite result_bind. destruct (nlen SIG =? sig_size s) eqn:L2; [|reflexivity]. apply N.eqb_eq in L2.
    change (result (ret SIG)) with (Val SIG). cbv iota. rewrite result_expect.
    rewrite (prop_raw_verify_is_fips T P s pk PK m SIG W E2 L2). reflexivity. }
  rewrite V. clear V.
  destruct (nlen PK =? pk_size s) eqn:L1; [apply N.eqb_eq in L1|apply N.eqb_neq in L1].
  - destruct (nlen SIG =? sig_size s) eqn:L2; [apply N.eqb_eq in L2|apply N.eqb_neq in L2]; cbn [andb].
    + set (X := Fips205.slh_verify_internal _ _ _ _ _). clearbody X. rewrite result_branch, val_true, Bool.eqb_true_iff.
      destruct X, pas; intuition congruence.
    + rewrite (verify_wrong_size _ _ _ L2). rewrite result_branch, val_true, Bool.eqb_true_iff.
      destruct pas; intuition congruence.
  - cbn [andb]. rewrite result_branch, val_true, Bool.eqb_true_iff. clear - L1. destruct pas; intuition congruence.
Qed.
End Cases.

Lemma prop_acvp_tests_decide :
  forall (T : Target) (P : Prims),
    (forall f : kat_file keygen_test, case_count f < 2 ^ 32 ->
       (result (run_keygen_tests (Some f)) = Val tt <-> labelled "keyGen" f /\ all_cases f keygen_answer)) /\
    (forall f : kat_file sign_test, case_count f < 2 ^ 32 ->
       (result (run_signing_tests (Some f)) = Val tt <-> labelled "sigGen" f /\ all_cases f sign_answer)) /\
    (forall f : kat_file verify_test, case_count f < 2 ^ 32 ->
       (result (run_verification_tests (Some f)) = Val tt <-> labelled "sigVer" f /\ all_cases f verify_answer)) /\
    (result (run_keygen_tests None) = Panic PUnwrap /\ result (run_signing_tests None) = Panic PUnwrap /\
     result (run_verification_tests None) = Panic PUnwrap).
Proof.
  intros T P. split; [|split; [|split]].
  - intros f L. apply (run_kat_cases _ _ _ _ L). intros s d t. apply keygen_case_right.
  - intros f L. apply (run_kat_cases _ _ _ _ L). intros s d t. apply sign_case_right.
  - intros f L. apply (run_kat_cases _ _ _ _ L). intros s d t. apply verify_case_right.
  - repeat split; reflexivity.
Qed.

Lemma prop_vector_tests_decide :
  forall (T : Target) (P : Prims) (s : set_name) (m sk_seed sk_prf pk_seed opt_rand sig : bytes),
    let n := seed_bytes s in
    result (vector_test (param_set s) m sk_seed sk_prf pk_seed opt_rand sig) = Val tt <->
    nlen sk_seed = n /\ nlen sk_prf = n /\ nlen pk_seed = n /\ nlen opt_rand = n /\
    let (SK, PK) := Fips205.slh_keygen_internal (fips_params s) (fips_hash s) sk_seed sk_prf pk_seed in
    Fips205.slh_sign_internal (fips_params s) (fips_hash s) m SK (Some opt_rand) = sig.
Proof.
  intros T P s m a b c r sig n.
  unfold vector_test. match goal with |- context [snd (?f ?g)] => change (result (snd (f g))) with (call f g) end.
  rewrite call_rbind, call_unwrap, gen_unwrap. destruct (lens_dec s a b c) as [(La & Lb & Lc)|K].
  2: { destruct (vec_keygen_bad s a b c [r] K) as [q E]. rewrite E. split; [discriminate|]. intros (Q1 & Q2 & Q3 & _). exfalso. tauto. }
  destruct (vec_keygen s a b c [r] La Lb Lc) as [E1 E2]. rewrite E1, E2. rewrite fips_keygen_eq.
  rewrite <- param_n in La, Lb, Lc.
  destruct (wf_key_of _ (param_PF s) a b c La Lb Lc) as [W1 W2]. rewrite param_n in La, Lb, Lc.
  pose proof (kp_generated s VecRng _ _ _ (eq_trans E1 (f_equal Val (surjective_pairing _)))) as KP. clear E1 E2.
  destruct (key_of (param_set s) a b c) as [pk sk]. cbn [fst snd] in *.
  apply wf_typed_pk in W1. apply wf_typed_sk in W2.
  rewrite call_rbind, call_unwrap, gen_unwrap.
  destruct (N.eq_dec (nlen r) n) as [Lr|Lr].
  2: { destruct (vec_sign_bad s sk m r W2 Lr) as [q E]. rewrite E. split; [discriminate|tauto]. }
  destruct (vec_sign s sk m r W2 Lr) as [F1 F2]. rewrite F1, F2.
  assert (E : result (sk_into_bytes (param_set s) sk) = Val (sk_bytes sk))
    by (apply (runs_sk_into_bytes _ (param_PF s)), typed_sk, W2).
  rewrite (fips_sign_eq s sk _ m (Some r) W2 E).
  destruct (prop_raw_signatures_verify T P s pk sk KP VecRng [r] m true) as [V _].
  destruct (V _ F1) as [_ V1]. clear F1 F2 V.
  set (X := sign_bytes _ _ _ _) in *. clearbody X.
  rewrite call_rbind, call_rlift, result_assert. 
  destruct (nlen X =? nlen sig) eqn:EL; [|apply N.eqb_neq in EL; split; [discriminate|intros (_ & _ & _ & _ & Q); subst; exfalso; tauto]].
  rewrite call_rbind, call_rlift, result_assert.
  destruct (bytes_eqb X sig) eqn:EX; [apply bytes_eqb_eq in EX|apply bytes_eqb_neq in EX; split; [discriminate|tauto]].
  rewrite call_rbind, call_unwrap, call_rlift, V1, call_rlift, result_assert. tauto.
Qed.

(** a public key of the standard is not empty *)
Lemma standard_pk_nonempty : forall (T : Target) (P : Prims) s (a b c : bytes),
  nlen c = seed_bytes s -> snd (Fips205.slh_keygen_internal (fips_params s) (fips_hash s) a b c) <> [].
Proof.
  intros T P s a b c L. rewrite fips_keygen_eq. cbn [snd]. unfold pk_bytes, key_of. cbn [fst pk_seed].
  pose proof (seed_sizes s). destruct c; [rewrite nlen_nil in L; lia|discriminate].
Qed.
