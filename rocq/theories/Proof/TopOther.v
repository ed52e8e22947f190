(** Another implementation of FIPS 205. *)
From Coq Require Import String.
From Verif Require Import Spec.Fips205 Spec.Fips205Hash.
From Verif Require Import Model.Api Proof.HashP Proof.Honest Proof.SerP Proof.ApiP Spec.Vocab Spec.VocabConc Proof.Summary Proof.TopCorrect Proof.TopSafety
  Proof.TopKeys Proof.TopFips.
Import ListNotations.
Open Scope list_scope.
Open Scope N_scope.

Lemma ok_val {A} (o : outcome A) x : ok o = Some x -> o = Val x.
Proof. destruct o as [a|e|q]; cbn [ok]; [|discriminate..]. intros E. apply (f_equal (fun y => match y with Some z => z | None => a end)) in E. cbn in E. rewrite E. reflexivity. Qed.

Lemma val_eq {A} (x y : A) : Val x = Val y -> x = y.
Proof. intros E. apply (f_equal (fun o => match o with Val z => z | _ => x end)) in E. exact E. Qed.

Lemma script_addrnd s b : nlen b = seed_bytes s -> addrnd s script [Val b] true = Some (Some b).
Proof.
  intros L. unfold addrnd. cbn [try_fill script script_fill]. rewrite L, N.eqb_refl. reflexivity.
Qed.

Lemma signed_elsewhere {T : Target} {P : Prims} s pk sk SK m ctx rnd sig :
  key_pair s pk sk -> result (sk_into_bytes (param_set s) sk) = Val SK ->
  (forall b, rnd = Some (Some b) -> nlen b = seed_bytes s) ->
  Fips205.slh_sign (fips_params s) (fips_hash s) m ctx SK rnd = Some sig ->
  result (verify (param_set s) pk m sig ctx) = Val true.
Proof.
  intros K E L S. pose proof (wf_typed_sk _ _ (proj1 (key_pair_facts _ _ _ K))) as W.
  assert (C : nlen ctx <= 255).
  { unfold Fips205.slh_sign in S. destruct (255 <? nlen ctx) eqn:C; [discriminate S|]. apply N.ltb_ge in C. exact C. }
  assert (X : exists l hedged, addrnd s script l hedged = rnd).
  { destruct rnd as [[b|]|].
    - exists [Val b], true. apply script_addrnd, L. reflexivity.
    - unfold Fips205.slh_sign in S. destruct (255 <? nlen ctx); discriminate S.
    - exists [], false. reflexivity. }
  destruct X as (l & hedged & X). rewrite <- X in S.
  rewrite <- (prop_sign_is_fips T P s script l sk SK m ctx hedged W E) in S. apply ok_val in S.
  exact (proj2 (proj1 (prop_pure_signatures_verify T P s pk sk K script l m ctx hedged C) sig S)).
Qed.

Lemma hash_signed_elsewhere {T : Target} {P : Prims} s pk sk SK m ctx ph rnd sig :
  key_pair s pk sk -> result (sk_into_bytes (param_set s) sk) = Val SK ->
  (forall b, rnd = Some (Some b) -> nlen b = seed_bytes s) ->
  Fips205.hash_slh_sign (fips_params s) (fips_hash s) m ctx (PH_fn ph) SK rnd = Some sig ->
  result (hash_verify (param_set s) pk m sig ctx (ph_arg ph)) = Val true.
Proof.
  intros K E L S. pose proof (wf_typed_sk _ _ (proj1 (key_pair_facts _ _ _ K))) as W.
  assert (C : nlen ctx <= 255).
  { unfold Fips205.hash_slh_sign in S. destruct (255 <? nlen ctx) eqn:C; [discriminate S|]. apply N.ltb_ge in C. exact C. }
  assert (X : exists l hedged, addrnd s script l hedged = rnd).
  { destruct rnd as [[b|]|].
    - exists [Val b], true. apply script_addrnd, L. reflexivity.
    - unfold Fips205.hash_slh_sign in S. destruct (255 <? nlen ctx); [discriminate S|].
      destruct (PH_fn ph m); discriminate S.
    - exists [], false. reflexivity. }
  destruct X as (l & hedged & X). rewrite <- X in S.
  rewrite <- (prop_hash_sign_is_fips T P s script l sk SK m ctx ph hedged W E) in S. apply ok_val in S.
  exact (proj2 (proj1 (prop_prehash_signatures_verify T P s pk sk K script l m ctx ph hedged C) sig S)).
Qed.

Lemma pair_key_of {T : Target} {P : Prims} s pk sk :
  key_pair s pk sk -> key_of (param_set s) (sk_seed sk) (sk_prf sk) (sk_pk_seed sk) = (pk, sk).
Proof.
  intros K. destruct (key_pair_facts _ _ _ K) as [_ [C ->]]. unfold key_of, get_public_key. unfold consistent in C.
  destruct sk as [a b c d]. cbn [sk_seed sk_prf sk_pk_seed sk_pk_root] in *. rewrite C. reflexivity.
Qed.

Lemma prop_works_with_other_implementations :
  forall (T : Target) (P : Prims) (s : set_name),
    let other_keygen := Fips205.slh_keygen_internal (fips_params s) (fips_hash s) in
    let other_sign := Fips205.slh_sign (fips_params s) (fips_hash s) in
    let other_verify := Fips205.slh_verify (fips_params s) (fips_hash s) in
    let other_hash_sign := Fips205.hash_slh_sign (fips_params s) (fips_hash s) in
    let other_hash_verify := Fips205.hash_slh_verify (fips_params s) (fips_hash s) in
    (** a key pair made elsewhere *)
    (forall SKseed SKprf PKseed SK PK,
       nlen SKseed = seed_bytes s -> nlen SKprf = seed_bytes s -> nlen PKseed = seed_bytes s ->
       other_keygen SKseed SKprf PKseed = (SK, PK) ->
       exists pk sk, result (sk_try_from_bytes (param_set s) SK) = Val sk /\
         result (pk_try_from_bytes (param_set s) PK) = Val pk /\ key_pair s pk sk /\
         result (sk_into_bytes (param_set s) sk) = Val SK /\ result (pk_into_bytes (param_set s) pk) = Val PK) /\
    (** any key pair this library holds, and what it exports *)
    (forall pk sk SK PK, key_pair s pk sk ->
       result (sk_into_bytes (param_set s) sk) = Val SK -> result (pk_into_bytes (param_set s) pk) = Val PK ->
       (exists SKseed SKprf PKseed,
          nlen SKseed = seed_bytes s /\ nlen SKprf = seed_bytes s /\ nlen PKseed = seed_bytes s /\
          other_keygen SKseed SKprf PKseed = (SK, PK)) /\
       (** made there, checked here *)
       (forall m ctx rnd sig, (forall b, rnd = Some (Some b) -> nlen b = seed_bytes s) ->
          other_sign m ctx SK rnd = Some sig -> result (verify (param_set s) pk m sig ctx) = Val true) /\
       (forall m ctx ph rnd sig, (forall b, rnd = Some (Some b) -> nlen b = seed_bytes s) ->
          other_hash_sign m ctx (PH_fn ph) SK rnd = Some sig ->
          result (hash_verify (param_set s) pk m sig ctx (ph_arg ph)) = Val true) /\
       (** made here, checked there *)
       (forall (r : Rng) (g : rng_st r) m ctx hedged sig,
          call (try_sign_with_rng (param_set s) r sk m ctx hedged) g = Val sig -> other_verify m sig ctx PK = true) /\
       (forall (r : Rng) (g : rng_st r) m ctx ph hedged sig,
          call (try_hash_sign_with_rng (param_set s) r sk m ctx (ph_arg ph) hedged) g = Val sig ->
          other_hash_verify m sig ctx (PH_fn ph) PK = true)).
Proof.
  intros T P s. cbv zeta. pose proof (param_PF s) as HP. split.
  - intros a b c SK PK La Lb Lc E. rewrite fips_keygen_eq in E. apply pair_equal_spec in E. destruct E as [<- <-].
    rewrite <- param_n in *. destruct (wf_key_of _ HP a b c La Lb Lc) as [W1 W2].
    pose proof (nlen_sk_bytes _ HP _ W2) as L. exists (fst (key_of (param_set s) a b c)), (snd (key_of (param_set s) a b c)).
    assert (I : result (sk_try_from_bytes (param_set s) (sk_bytes (snd (key_of (param_set s) a b c)))) = Val (snd (key_of (param_set s) a b c))).
    { assert (R : sk_of_bytes (param_set s) (sk_bytes (snd (key_of (param_set s) a b c))) = snd (key_of (param_set s) a b c))
        by (apply sk_of_bytes_bytes; exact W2).
      assert (C : consistent (param_set s) (sk_of_bytes (param_set s) (sk_bytes (snd (key_of (param_set s) a b c))))) by (rewrite R; reflexivity).
      rewrite (proj1 (runs_sk_try_from_bytes _ HP _ L C)), R. reflexivity. }
    split; [exact I|]. split; [|split; [|split]].
    + apply wf_typed_pk in W1. destruct (proj2 (prop_public_key_round_trip T P s) _ W1) as (bs & E1 & _ & E2).
      rewrite (proj1 (runs_pk_into_bytes _ HP _ (typed_pk _ _ W1))) in E1.
      assert (X : pk_bytes (fst (key_of (param_set s) a b c)) = bs) by (exact (val_eq _ _ E1)).
      rewrite X. exact E2.
    + rewrite param_sk in L. exact (kp_imported s _ _ L I).
    + exact (proj1 (runs_sk_into_bytes _ HP _ W2)).
    + exact (proj1 (runs_pk_into_bytes _ HP _ W1)).
  - intros pk sk SK PK K ES EP. destruct (key_pair_facts _ _ _ K) as [W [_ EG]].
    pose proof (wf_typed_sk _ _ W) as TY.
    assert (TP : pk_typed s pk).
    { rewrite EG. split; [exact (proj1 (proj2 (proj2 TY)))|exact (proj2 (proj2 (proj2 TY)))]. }
    split; [|split; [|split; [|split]]].
    + exists (sk_seed sk), (sk_prf sk), (sk_pk_seed sk). destruct TY as (L1 & L2 & L3 & _).
      split; [exact L1|]. split; [exact L2|]. split; [exact L3|].
      rewrite fips_keygen_eq, (pair_key_of s pk sk K). cbn [fst snd].
      rewrite (proj1 (runs_sk_into_bytes _ HP _ W)) in ES. apply val_eq in ES.
      rewrite (proj1 (runs_pk_into_bytes _ HP _ (typed_pk _ _ TP))) in EP. apply val_eq in EP.
      rewrite ES, EP. reflexivity.
    + intros m ctx rnd sig L S. exact (signed_elsewhere s pk sk SK m ctx rnd sig K ES L S).
    + intros m ctx ph rnd sig L S. exact (hash_signed_elsewhere s pk sk SK m ctx ph rnd sig K ES L S).
    + intros r g m ctx hedged sig S.
      pose proof (prop_sign_is_fips T P s r g sk SK m ctx hedged TY ES) as F. rewrite S in F.
      assert (C : nlen ctx <= 255).
      { unfold Fips205.slh_sign in F. destruct (255 <? nlen ctx) eqn:C; [discriminate F|]. apply N.ltb_ge in C. exact C. }
      destruct (proj1 (prop_pure_signatures_verify T P s pk sk K r g m ctx hedged C) sig S) as [L V].
      rewrite (prop_verify_is_fips T P s pk PK m sig ctx TP EP L) in V. exact (val_eq _ _ V).
    + intros r g m ctx ph hedged sig S.
      pose proof (prop_hash_sign_is_fips T P s r g sk SK m ctx ph hedged TY ES) as F. rewrite S in F.
      assert (C : nlen ctx <= 255).
      { unfold Fips205.hash_slh_sign in F. destruct (255 <? nlen ctx) eqn:C; [discriminate F|]. apply N.ltb_ge in C. exact C. }
      destruct (proj1 (prop_prehash_signatures_verify T P s pk sk K r g m ctx ph hedged C) sig S) as [L V].
      rewrite (prop_hash_verify_is_fips T P s pk PK m sig ctx ph TP EP L) in V. exact (val_eq _ _ V).
Qed.

(** an instance, used in the example *)
Lemma other_toy (T : Target) (P : Prims) (m ctx : bytes) : nlen ctx <= 255 ->
  exists SK PK pk sk sig,
    let b := nrepeat (n2b 9) 24 in
    Fips205.slh_keygen_internal (fips_params SHAKE_192s) (fips_hash SHAKE_192s) b b b = (SK, PK) /\
    result (sk_try_from_bytes (param_set SHAKE_192s) SK) = Val sk /\
    result (sk_into_bytes (param_set SHAKE_192s) sk) = Val SK /\
    result (pk_try_from_bytes (param_set SHAKE_192s) PK) = Val pk /\
    Fips205.slh_sign (fips_params SHAKE_192s) (fips_hash SHAKE_192s) m ctx SK (Some (Some b)) = Some sig /\
    result (verify (param_set SHAKE_192s) pk m sig ctx) = Val true.
Proof.
  intros L. cbv zeta. set (b := nrepeat (n2b 9) 24). assert (LB : nlen b = seed_bytes SHAKE_192s) by apply nlen_nrepeat.
  clearbody b. destruct (Fips205.slh_keygen_internal (fips_params SHAKE_192s) (fips_hash SHAKE_192s) b b b) as [SK PK] eqn:E.
  destruct (prop_works_with_other_implementations T P SHAKE_192s) as [A B].
  destruct (A b b b SK PK LB LB LB E) as (pk & sk & I & J & K & ES & EP). clear A E.
  destruct (B pk sk SK PK K ES EP) as [_ [C _]].
  destruct (Fips205.slh_sign (fips_params SHAKE_192s) (fips_hash SHAKE_192s) m ctx SK (Some (Some b))) as [sig|] eqn:S.
  - exists SK, PK, pk, sk, sig. split; [reflexivity|]. split; [exact I|]. split; [exact ES|]. split; [exact J|]. split; [exact S|].
    apply (C m ctx (Some (Some b)) sig); [|exact S]. intros x Ex. injection Ex as <-. exact LB.
  - exfalso. unfold Fips205.slh_sign in S. destruct (255 <? nlen ctx) eqn:X; [|discriminate S]. apply N.ltb_lt in X. lia.
Qed.
