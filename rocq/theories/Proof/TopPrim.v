(** C67: second preimages and collisions are collisions of the standard hash functions. *)
From Verif Require Import Spec.Fips205 Spec.Fips205Hash.
From Verif Require Import Model.Api Proof.Facts Proof.HashP Proof.Fun Proof.SlhP Proof.SerP Proof.ApiP
  Proof.SpecFun Proof.SpecP Proof.HelpersP Spec.Vocab Proof.Summary Proof.TopFraming Spec.VocabForge Spec.VocabBind Spec.VocabPrim.
Import ListNotations.
Open Scope list_scope.
Open Scope N_scope.

Lemma toByte_0 k : toByte 0 k = nrepeat x00 k.
Proof. rewrite toByte_be. unfold nrepeat. apply be_bytes_0. Qed.

(** the crate's hash functions, by primitive and string *)
Lemma hash_value_prim {T : Target} {P : Prims} s kind seed a inp v : adrs_typed a ->
  hash_value s kind seed a inp v -> v = short_digest s kind (hashed_string s kind seed a inp).
Proof.
  intros Wa D. destruct (HASHERS_spec _ (param_PF s)) as [A B C E _ _ _].
  destruct D as [seed a x v D|seed a x y v D|seed a l v D|seed a l v D];
    [destruct (A seed a x Wa) as [V _]|destruct (B seed a x y Wa) as [V _]
    |destruct (C seed a l Wa) as [V _]|destruct (E seed a l Wa) as [V _]];
    rewrite V in D; injection D as <-; rewrite param_hf.
  all: unfold short_digest, hashed_string, primitive_of, fips_hash, adrs_bytes;
    change (f0 a ++ f1 a ++ f2 a ++ f3 a ++ f4 a ++ f5 a ++ f6 a ++ f7 a) with (flat a);
    cbn [concat]; rewrite ?app_nil_r.
  all: destruct (section_of s); cbn [F H T_l shake_fns sha2_cat1_fns sha2_cat35_fns];
    rewrite ?toByte_0; reflexivity.
Qed.

Lemma concat_lens (l l' : list bytes) : map nlen l = map nlen l' -> nlen (concat l) = nlen (concat l').
Proof.
  revert l'. induction l as [|x l IH]; intros [|y l'] E; cbn [map] in E; try discriminate; [reflexivity|].
  injection E as E1 E2. cbn [concat]. rewrite !nlen_app, E1, (IH _ E2). reflexivity.
Qed.

Lemma concat_diff (l l' : list bytes) : map nlen l = map nlen l' -> concat l = concat l' -> l = l'.
Proof.
  revert l'. induction l as [|x l IH]; intros [|y l'] E C; cbn [map] in E; try discriminate; [reflexivity|].
  injection E as E1 E2. cbn [concat] in C. apply app_inj_len in C; [|exact E1]. destruct C as [-> C].
  f_equal. apply IH; assumption.
Qed.

Lemma nlen_flat a : wf_adrs a -> nlen (flat a) = 32.
Proof. intros W. destruct W as (A & B & C & D & E & F & G & H'). unfold flat. rewrite !nlen_app. lia. Qed.
Lemma nlen_ADRSc a : wf_adrs a -> nlen (ADRSc (flat a)) = 22.
Proof. intros W. rewrite ADRSc_flat by exact W. open_adrs a W. reflexivity. Qed.

Lemma string_len s kind seed a1 a2 i1 i2 : adrs_typed a1 -> adrs_typed a2 -> map nlen i1 = map nlen i2 ->
  nlen (hashed_string s kind seed a1 i1) = nlen (hashed_string s kind seed a2 i2).
Proof.
  intros W1 W2 Lm. apply concat_lens in Lm. unfold hashed_string.
  change (adrs_bytes a1) with (flat a1). change (adrs_bytes a2) with (flat a2).
  destruct (primitive_of s kind); rewrite !nlen_app, Lm, ?nlen_ADRSc, ?nlen_flat by assumption; reflexivity.
Qed.

Lemma string_inj {T : Target} s kind seed a1 a2 i1 i2 : adrs_typed a1 -> adrs_typed a2 -> map nlen i1 = map nlen i2 ->
  hashed_string s kind seed a1 i1 = hashed_string s kind seed a2 i2 ->
  (result (to_22_bytes a1) = result (to_22_bytes a2) \/ result (to_32_bytes a1) = result (to_32_bytes a2)) /\ i1 = i2.
Proof.
  intros W1 W2 Lm E. unfold hashed_string in E.
  change (adrs_bytes a1) with (flat a1) in E. change (adrs_bytes a2) with (flat a2) in E.
  destruct (runs_to_22_bytes a1 W1) as [-> _]. destruct (runs_to_22_bytes a2 W2) as [-> _].
  destruct (runs_to_32_bytes a1 W1) as [-> _]. destruct (runs_to_32_bytes a2 W2) as [-> _].
  rewrite <- !ADRSc_flat by assumption.
  destruct (primitive_of s kind); do 2 try apply app_inv_head in E;
    apply app_inj_len in E; try (rewrite ?nlen_ADRSc, ?nlen_flat by assumption; reflexivity);
    destruct E as [E1 E2]; (split; [|apply concat_diff; assumption]); rewrite E1; auto.
Qed.

Lemma prop_collisions_are_standard :
  forall (T : Target) (P : Prims) (s : set_name) (run1 run2 : list event),
    (** every value of the hash functions is the beginning of a SHA-2 or SHAKE value of that string, *)
    (forall kind seed a input v, adrs_typed a -> hash_value s kind seed a input v ->
       v = short_digest s kind (hashed_string s kind seed a input)) /\
    (** so second preimages and collisions found in runs are collisions of SHA-2 or SHAKE *)
    (second_preimage s run1 run2 -> exists seed, standard_collision s seed run1 run2) /\
    (forall seed, collision s seed run1 run2 -> standard_collision s seed run1 run2).
Proof.
  intros T P s run1 run2. split; [intros; apply hash_value_prim; assumption|]. split.
  - intros (k & seed & a & i1 & i2 & v & W & I1 & I2 & Ne & Lm & V1 & V2). exists seed, k, a, a, i1, i2.
    split; [exact I1|]. split; [exact I2|]. cbv zeta. split; [|split].
    + intros E. apply string_inj in E; try assumption. apply Ne, E.
    + apply string_len; assumption.
    + rewrite <- (hash_value_prim _ _ _ _ _ _ W V1), <- (hash_value_prim _ _ _ _ _ _ W V2). reflexivity.
  - intros seed (k & a1 & a2 & i1 & i2 & v & W1 & W2 & I1 & I2 & Lm & Ne & V1 & V2). exists k, a1, a2, i1, i2.
    split; [exact I1|]. split; [exact I2|]. cbv zeta. split; [|split].
    + intros E. apply string_inj in E; try assumption. destruct E as [E1 E2].
      destruct Ne as [[N1 N2]|Ne]; [|exact (Ne E2)]. destruct E1 as [E1|E1]; [exact (N1 E1)|exact (N2 E1)].
    + apply string_len; assumption.
    + rewrite <- (hash_value_prim _ _ _ _ _ _ W1 V1), <- (hash_value_prim _ _ _ _ _ _ W2 V2). reflexivity.
Qed.
