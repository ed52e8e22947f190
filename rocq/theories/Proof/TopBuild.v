(** C49: results do not depend on the build. *)
From Coq Require Import String.
From Verif Require Import Spec.Fips205 Spec.Fips205Hash.
From Verif Require Import Model.Api Proof.Facts Proof.HashP Proof.Fun Proof.SlhP Proof.SerP Proof.ApiP
  Proof.SpecFun Spec.Vocab Proof.Summary Proof.TopCorrect Proof.TopSafety Proof.TopFips Proof.TopKeys Proof.TopRandom Proof.CallsP.
Import ListNotations.
Open Scope list_scope.
Open Scope N_scope.

Lemma sign_desc_build (T1 T2 : Target) (P : Prims) p r g sk mp hedged x y :
  sign_desc (T := T1) p r g sk mp hedged x -> sign_desc (T := T2) p r g sk mp hedged y ->
  result (snd x) = result (snd y) /\ fst x = fst y.
Proof. intros [F1 [V1 _]] [F2 [V2 _]]. rewrite V1, V2, F1, F2. split; reflexivity. Qed.

Lemma keygen_build (T1 T2 : Target) (P : Prims) s r g :
  call (try_keygen_with_rng (T := T1) (param_set s) r) g = call (try_keygen_with_rng (T := T2) (param_set s) r) g /\
  gen_after (try_keygen_with_rng (T := T1) (param_set s) r) g = gen_after (try_keygen_with_rng (T := T2) (param_set s) r) g.
Proof.
  unfold call, gen_after.
  pose proof (@keygen_is T1 P _ (param_PF s) r g) as D1. pose proof (@keygen_is T2 P _ (param_PF s) r g) as D2.
  unfold keygen_desc in *. cbv zeta in *.
  destruct (try_fill r g (cN (param_set s))) as [g1 [a|e|q]]; cbn [fst snd] in *;
    [|destruct D1 as [-> [-> _]]; destruct D2 as [-> [-> _]]; split; reflexivity..].
  destruct (try_fill r g1 (cN (param_set s))) as [g2 [b|e|q]]; cbn [fst snd] in *;
    [|destruct D1 as [-> [-> _]]; destruct D2 as [-> [-> _]]; split; reflexivity..].
  destruct (try_fill r g2 (cN (param_set s))) as [g3 [c|e|q]]; cbn [fst snd] in *;
    destruct D1 as [-> [-> _]]; destruct D2 as [-> [-> _]]; split; reflexivity.
Qed.

Lemma prop_results_do_not_depend_on_build :
  forall (T1 T2 : Target) (P : Prims) (s : set_name) (r : Rng) (g : rng_st r) (sk : SlhPrivateKey)
         (pk : SlhPublicKey) (m ctx sig skb : bytes) (ph : prehash) (hedged : bool),
    sk_typed s sk -> pk_typed s pk -> nlen sig = sig_size s -> nlen skb = sk_size s ->
    let p := param_set s in
    let same {A} (f1 f2 : RM r A) := call f1 g = call f2 g /\ gen_after f1 g = gen_after f2 g in
    let eq {A} (f1 f2 : M A) := result f1 = result f2 in
    same (try_keygen_with_rng (T := T1) p r) (try_keygen_with_rng (T := T2) p r) /\
    same (try_sign_with_rng (T := T1) p r sk m ctx hedged) (try_sign_with_rng (T := T2) p r sk m ctx hedged) /\
    same (try_hash_sign_with_rng (T := T1) p r sk m ctx (ph_arg ph) hedged)
         (try_hash_sign_with_rng (T := T2) p r sk m ctx (ph_arg ph) hedged) /\
    same (raw_sign (T := T1) p r sk m hedged) (raw_sign (T := T2) p r sk m hedged) /\
    eq (verify (T := T1) p pk m sig ctx) (verify (T := T2) p pk m sig ctx) /\
    eq (hash_verify (T := T1) p pk m sig ctx (ph_arg ph)) (hash_verify (T := T2) p pk m sig ctx (ph_arg ph)) /\
    eq (raw_verify (T := T1) p pk m sig) (raw_verify (T := T2) p pk m sig) /\
    eq (sk_try_from_bytes (T := T1) p skb) (sk_try_from_bytes (T := T2) p skb) /\
    eq (sk_into_bytes (T := T1) p sk) (sk_into_bytes (T := T2) p sk).
Proof.
  intros T1 T2 P s r g sk pk m ctx sig skb ph hedged W Wp Ls Lk. cbv zeta. pose proof (param_PF s) as HP.
  pose proof (typed_sk _ _ W) as W'. rewrite <- param_sig in Ls. rewrite <- param_sk in Lk.
  split; [apply keygen_build|]. unfold call, gen_after.
  split; [|split; [|split; [|split; [|split; [|split; [|split]]]]]].
  - destruct (N.le_gt_cases (nlen ctx) 255) as [Hc|Hc].
    + eapply sign_desc_build; apply try_sign_desc; assumption.
    + rewrite !try_sign_long by exact Hc. split; reflexivity.
  - destruct (N.le_gt_cases (nlen ctx) 255) as [Hc|Hc].
    + eapply sign_desc_build; apply try_hash_sign_desc; assumption.
    + rewrite !try_hash_sign_long by exact Hc. split; reflexivity.
  - eapply sign_desc_build; apply raw_sign_desc; assumption.
  - destruct (N.le_gt_cases (nlen ctx) 255) as [Hc|Hc].
    + rewrite (proj1 (@runs_verify T1 P _ HP pk m sig ctx Hc Ls)), (proj1 (@runs_verify T2 P _ HP pk m sig ctx Hc Ls)). reflexivity.
    + rewrite (proj1 (@runs_verify_long T1 P _ pk m sig ctx Hc)), (proj1 (@runs_verify_long T2 P _ pk m sig ctx Hc)). reflexivity.
  - destruct (N.le_gt_cases (nlen ctx) 255) as [Hc|Hc].
    + rewrite (proj1 (@runs_hash_verify T1 P _ HP pk m sig ctx (ph_arg ph) Hc Ls)), (proj1 (@runs_hash_verify T2 P _ HP pk m sig ctx (ph_arg ph) Hc Ls)). reflexivity.
    + rewrite (proj1 (@runs_hash_verify_long T1 P _ pk m sig ctx (ph_arg ph) Hc)), (proj1 (@runs_hash_verify_long T2 P _ pk m sig ctx (ph_arg ph) Hc)). reflexivity.
  - rewrite (proj1 (@runs_raw_verify T1 P _ HP pk m sig Ls)), (proj1 (@runs_raw_verify T2 P _ HP pk m sig Ls)). reflexivity.
  - destruct (@import_total T1 P _ HP _ Lk) as [[V1 C1]|[V1 C1]]; destruct (@import_total T2 P _ HP _ Lk) as [[V2 C2]|[V2 C2]];
      rewrite V1, V2; first [reflexivity|contradiction].
  - rewrite (proj1 (@runs_sk_into_bytes T1 _ HP _ W')), (proj1 (@runs_sk_into_bytes T2 _ HP _ W')). reflexivity.
Qed.
