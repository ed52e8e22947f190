(** C78: what the generator can do to keys and signatures. *)
From Coq Require Import String.
From Verif Require Import Spec.Fips205 Spec.Fips205Hash.
From Verif Require Import Model.Api Proof.Facts Proof.HashP Proof.Fun Proof.SlhP Proof.SerP Proof.ApiP
  Proof.SpecFun Spec.Vocab Spec.VocabRand Proof.Summary Proof.TopCorrect Proof.TopSafety Proof.TopFips Proof.TopKeys
  Proof.CallsP Proof.TopTrace Proof.TopFraming Proof.TopForge.
Import ListNotations.
Open Scope list_scope.
Open Scope N_scope.

Section R.
Context {T : Target} {P : Prims} (s : set_name).
Notation p := (param_set s).

Lemma random_draw sk r g hedged x : random_string s sk r g hedged x <-> snd (draw p r g hedged (sk_pk_seed sk)) = Val x.
Proof.
  unfold random_string, draw, gives. rewrite <- param_n. destruct hedged.
  - destruct (try_fill r g (cN p)) as [g1 o]. cbn [snd]. split.
    + intros [g' E]. apply pair_equal_spec in E. destruct E as [_ E]. exact E.
    + intros E. exists g1. rewrite E. reflexivity.
  - cbn [snd]. split; [intros ->; reflexivity|]. intros E. injection E as E. symmetry. exact E.
Qed.

Lemma desc_issued sk r g mp hedged x y sig : sign_desc p r g sk mp hedged y -> result (snd y) = Val sig ->
  random_string s sk r g hedged x -> sig = sign_bytes p sk x (concat mp).
Proof.
  intros [_ [V _]] E R. apply random_draw in R. rewrite V, R in E. injection E as E. symmetry. exact E.
Qed.

Lemma issued_bytes sk M x sig : sk_typed s sk -> issued_with s sk M x sig ->
  nlen x = seed_bytes s /\ sig = sign_bytes p sk x M.
Proof.
  intros W I. pose proof (param_PF s) as HP. pose proof (typed_sk _ _ W) as W'.
  assert (L : forall r g hedged, random_string s sk r g hedged x -> nlen x = seed_bytes s).
  { intros r g [|]; cbn.
    - intros [g' G]. eapply try_fill_len. exact G.
    - intros ->. apply W. }
  destruct I as [r g m ctx hedged x sig E R|r g m ctx ph hedged x sig E R|r g m hedged x sig E R];
    (split; [exact (L _ _ _ R)|]).
  - destruct (N.le_gt_cases (nlen ctx) 255) as [Hc|Hc].
    + rewrite <- pure_pieces_M'. eapply desc_issued; [apply (try_sign_desc _ HP g sk m ctx hedged W' Hc)|exact E|exact R].
    + unfold call in E. rewrite (try_sign_long _ _ _ _ _ _ _ Hc) in E. discriminate.
  - destruct (N.le_gt_cases (nlen ctx) 255) as [Hc|Hc].
    + rewrite <- hash_pieces_M'.
      eapply desc_issued; [apply (try_hash_sign_desc _ HP g sk m ctx (ph_arg ph) hedged W' Hc)|exact E|exact R].
    + unfold call in E. rewrite (try_hash_sign_long _ _ _ _ _ _ _ _ Hc) in E. discriminate.
  - rewrite <- (concat1 m). eapply desc_issued; [apply (raw_sign_desc _ HP g sk m hedged W')|exact E|exact R].
Qed.

Lemma prf_msg_keyed k x M : PRF_msg (hf_of p) k x M = keyed_digest s k (x ++ M).
Proof. destruct s; reflexivity. Qed.

Lemma sign_bytes_R sk x M : block s (sign_bytes p sk x M) 0 = keyed_digest s (sk_prf sk) (x ++ M).
Proof.
  unfold sign_bytes. rewrite block_enc; [|apply wf_n_sign_val, param_PF|unfold nblocks, ho; lia].
  apply prf_msg_keyed.
Qed.

Lemma desc_random sk r g mp hedged y sig : sign_desc p r g sk mp hedged y -> result (snd y) = Val sig ->
  exists x, random_string s sk r g hedged x.
Proof.
  intros [_ [V _]] E. rewrite V in E. destruct (snd (draw p r g hedged (sk_pk_seed sk))) as [b|e|q] eqn:D; [|discriminate E..].
  exists b. apply random_draw. exact D.
Qed.

Lemma same_R sk x1 x2 M : block s (sign_bytes p sk x1 M) 0 = block s (sign_bytes p sk x2 M) 0 ->
  sign_bytes p sk x1 M = sign_bytes p sk x2 M.
Proof.
  rewrite !sign_bytes_R, <- !prf_msg_keyed. intros E. unfold sign_bytes, sign_val, sign_digest.
  change (sign_R (hf_of p) sk x1 M = sign_R (hf_of p) sk x2 M) in E. rewrite E. reflexivity.
Qed.

Lemma keygen_drawn r g pk sk : call (try_keygen_with_rng p r) g = Val (pk, sk) ->
  exists a b c, drawn s r g a b c /\ nlen a = seed_bytes s /\ nlen b = seed_bytes s /\ nlen c = seed_bytes s /\
    (pk, sk) = key_of p a b c.
Proof.
  intros E. pose proof (keygen_is _ (param_PF s) (r := r) g) as D. unfold keygen_desc in D. cbv zeta in D.
  unfold call in E.
  destruct (try_fill r g (cN p)) as [g1 [a|e|q]] eqn:E1; cbn [fst snd] in D;
    [|destruct D as [_ [D _]]; rewrite D in E; discriminate E..].
  destruct (try_fill r g1 (cN p)) as [g2 [b|e|q]] eqn:E2; cbn [fst snd] in D;
    [|destruct D as [_ [D _]]; rewrite D in E; discriminate E..].
  destruct (try_fill r g2 (cN p)) as [g3 [c|e|q]] eqn:E3; cbn [fst snd] in D;
    [|destruct D as [_ [D _]]; rewrite D in E; discriminate E..].
  destruct D as [_ [D _]]. rewrite D in E. exists a, b, c. unfold drawn, gives. rewrite <- param_n.
  split; [exists g1, g2, g3; auto|].
  split; [exact (try_fill_len _ _ _ _ _ E1)|]. split; [exact (try_fill_len _ _ _ _ _ E2)|].
  split; [exact (try_fill_len _ _ _ _ _ E3)|].
  set (X := key_of p a b c) in *. clearbody X. injection E as E. symmetry. exact E.
Qed.
End R.

Lemma prop_generator_reaches_signatures :
  forall (T : Target) (P : Prims) (s : set_name),
    (** every signature is issued with one random string of n bytes, and its first n bytes are made from it *)
    (forall sk M' sig tr, signing_run s sk M' sig tr -> exists x, issued_with s sk M' x sig) /\
    (forall sk M' x sig, sk_typed s sk -> issued_with s sk M' x sig ->
       nlen x = seed_bytes s /\ block s sig 0 = keyed_digest s (sk_prf sk) (x ++ M')) /\
    (** the rest depends on the random string only through these n bytes, which differ unless message and random
        string are the same, or the keyed function collides *)
    (forall sk M1 x1 sig1 M2 x2 sig2, sk_typed s sk -> issued_with s sk M1 x1 sig1 -> issued_with s sk M2 x2 sig2 ->
       (M1 = M2 -> x1 = x2 -> sig1 = sig2) /\
       (block s sig1 0 = block s sig2 0 ->
          (M1 = M2 -> sig1 = sig2) /\
          (M1 = M2 /\ x1 = x2 \/
           x1 ++ M1 <> x2 ++ M2 /\ keyed_digest s (sk_prf sk) (x1 ++ M1) = keyed_digest s (sk_prf sk) (x2 ++ M2)))) /\
    (** all three strings drawn in key generation are in the private key, the third also in the public key *)
    (forall r g pk sk, call (try_keygen_with_rng (param_set s) r) g = Val (pk, sk) ->
       exists a b c root, drawn s r g a b c /\
         result (sk_into_bytes (param_set s) sk) = Val (a ++ b ++ c ++ root) /\
         result (pk_into_bytes (param_set s) pk) = Val (c ++ root)) /\
    (** so two runs that return the same private key received the same strings *)
    (forall r1 g1 r2 g2 pk1 pk2 sk, call (try_keygen_with_rng (param_set s) r1) g1 = Val (pk1, sk) ->
       call (try_keygen_with_rng (param_set s) r2) g2 = Val (pk2, sk) ->
       pk1 = pk2 /\ exists a b c, drawn s r1 g1 a b c /\ drawn s r2 g2 a b c).
Proof.
  intros T P s. pose proof (param_PF s) as HP. split; [|split; [|split; [|split]]].
  - intros sk M' sig tr [r g k m ctx hedged sg W E|r g k m ctx ph hedged sg W E|r g k m hedged sg W E];
      pose proof (typed_sk _ _ W) as W'.
    + destruct (N.le_gt_cases (nlen ctx) 255) as [Hc|Hc].
      * destruct (desc_random s _ _ _ _ _ _ _ (try_sign_desc _ HP g k m ctx hedged W' Hc) E) as [x R].
        exists x. eapply issued_pure; [exact E|exact R].
      * unfold call in E. rewrite (try_sign_long _ _ _ _ _ _ _ Hc) in E. discriminate.
    + destruct (N.le_gt_cases (nlen ctx) 255) as [Hc|Hc].
      * destruct (desc_random s _ _ _ _ _ _ _ (try_hash_sign_desc _ HP g k m ctx (ph_arg ph) hedged W' Hc) E) as [x R].
        exists x. eapply issued_hash; [exact E|exact R].
      * unfold call in E. rewrite (try_hash_sign_long _ _ _ _ _ _ _ _ Hc) in E. discriminate.
    + destruct (desc_random s _ _ _ _ _ _ _ (raw_sign_desc _ HP g k m hedged W') E) as [x R].
      exists x. eapply issued_raw; [exact E|exact R].
  - intros sk M' x sig W I. destruct (issued_bytes s _ _ _ _ W I) as [L ->]. split; [exact L|]. apply sign_bytes_R.
  - intros sk M1 x1 sig1 M2 x2 sig2 W I1 I2.
    destruct (issued_bytes s _ _ _ _ W I1) as [L1 ->]. destruct (issued_bytes s _ _ _ _ W I2) as [L2 ->].
    split; [intros -> ->; reflexivity|]. intros B. split; [intros ->; apply same_R; exact B|].
    destruct (list_eq_dec Byte.byte_eq_dec (x1 ++ M1) (x2 ++ M2)) as [Q|Q].
    + left. assert (L : nlen x1 = nlen x2) by (rewrite L1, L2; reflexivity).
      apply app_inj_len in Q; [|exact L]. split; apply Q.
    + right. split; [exact Q|]. rewrite !sign_bytes_R in B. exact B.
  - intros r g pk sk E. destruct (keygen_drawn s r g pk sk E) as (a & b & c & D & La & Lb & Lc & K).
    exists a, b, c, (proot (param_set s) (hf_of (param_set s)) c a). split; [exact D|].
    apply pair_equal_spec in K. rewrite <- param_n in La, Lb, Lc.
    destruct (wf_key_of (param_set s) HP a b c La Lb Lc) as [W1 W2]. cbn [key_of fst snd] in W1, W2.
    destruct K as [-> ->]. split.
    + rewrite (proj1 (runs_sk_into_bytes _ HP _ W2)). reflexivity.
    + rewrite (proj1 (runs_pk_into_bytes _ HP _ W1)). reflexivity.
  - intros r1 g1 r2 g2 pk1 pk2 sk E1 E2.
    destruct (keygen_drawn s r1 g1 pk1 sk E1) as (a & b & c & D & _ & _ & _ & K).
    destruct (keygen_drawn s r2 g2 pk2 sk E2) as (a' & b' & c' & D' & _ & _ & _ & K').
    unfold key_of in K, K'. apply pair_equal_spec in K. apply pair_equal_spec in K'. destruct K as [-> ->], K' as [-> K'].
    set (X := proot _ _ c a) in *. set (X' := proot _ _ c' a') in *. clearbody X X'.
    injection K' as -> -> -> ->. split; [reflexivity|]. exists a', b', c'. split; assumption.
Qed.
