(** Two private keys that differ in a secret field and still give the same signature, for the Example
    beside the leakage theorem for signing. *)
From Verif Require Import Spec.Fips205 Spec.Fips205Hash.
From Verif Require Import Model.Api Proof.Runs Proof.HelpersP Proof.Facts Proof.HashP Proof.Fun Proof.SlhP Proof.SerP Proof.ApiP
  Spec.Vocab Proof.Summary Proof.TopCorrect Proof.TopKeys Proof.Toy.
Import ListNotations.
Open Scope list_scope.
Open Scope N_scope.

Definition sk_other : SlhPrivateKey :=
  let sk := tsk SHAKE_128s in
  mkSk (sk_seed sk) (n2b 0 :: n2b 4 :: nrepeat (n2b 1) 14) (sk_pk_seed sk) (sk_pk_root sk).

Lemma sk_other_typed : sk_typed SHAKE_128s sk_other.
Proof.
  destruct (toy_sk_typed toy_prims SHAKE_128s) as (A & B & C & D). unfold sk_other, sk_typed.
  cbn [sk_seed sk_prf sk_pk_seed sk_pk_root]. repeat split; assumption.
Qed.

Lemma sk_other_differs : sk_prf sk_other <> sk_prf (tsk SHAKE_128s).
Proof. discriminate. Qed.

Lemma sk_other_pk : get_public_key sk_other = get_public_key (tsk SHAKE_128s).
Proof. reflexivity. Qed.

Lemma sign_val_R p (hf : HashFns) sk1 sk2 o1 o2 M :
  get_public_key sk1 = get_public_key sk2 -> sk_seed sk1 = sk_seed sk2 ->
  sign_R hf sk1 o1 M = sign_R hf sk2 o2 M -> sign_val p hf sk1 o1 M = sign_val p hf sk2 o2 M.
Proof.
  intros E S R. unfold get_public_key in E.
  pose proof (f_equal pk_seed E) as E1. pose proof (f_equal pk_root E) as E2. cbn [pk_seed pk_root] in E1, E2.
  unfold sign_val, sign_digest. rewrite R, E1, E2, S. reflexivity.
Qed.

Lemma checksum_head a b x :
  fold_left (fun acc c => 3 * acc + b2n c) a 7 = fold_left (fun acc c => 3 * acc + b2n c) b 7 ->
  checksum (a ++ x) = checksum (b ++ x).
Proof. intros E. unfold checksum. rewrite !fold_left_app, E. reflexivity. Qed.

Lemma sk_other_R o M : sign_R (hf_of (PR := toy_prims) (param_set SHAKE_128s)) sk_other o M =
                       sign_R (hf_of (PR := toy_prims) (param_set SHAKE_128s)) (tsk SHAKE_128s) o M.
Proof.
  change (nrepeat (checksum (sk_prf sk_other ++ o ++ M)) 16 = nrepeat (checksum (sk_prf (tsk SHAKE_128s) ++ o ++ M)) 16).
  apply (f_equal (fun c => nrepeat c 16)). apply checksum_head. reflexivity.
Qed.

Lemma sk_other_signs T m ctx : nlen ctx <= 255 ->
  exists sig,
    call (try_sign_with_rng (T := T) (P := toy_prims) (param_set SHAKE_128s) counter (tsk SHAKE_128s) m ctx true) 5 = Val sig /\
    call (try_sign_with_rng (T := T) (P := toy_prims) (param_set SHAKE_128s) counter sk_other m ctx true) 5 = Val sig.
Proof.
  intros Hc.
  pose proof (typed_sk _ _ (toy_sk_typed toy_prims SHAKE_128s)) as W1. pose proof (typed_sk _ _ sk_other_typed) as W2.
  destruct (@try_sign_desc T toy_prims _ (param_PF SHAKE_128s) counter 5 _ m ctx true W1 Hc) as [_ [V1 _]].
  destruct (@try_sign_desc T toy_prims _ (param_PF SHAKE_128s) counter 5 _ m ctx true W2 Hc) as [_ [V2 _]].
  unfold draw in V1, V2. cbn [snd counter try_fill] in V1, V2. unfold call.
  eexists. split; [exact V1|]. etransitivity; [exact V2|]. unfold sign_bytes.
  match goal with |- Val (enc_sig ?p ?a) = _ => apply (f_equal (fun x => Val (enc_sig p x))) end.
  apply sign_val_R; [reflexivity|reflexivity|]. apply sk_other_R.
Qed.

(** two different keys the generator makes, both exportable and importable *)
Definition key_at (s : set_name) (g : N) : SlhPublicKey * SlhPrivateKey :=
  let n := cN (param_set s) in
  key_of (P := toy_prims) (param_set s) (nrepeat (n2b g) n) (nrepeat (n2b (g + 1)) n) (nrepeat (n2b (g + 1 + 1)) n).

Lemma key_at_gen (T : Target) s g :
  call (try_keygen_with_rng (P := toy_prims) (param_set s) counter) g = Val (fst (key_at s g), snd (key_at s g)).
Proof.
  destruct (@rruns_keygen T toy_prims (param_set s) (param_PF s) counter g (g + 1) (g + 1 + 1) (g + 1 + 1 + 1)
              (nrepeat (n2b g) (cN (param_set s))) (nrepeat (n2b (g + 1)) (cN (param_set s)))
              (nrepeat (n2b (g + 1 + 1)) (cN (param_set s))) eq_refl eq_refl eq_refl) as [_ [V _]].
  unfold call. etransitivity; [exact V|]. apply f_equal, surjective_pairing.
Qed.

Lemma key_at_seed s g : sk_seed (snd (key_at s g)) = nrepeat (n2b g) (cN (param_set s)).
Proof. reflexivity. Qed.

Lemma key_at_typed s g : sk_typed s (snd (key_at s g)).
Proof. apply wf_typed_sk. apply (key_pair_facts s _ _ (kp_generated s counter g _ _ (key_at_gen debug64 s g))). Qed.

Lemma key_at_import (T : Target) s g :
  exists bs, nlen bs = sk_size s /\
    result (sk_try_from_bytes (P := toy_prims) (param_set s) bs) = Val (snd (key_at s g)).
Proof.
  destruct (proj1 (prop_private_key_round_trip T toy_prims s) _ _ (kp_generated s counter g _ _ (key_at_gen T s g)))
    as [bs [_ [L E]]].
  exists bs. split; [exact L|exact E].
Qed.
