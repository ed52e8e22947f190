(** Concrete build targets, hash functions and generators, used only by the Examples that show the
    hypotheses of the property theorems can be met. *)
From Coq Require Import String.
From Verif Require Import Spec.Fips205Hash Model.Api Proof.Facts Proof.Fun Proof.SerP Proof.ApiP Spec.Vocab
  Proof.Summary Proof.TopCorrect.
From Coq.Strings Require Byte.
Import ListNotations.
Open Scope list_scope.
Open Scope N_scope.

(** a 64-bit debug build, a 16-bit release build *)
Definition debug64 : Target.
Proof. refine {| overflow_checks := true; debug_assertions := true; usize_bits := 64; nesting_limit := 100 |}; [discriminate|repeat constructor]. Defined.
Definition release16 : Target.
Proof. refine {| overflow_checks := false; debug_assertions := false; usize_bits := 16; nesting_limit := 14 |}; [discriminate|constructor]. Defined.

(** hash functions that depend on their input: a byte checksum, repeated *)
Definition checksum (x : bytes) : byte := n2b (fold_left (fun acc c => 3 * acc + b2n c) x 7).
Definition toy_prims : Prims.
Proof.
  refine {| sha256 := fun x => nrepeat (checksum x) 32; sha512 := fun x => nrepeat (checksum x) 64;
            shake128 := fun x k => nrepeat (checksum x) k; shake256 := fun x k => nrepeat (checksum x) k |};
    intros; apply nlen_nrepeat.
Defined.

(** a generator that counts, one that always fails, one that fails at the second request *)
Definition counter : Rng.
Proof.
  refine {| rng_st := N; try_fill := fun g k => (g + 1, Val (nrepeat (n2b g) k)) |}.
  intros g k g' b E. injection E as _ <-. apply nlen_nrepeat.
Defined.
Definition broken : Rng.
Proof.
  refine {| rng_st := unit; try_fill := fun _ _ => (tt, Err "no entropy"%string) |}.
  intros g k g' b E. discriminate.
Defined.
Definition flaky : Rng.
Proof.
  refine {| rng_st := N; try_fill := fun g k => (g + 1, if g =? 1 then Err "no entropy"%string else Val (nrepeat (n2b g) k)) |}.
  intros g k g' b E. destruct (g =? 1); [discriminate|]. injection E as _ <-. apply nlen_nrepeat.
Defined.

Lemma counter_gives g k : gives counter g k (nrepeat (n2b g) k) (g + 1).
Proof. reflexivity. Qed.
Lemma counter_safe : never_panics counter.
Proof. intros g k g' q E. discriminate. Qed.
Lemma broken_refuses g k : refuses broken g k.
Proof. exists tt, "no entropy"%string. reflexivity. Qed.

(** every parameter set has key pairs *)
Definition toy_key {P : Prims} (s : set_name) : SlhPublicKey * SlhPrivateKey :=
  let n := cN (param_set s) in key_of (param_set s) (nrepeat (n2b 0) n) (nrepeat (n2b 1) n) (nrepeat (n2b 2) n).

Lemma toy_keygen (T : Target) (P : Prims) s :
  call (try_keygen_with_rng (param_set s) counter) 0 = Val (toy_key s).
Proof.
  destruct (@rruns_keygen T P (param_set s) (param_PF s) counter 0 1 2 3
              (nrepeat (n2b 0) (cN (param_set s))) (nrepeat (n2b 1) (cN (param_set s)))
              (nrepeat (n2b 2) (cN (param_set s))) eq_refl eq_refl eq_refl) as [_ [V _]].
  exact V.
Qed.

Lemma toy_key_pair (T : Target) (P : Prims) s : key_pair s (fst (toy_key s)) (snd (toy_key s)).
Proof.
  apply (kp_generated s counter 0). rewrite toy_keygen. destruct (toy_key s); reflexivity.
Qed.

Lemma toy_sk_typed (P : Prims) s : sk_typed s (snd (toy_key s)).
Proof. apply wf_typed_sk. apply (key_pair_facts s _ _ (toy_key_pair debug64 P s)). Qed.
Lemma toy_pk_typed (P : Prims) s : pk_typed s (fst (toy_key s)).
Proof.
  destruct (key_pair_facts s _ _ (toy_key_pair debug64 P s)) as [W [_ ->]].
  apply wf_typed_pk. destruct W as [_ [_ W]]. exact W.
Qed.

(** a two-byte message, a one-byte context, a context one byte too long *)
Definition toy_m : bytes := [n2b 104; n2b 105].
Definition toy_ctx : bytes := [n2b 7].
Definition long_ctx : bytes := nrepeat (n2b 1) 256.
Lemma toy_ctx_le : nlen toy_ctx <= 255.
Proof. discriminate. Qed.
Lemma long_ctx_gt : 255 < nlen long_ctx.
Proof. unfold long_ctx. rewrite nlen_nrepeat. reflexivity. Qed.
Lemma counter_ok (b : bool) s g : b = true -> exists x g', gives counter g (seed_bytes s) x g'.
Proof. intros _. do 2 eexists. apply counter_gives. Qed.

(** a second message hash-distinguishable request, and a signature-sized string *)
Definition toy_sig (s : set_name) : bytes := nrepeat (n2b 3) (sig_size s).
Lemma toy_sig_len s : nlen (toy_sig s) = sig_size s.
Proof. apply nlen_nrepeat. Qed.
Definition toy_pkb (s : set_name) : bytes := nrepeat (n2b 3) (pk_size s).
Lemma toy_pkb_len s : nlen (toy_pkb s) = pk_size s.
Proof. apply nlen_nrepeat. Qed.

Lemma toy_signs (T : Target) (P : Prims) s :
  exists sig, call (try_sign_with_rng (param_set s) counter (snd (toy_key s)) toy_m toy_ctx true) 5 = Val sig.
Proof.
  destruct (prop_pure_signatures_verify T P s _ _ (toy_key_pair T P s) counter 5 toy_m toy_ctx true toy_ctx_le)
    as [_ K]. apply K. apply counter_ok.
Qed.
(** the key pair with the toy hash functions *)
Notation tsk s := (snd (toy_key (P := toy_prims) s)) (only parsing).
Notation tpk s := (fst (toy_key (P := toy_prims) s)) (only parsing).
