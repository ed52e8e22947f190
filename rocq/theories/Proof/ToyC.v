(** A small C program: it generates a key pair at 100 and 200 and signs the five bytes at 300 into the
    struct at 1000. *)
From Coq Require Import String.
From Verif Require Import Spec.Fips205 Spec.Fips205Hash.
From Verif Require Import Model.Api Model.Ffi Model.FfiMem Spec.Vocab Spec.VocabC Proof.Summary Proof.TopC Proof.Toy Proof.ToyKeys.
Import ListNotations.
Open Scope list_scope.
Open Scope N_scope.

Definition zeros : cmem := {| mem_top := 20000; mem_at := fun _ => Byte.x00 |}.

Lemma legal_keygen M : mem_top M = 20000 -> legal (T := debug64) M (CKeygen 100 200).
Proof. intros E. unfold legal, null_or_struct, apart. rewrite E. lia. Qed.
Lemma legal_sign M : mem_top M = 20000 -> legal (T := debug64) M (CSign 300 5 200 1000).
Proof.
  intros E. unfold legal, null_or_struct, apart, readable. rewrite E. change (Z.to_N 5) with 5.
  change (2 ^ usize_bits) with 18446744073709551616. lia.
Qed.
Lemma legal_verify M : mem_top M = 20000 -> legal (T := debug64) M (CVerify 300 5 100 1000).
Proof.
  intros E. unfold legal, null_or_struct, apart, readable. rewrite E. change (Z.to_N 5) with 5.
  change (2 ^ usize_bits) with 18446744073709551616. lia.
Qed.

Lemma toy_c_program :
  exists g M pkb skb sigb,
    c_history (T := debug64) (P := toy_prims) counter 0 zeros g M [(pkb, skb)] [(pkb, load M 300 5, sigb)] /\
    mem_top M = 20000 /\ load M 100 32 = pkb /\ load M 200 64 = skb /\ load M 1000 17088 = sigb.
Proof.
  destruct (named_c_call_results debug64 toy_prims counter 0 zeros) as [K _].
  destruct (proj2 (proj2 (K 100 200 (legal_keygen zeros eq_refl)) ltac:(discriminate) ltac:(discriminate))
              _ _ _ _ _ _ (counter_gives 0 16) (counter_gives 1 16) (counter_gives 2 16)) as (M1 & E1 & _).
  pose proof (c_next (T := debug64) (P := toy_prims) counter 0 zeros 0 zeros [] [] _ _ _ _
                (c_start counter 0 zeros) (legal_keygen zeros eq_refl) E1) as H1.
  cbn [new_keys new_issues app] in H1. change (SLH_DSA_OK =? 0) with true in H1. cbn iota in H1.
  destruct (prop_c_program_histories _ _ _ _ _ _ _ _ _ (c_start (T := debug64) (P := toy_prims) counter 0 zeros)) as (_ & F0 & _).
  destruct (F0 _ _ _ _ (legal_keygen zeros eq_refl) E1) as (_ & T1 & _). change (mem_top zeros) with 20000 in T1.
  destruct (prop_c_program_histories _ _ _ _ _ _ _ _ _ H1) as (_ & F1 & _ & S1).
  destruct (S1 _ _ (or_introl eq_refl) 300 5%Z 200 1000 (legal_sign M1 T1) ltac:(discriminate) ltac:(discriminate)
              ltac:(discriminate) eq_refl) as (Ep & _ & Sg).
  destruct (Sg _ _ (counter_gives _ 16)) as (M2 & E2).
  pose proof (c_next (T := debug64) (P := toy_prims) counter 0 zeros _ _ _ _ _ _ _ _ H1 (legal_sign M1 T1) E2) as H2.
  cbn [new_keys new_issues app] in H2. change (0 =? 0) with true in H2. cbn iota in H2.
  destruct (F1 _ _ _ _ (legal_sign M1 T1) E2) as (_ & T2 & Ch). rewrite T1 in T2. cbn [may_change] in Ch.
  assert (Same : forall a n, a + n <= 1000 -> load M2 a n = load M1 a n).
  { intros a n L. apply load_ext. intros x Lx. destruct (Byte.byte_eq_dec (mem_at M2 x) (mem_at M1 x)) as [Y|Y]; [exact Y|].
    destruct (Ch x Y) as [_ B]. lia. }
  rewrite Ep in H2. change (Z.to_N 5) with 5 in H2. rewrite <- (Same 300 5) in H2 by lia.
  do 5 eexists. split; [exact H2|]. split; [exact T2|]. split; [apply Same; lia|]. split; [apply Same; lia|reflexivity].
Qed.
