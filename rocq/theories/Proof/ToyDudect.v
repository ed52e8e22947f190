(** With hash functions that ignore their input both classes of the timing harness have the same public
    values. Used only by an Example. *)
From Verif Require Import Spec.Fips205 Spec.Fips205Hash.
From Verif Require Import Model.Api Spec.Vocab Spec.VocabForge Spec.VocabPublic Proof.ToyForge.
Import ListNotations.
Open Scope list_scope.
Open Scope N_scope.

Lemma for_snoc {S} (f : N -> S -> S) k s0 : for_ 0 (k + 1) f s0 = f k (for_ 0 k f s0).
Proof.
  unfold for_. rewrite !N.sub_0_r. change (nseq 0 (N.to_nat (k + 1))) with (nrange (k + 1)).
  rewrite nrange_snoc, fold_left_app. reflexivity.
Qed.

Lemma weak_xmss pk leaf sig v A :
  Fips205.xmss_pkFromSig (fips_params SHA2_128s) (fips_hash (PR := weak_prims) SHA2_128s) leaf sig v (pk_seed pk) A
  = nrepeat (n2b 7) 16.
Proof.
  unfold Fips205.xmss_pkFromSig. cbv zeta. match goal with |- fst (for_ 0 ?x _ _) = _ => change x with (8 + 1) end.
  rewrite for_snoc. destruct (for_ 0 8 _ _) as [node B]. destruct (N.even _); reflexivity.
Qed.

Lemma weak_public_view pk1 pk2 M1 M2 sig1 sig2 :
  public_view (P := weak_prims) SHA2_128s pk1 M1 sig1 = public_view (P := weak_prims) SHA2_128s pk2 M2 sig2.
Proof.
  assert (K : forall pk M sig j, signed_value (P := weak_prims) SHA2_128s pk M sig j = nrepeat (n2b 7) 16).
  { intros pk M sig [|j]; cbn [signed_value].
    - unfold recovered_fors_key. destruct (sig_digest _ _ _ _) as [[md tr] lf]. cbv zeta.
      unfold Fips205.fors_pkFromSig. cbv zeta. destruct (for_ _ _ _ _) as [rt A]. reflexivity.
    - destruct (sig_position _ _ _ _ _) as [tr lf]. cbv zeta. apply weak_xmss. }
  unfold public_view. apply f_equal2; [reflexivity|].
  apply map_ext. intros j. rewrite !K. reflexivity.
Qed.
