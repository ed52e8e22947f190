(** Key generation and signing of a concrete key query a common address, for the Examples about traces. *)
From Coq Require Import String.
From Verif Require Import Spec.Fips205 Spec.Fips205Hash.
From Verif Require Import Model.Api Proof.Facts Proof.HashP Proof.Fun Proof.SlhP Proof.SerP Proof.ApiP
  Spec.Vocab Proof.Summary Proof.CallsP Proof.Honest Proof.PosP Proof.TopTrace Proof.TopPath Proof.Toy.
Import ListNotations.
Open Scope list_scope.
Open Scope N_scope.

Lemma In_mnodeC leaf nd leafC ndC e : forall z i k, k < 2 ^ N.of_nat z ->
  In e (leafC (i * 2 ^ N.of_nat z + k)) -> In e (mnodeC leaf nd leafC ndC z i).
Proof.
  induction z as [|z IH]; intros i k Hk I; cbn [mnodeC].
  - change (2 ^ N.of_nat 0) with 1 in *. replace (i * 1 + k) with i in I by lia. exact I.
  - replace (N.of_nat (S z)) with (N.succ (N.of_nat z)) in * by lia. rewrite N.pow_succ_r' in *.
    destruct (N.le_gt_cases (2 ^ N.of_nat z) k) as [C|C].
    + apply in_or_app. right. apply in_or_app. left. apply (IH (2 * i + 1) (k - 2 ^ N.of_nat z)); [lia|].
      replace ((2 * i + 1) * 2 ^ N.of_nat z + (k - 2 ^ N.of_nat z)) with (i * (2 * 2 ^ N.of_nat z) + k); [exact I|].
      set (X := 2 ^ N.of_nat z) in *. clearbody X. rewrite N.mul_add_distr_r, N.mul_1_l, N.mul_assoc, (N.mul_comm i 2). lia.
    + apply in_or_app. left. apply (IH (2 * i) k); [exact C|].
      replace (2 * i * 2 ^ N.of_nat z) with (i * (2 * 2 ^ N.of_nat z)); [exact I|].
      rewrite N.mul_assoc, (N.mul_comm i 2). reflexivity.
Qed.

Lemma shared_event {T : Target} p (HP : PF p) hf ps ss dg :
  exists k q a i, In (EHash k q a i) (prootC p hf ps ss) /\ In (EHash k q a i) (sig_tailC p hf ps ss dg).
Proof.
  set (j := (N.to_nat (cD p) - 1)%nat).
  pose proof (pf_d p HP) as Hd.
  assert (Et : tree_at p (dg_tree p dg) j = 0).
  { apply tree_at_top; [exact HP|]. apply N.mod_lt, pow2_nz. }
  set (kp := leaf_at p (dg_tree p dg) (dg_leaf p dg) j).
  assert (Hk : kp < 2 ^ cHP p) by (apply leaf_at_lt, dg_leaf_lt).
  exists KPRF, ps, (adr (cD p - 1) 0 5 kp 0 0), [ss]. split.
  - unfold prootC, xnodeC. apply (In_mnodeC _ _ _ _ _ _ 0 kp).
    + rewrite Nnat.N2Nat.id. exact Hk.
    + unfold wleafC. apply in_or_app. left. apply in_flat_map. exists 0.
      split; [apply In_nrange; unfold cLEN; lia|]. left. reflexivity.
  - unfold sig_tailC. apply in_or_app. right. apply in_or_app. right. unfold hsigC. apply in_flat_map.
    exists j. split; [apply in_seq; lia|]. unfold hlayerC. apply in_or_app. left.
    unfold hsigC_at, xsigC. apply in_or_app. right. rewrite Et. fold kp.
    replace (N.of_nat j) with (cD p - 1) by lia.
    unfold wsigC. apply in_flat_map. exists 0. split; [apply In_nrange; unfold cLEN; lia|]. left. reflexivity.
Qed.

Lemma In_calls_inv e t : In e (calls t) -> In e t.
Proof. intros I. apply filter_In in I. apply I. Qed.

Lemma toy_shared_address (T : Target) (P : Prims) s :
  exists sig k q a i,
    call (try_sign_with_rng (param_set s) counter (snd (toy_key s)) toy_m toy_ctx true) 5 = Val sig /\
    In (EHash k q a i) (trace_of (try_keygen_with_rng (param_set s) counter) 0) /\
    In (EHash k q a i) (trace_of (try_sign_with_rng (param_set s) counter (snd (toy_key s)) toy_m toy_ctx true) 5).
Proof.
  pose proof (param_PF s) as HP. destruct (toy_signs T P s) as [sig V].
  pose proof (sign_pure s counter 5 _ toy_m toy_ctx true sig (toy_sk_typed P s) V) as R.
  destruct (signing_shape _ _ _ _ _ R) as (r & g & mp & hedged & b & Em & Es & W & Cl & _).
  unfold sign_calls in Cl. cbv zeta in Cl.
  destruct (shared_event (param_set s) HP (hf_of (param_set s)) (sk_pk_seed (snd (toy_key s))) (sk_seed (snd (toy_key s)))
              (sign_digest (hf_of (param_set s)) (snd (toy_key s)) b (concat mp))) as (k & q & a & i & I1 & I2).
  exists sig, k, q, a, i. split; [exact V|]. split.
  - apply In_calls_inv.
    destruct (@rruns_keygen T P (param_set s) (param_PF s) counter 0 1 2 3
              (nrepeat (n2b 0) (cN (param_set s))) (nrepeat (n2b 1) (cN (param_set s)))
              (nrepeat (n2b 2) (cN (param_set s))) eq_refl eq_refl eq_refl) as [_ [_ C]].
    unfold trace_of. rewrite C. right. right. right. exact I1.
  - apply In_calls_inv. rewrite Cl. apply in_or_app. right. right. right. exact I2.
Qed.
