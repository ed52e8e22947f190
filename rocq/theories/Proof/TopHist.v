(** C29: histories of calls sharing a generator. *)
From Coq Require Import String.
From Verif Require Import Spec.Fips205 Spec.Fips205Hash.
From Verif Require Import Model.Api Proof.Facts Proof.HashP Proof.Fun Proof.SlhP Proof.SerP Proof.ApiP
  Proof.SpecFun Spec.Vocab Spec.VocabHist Proof.Summary Proof.TopCorrect Proof.TopSafety Proof.TopFips Proof.CallsP.
Import ListNotations.
Open Scope list_scope.
Open Scope N_scope.

(** [k] requests of n bytes each take the generator from g to g' *)
Fixpoint drawn_from (r : Rng) (n : N) (k : nat) (g : rng_st r) : rng_st r :=
  match k with O => g | S k => drawn_from r n k (fst (try_fill r g n)) end.

Definition foot (r : Rng) (n : N) (g g' : rng_st r) (t : list event) (k : nat) : Prop :=
  draws t = repeat n k /\ g' = drawn_from r n k g.

Lemma drawn_from_add r n : forall a b g, drawn_from r n (a + b) g = drawn_from r n b (drawn_from r n a g).
Proof. induction a as [|a IH]; intros b g; cbn [drawn_from Nat.add]; [reflexivity|]. apply IH. Qed.

Lemma foot_app r n g g1 g2 t1 t2 k1 k2 :
  foot r n g g1 t1 k1 -> foot r n g1 g2 t2 k2 -> foot r n g g2 (t1 ++ t2) (k1 + k2).
Proof.
  intros [D1 ->] [D2 ->]. split.
  - rewrite draws_app, D1, D2, repeat_app. reflexivity.
  - symmetry. apply drawn_from_add.
Qed.
Lemma foot_none r n g t : draws t = [] -> foot r n g g t 0.
Proof. intros D. split; [exact D|reflexivity]. Qed.

Section H.
Context {T : Target} {P : Prims} (s : set_name) (r : Rng).
Let p := param_set s.
Let HP : PF p := param_PF s.

Lemma foot_keygen g : exists k, (1 <= k <= 3)%nat /\
  foot r (seed_bytes s) g (gen_after (try_keygen_with_rng p r) g) (trace_of (try_keygen_with_rng p r) g) k /\
  ((forall g, exists b g', gives r g (seed_bytes s) b g') -> k = 3%nat).
Proof.
  rewrite <- param_n. fold p. unfold foot, gen_after, trace_of, gives. rewrite <- draws_calls.
  pose proof (keygen_is p HP (r := r) g) as D. unfold keygen_desc in D. cbv zeta in D.
  destruct (try_fill r g (cN p)) as [g1 [x|e|z]] eqn:E1; cbn [fst snd] in D.
  2,3: destruct D as [A [_ ->]]; exists 1%nat; split; [lia|]; split;
    [split; [reflexivity|rewrite A; cbn [drawn_from]; rewrite E1; reflexivity]|
     intros K; destruct (K g) as (b & g' & K'); congruence].
  destruct (try_fill r g1 (cN p)) as [g2 [y|e|z]] eqn:E2; cbn [fst snd] in D.
  2,3: destruct D as [A [_ ->]]; exists 2%nat; split; [lia|]; split;
    [split; [reflexivity|rewrite A; cbn [drawn_from]; rewrite E1; cbn [fst]; rewrite E2; reflexivity]|
     intros K; destruct (K g1) as (b & g' & K'); congruence].
  exists 3%nat. split; [lia|]. split; [|reflexivity]. cbn [drawn_from repeat]. rewrite E1. cbn [fst]. rewrite E2. cbn [fst].
  destruct (try_fill r g2 (cN p)) as [g3 [w|e|z]] eqn:E3; cbn [fst snd] in D |- *.
  2,3: destruct D as [A [_ ->]]; split; [reflexivity|exact A].
  destruct D as [A [_ ->]]. split; [|exact A].
  change (?a :: ?b :: ?c :: ?Z) with ([a; b; c] ++ Z) at 1. rewrite draws_app, (draws_allH (prootC _ _ _ _)) by apply allH_prootC.
  reflexivity.
Qed.

Lemma foot_sign g sk mp hedged x : sign_desc p r g sk mp hedged x ->
  foot r (seed_bytes s) g (fst x) (trace (snd x)) (if hedged then 1 else 0)%nat.
Proof.
  intros D. pose proof (sign_desc_draws _ _ _ _ _ _ _ D) as Dr. destruct D as [F _].
  unfold foot. rewrite Dr, F. unfold draw. rewrite <- param_n. fold p. destruct hedged; split; reflexivity.
Qed.
End H.

Lemma filter_count {A} (f : A -> bool) x l :
  nlen (filter f (x :: l)) = (if f x then 1 else 0) + nlen (filter f l).
Proof. cbn [filter]. destruct (f x); [rewrite nlen_cons; lia|reflexivity]. Qed.

Lemma draws_import {T : Target} {P : Prims} s bs : nlen bs = sk_size s ->
  draws (trace (sk_try_from_bytes (param_set s) bs)) = [].
Proof.
  intros L. rewrite <- param_sk in L. rewrite <- draws_calls. pose proof (param_PF s) as HP.
  destruct (list_eq_dec Byte.byte_eq_dec (sk_pk_root (sk_of_bytes (param_set s) bs))
             (proot (param_set s) (hf_of (param_set s)) (sk_pk_seed (sk_of_bytes (param_set s) bs)) (sk_seed (sk_of_bytes (param_set s) bs)))) as [C|C].
  - rewrite (proj2 (runs_sk_try_from_bytes _ HP bs L C)). apply draws_allH, allH_prootC.
  - rewrite (proj2 (errs_sk_try_from_bytes _ HP bs L C)). apply draws_allH, allH_prootC.
Qed.

Lemma draws_verify {T : Target} {P : Prims} s pk m sig ctx ph : nlen sig = sig_size s ->
  draws (trace (verify (param_set s) pk m sig ctx)) = [] /\
  draws (trace (hash_verify (param_set s) pk m sig ctx ph)) = [] /\
  draws (trace (raw_verify (param_set s) pk m sig)) = [].
Proof.
  intros L. rewrite <- param_sig in L. pose proof (param_PF s) as HP.
  split; [|split]; rewrite <- draws_calls.
  - destruct (N.le_gt_cases (nlen ctx) 255) as [Hc|Hc].
    + rewrite (proj2 (runs_verify _ HP pk m sig ctx Hc L)). apply draws_verify_calls.
    + rewrite (proj2 (runs_verify_long _ pk m sig ctx Hc)). reflexivity.
  - destruct (N.le_gt_cases (nlen ctx) 255) as [Hc|Hc].
    + rewrite (proj2 (runs_hash_verify _ HP pk m sig ctx ph Hc L)). apply draws_verify_calls.
    + rewrite (proj2 (runs_hash_verify_long _ pk m sig ctx ph Hc)). reflexivity.
  - rewrite (proj2 (runs_raw_verify _ HP pk m sig L)). apply draws_verify_calls.
Qed.

Lemma history_foot {T : Target} {P : Prims} s r g0 reqs g keys issued t :
  history s r g0 reqs g keys issued t ->
  (forall pk sk, In (pk, sk) keys -> key_pair s pk sk) /\
  (forall i, In i issued -> accepted s i) /\
  exists k d, foot r (seed_bytes s) g0 g t k /\ N.of_nat k = hedged_attempts reqs + d /\
    keygens reqs <= d <= 3 * keygens reqs /\
    ((forall g, exists b g', gives r g (seed_bytes s) b g') -> d = 3 * keygens reqs).
Proof.
  intros Hh. pose proof (param_PF s) as HP.
  induction Hh as [|reqs g keys issued t Hh IH f|reqs g keys issued t pk sk m ctx hedged Hh IH Hk f
    |reqs g keys issued t pk sk m ctx ph hedged Hh IH Hk f|reqs g keys issued t pk sk m hedged Hh IH Hk f
    |reqs g keys issued t pk sk pkb skb pk' Hh IH Hk E1 E2 E3 f|reqs g keys issued t bs Hh IH L f
    |reqs g keys issued t pk m sig ctx Hh IH L|reqs g keys issued t pk m sig ctx ph Hh IH L
    |reqs g keys issued t pk m sig Hh IH L].
  - split; [intros pk sk []|]. split; [intros i []|]. exists 0%nat, 0. split; [split; reflexivity|].
    split; [reflexivity|]. split; [split; discriminate|reflexivity].
  - destruct IH as [I1 [I2 (k & d & F & E & B & Q)]]. split; [|split; [exact I2|]].
    + intros pk sk. subst f. unfold gain.
      destruct (call (try_keygen_with_rng (param_set s) r) g) as [[pk1 sk1]|e|z] eqn:C; [|apply I1..].
      intros [X|X]; [|apply I1; exact X]. injection X as <- <-. eapply kp_generated. exact C.
    + destruct (foot_keygen s r g) as (k1 & B1 & F1 & Q1).
      exists (k + k1)%nat, (d + N.of_nat k1). split; [exact (foot_app _ _ _ _ _ _ _ _ _ F F1)|].
      unfold keygens, hedged_attempts in *. rewrite !filter_count. split; [lia|]. split; [lia|].
      intros Hs. rewrite (Q Hs), (Q1 Hs). lia.
  - destruct IH as [I1 [I2 (k & d & F & E & B & Q)]]. pose proof (I1 _ _ Hk) as KP.
    assert (W : wf_sk (param_set s) sk) by apply (key_pair_facts s _ _ KP).
    split; [exact I1|]. split.
    + intros i. unfold gain. destruct (call f g) as [sig|e|z] eqn:C; [|apply I2..].
      intros [<-|X]; [|apply I2; exact X]. cbn [accepted].
      destruct (N.le_gt_cases (nlen ctx) 255) as [Hc|Hc].
      * apply (prop_pure_signatures_verify T P s _ _ KP r g m ctx hedged Hc). exact C.
      * subst f. unfold call in C. rewrite try_sign_long in C by exact Hc. discriminate.
    + unfold keygens, hedged_attempts in *. rewrite !filter_count.
      destruct (N.le_gt_cases (nlen ctx) 255) as [Hc|Hc].
      * pose proof (foot_sign s r g sk _ hedged _ (try_sign_desc _ HP g sk m ctx hedged W Hc)) as F1.
        replace (nlen ctx <=? 255) with true by (symmetry; apply N.leb_le; exact Hc). rewrite andb_true_r.
        exists (k + (if hedged then 1 else 0))%nat, d. split; [exact (foot_app _ _ _ _ _ _ _ _ _ F F1)|].
        split; [destruct hedged; lia|]. split; [lia|]. intros Hs. rewrite (Q Hs). lia.
      * replace (nlen ctx <=? 255) with false by (symmetry; apply N.leb_gt; exact Hc). rewrite andb_false_r.
        exists (k + 0)%nat, d. split; [|split; [lia|split; [lia|intros Hs; rewrite (Q Hs); lia]]].
        apply (foot_app _ _ _ g _ _ _ _ _ F). subst f. unfold gen_after, trace_of. rewrite try_sign_long by exact Hc.
        apply foot_none. reflexivity.
  - destruct IH as [I1 [I2 (k & d & F & E & B & Q)]]. pose proof (I1 _ _ Hk) as KP.
    assert (W : wf_sk (param_set s) sk) by apply (key_pair_facts s _ _ KP).
    split; [exact I1|]. split.
    + intros i. unfold gain. destruct (call f g) as [sig|e|z] eqn:C; [|apply I2..].
      intros [<-|X]; [|apply I2; exact X]. cbn [accepted].
      destruct (N.le_gt_cases (nlen ctx) 255) as [Hc|Hc].
      * apply (prop_prehash_signatures_verify T P s _ _ KP r g m ctx ph hedged Hc). exact C.
      * subst f. unfold call in C. rewrite try_hash_sign_long in C by exact Hc. discriminate.
    + unfold keygens, hedged_attempts in *. rewrite !filter_count.
      destruct (N.le_gt_cases (nlen ctx) 255) as [Hc|Hc].
      * pose proof (foot_sign s r g sk _ hedged _ (try_hash_sign_desc _ HP g sk m ctx (ph_arg ph) hedged W Hc)) as F1.
        replace (nlen ctx <=? 255) with true by (symmetry; apply N.leb_le; exact Hc). rewrite andb_true_r.
        exists (k + (if hedged then 1 else 0))%nat, d. split; [exact (foot_app _ _ _ _ _ _ _ _ _ F F1)|].
        split; [destruct hedged; lia|]. split; [lia|]. intros Hs. rewrite (Q Hs). lia.
      * replace (nlen ctx <=? 255) with false by (symmetry; apply N.leb_gt; exact Hc). rewrite andb_false_r.
        exists (k + 0)%nat, d. split; [|split; [lia|split; [lia|intros Hs; rewrite (Q Hs); lia]]].
        apply (foot_app _ _ _ g _ _ _ _ _ F). subst f. unfold gen_after, trace_of. rewrite try_hash_sign_long by exact Hc.
        apply foot_none. reflexivity.
  - destruct IH as [I1 [I2 (k & d & F & E & B & Q)]]. pose proof (I1 _ _ Hk) as KP.
    assert (W : wf_sk (param_set s) sk) by apply (key_pair_facts s _ _ KP).
    split; [exact I1|]. split.
    + intros i. unfold gain. destruct (call f g) as [sig|e|z] eqn:C; [|apply I2..].
      intros [<-|X]; [|apply I2; exact X]. cbn [accepted].
      apply (prop_raw_signatures_verify T P s _ _ KP r g m hedged). exact C.
    + unfold keygens, hedged_attempts in *. rewrite !filter_count.
      pose proof (foot_sign s r g sk _ hedged _ (raw_sign_desc _ HP g sk m hedged W)) as F1.
      exists (k + (if hedged then 1 else 0))%nat, d. split; [exact (foot_app _ _ _ _ _ _ _ _ _ F F1)|].
      split; [destruct hedged; lia|]. split; [lia|]. intros Hs. rewrite (Q Hs). lia.
  - destruct IH as [I1 [I2 (k & d & F & E & B & Q)]]. pose proof (I1 _ _ Hk) as KP.
    assert (W : wf_sk (param_set s) sk) by apply (key_pair_facts s _ _ KP).
    assert (L : nlen skb = sk_size s).
    { rewrite (proj1 (runs_sk_into_bytes _ HP _ W)) in E3. assert (X : sk_bytes sk = skb) by congruence.
      rewrite <- X, <- param_sk. apply nlen_sk_bytes; assumption. }
    split; [|split; [exact I2|]].
    + intros pk1 sk1. unfold gain. destruct (result f) as [sk'|e|z] eqn:C; [|apply I1..].
      intros [X|X]; [|apply I1; exact X]. injection X as <- <-.
      eapply kp_sk_reimported; [|exact E3|exact C]. eapply kp_pk_reimported; [exact KP|exact E1|exact E2].
    + exists (k + 0)%nat, d. unfold keygens, hedged_attempts in *. rewrite !filter_count.
      split; [|split; [lia|split; [lia|intros Hs; rewrite (Q Hs); lia]]].
      apply (foot_app _ _ _ g _ _ _ _ _ F). apply foot_none. apply draws_import. exact L.
  - destruct IH as [I1 [I2 (k & d & F & E & B & Q)]].
    split; [|split; [exact I2|]].
    + intros pk1 sk1. unfold gain. destruct (result f) as [sk'|e|z] eqn:C; [|apply I1..].
      intros [X|X]; [|apply I1; exact X]. injection X as <- <-. eapply kp_imported; [exact L|exact C].
    + exists (k + 0)%nat, d. unfold keygens, hedged_attempts in *. rewrite !filter_count.
      split; [|split; [lia|split; [lia|intros Hs; rewrite (Q Hs); lia]]].
      apply (foot_app _ _ _ g _ _ _ _ _ F). apply foot_none. apply draws_import. exact L.
  - destruct IH as [I1 [I2 (k & d & F & E & B & Q)]]. split; [exact I1|]. split; [exact I2|].
    exists (k + 0)%nat, d. unfold keygens, hedged_attempts in *. rewrite !filter_count.
    split; [|split; [lia|split; [lia|intros Hs; rewrite (Q Hs); lia]]].
    apply (foot_app _ _ _ g _ _ _ _ _ F). apply foot_none. apply (draws_verify s pk m sig ctx PhSHA256 L).
  - destruct IH as [I1 [I2 (k & d & F & E & B & Q)]]. split; [exact I1|]. split; [exact I2|].
    exists (k + 0)%nat, d. unfold keygens, hedged_attempts in *. rewrite !filter_count.
    split; [|split; [lia|split; [lia|intros Hs; rewrite (Q Hs); lia]]].
    apply (foot_app _ _ _ g _ _ _ _ _ F). apply foot_none. apply (draws_verify s pk m sig ctx (ph_arg ph) L).
  - destruct IH as [I1 [I2 (k & d & F & E & B & Q)]]. split; [exact I1|]. split; [exact I2|].
    exists (k + 0)%nat, d. unfold keygens, hedged_attempts in *. rewrite !filter_count.
    split; [|split; [lia|split; [lia|intros Hs; rewrite (Q Hs); lia]]].
    apply (foot_app _ _ _ g _ _ _ _ _ F). apply foot_none. apply (draws_verify s pk m sig [] PhSHA256 L).
Qed.

Lemma sum_repeat n k : fold_right N.add 0 (repeat n k) = n * N.of_nat k.
Proof. induction k as [|k IH]; cbn [repeat fold_right]; [lia|]. rewrite IH. lia. Qed.
Lemma drawn_from_fold r n k : forall g, drawn_from r n k g = fold_left (fun g x => fst (try_fill r g x)) (repeat n k) g.
Proof. induction k as [|k IH]; intros g; cbn [drawn_from repeat fold_left]; [reflexivity|]. apply IH. Qed.

Lemma prop_histories_are_consistent :
  forall (T : Target) (P : Prims) (s : set_name) (r : Rng) (g0 : rng_st r) (reqs : list request) (g : rng_st r)
         (keys : list (SlhPublicKey * SlhPrivateKey)) (issued : list issue) (t : list event),
    history s r g0 reqs g keys issued t ->
    (forall i, In i issued -> accepted s i) /\
    (forall pk sk, In (pk, sk) keys -> key_pair s pk sk) /\
    Forall (fun k => k = seed_bytes s) (draws t) /\
    g = fold_left (fun g k => fst (try_fill r g k)) (draws t) g0 /\
    exists d, keygens reqs <= d <= 3 * keygens reqs /\
      bytes_drawn t = seed_bytes s * (hedged_attempts reqs + d) /\
      ((forall g, exists b g', gives r g (seed_bytes s) b g') -> d = 3 * keygens reqs).
Proof.
  intros T P s r g0 reqs g keys issued t Hh. destruct (history_foot _ _ _ _ _ _ _ _ Hh) as [I1 [I2 (k & d & [F1 F2] & E & B & Q)]].
  split; [exact I2|]. split; [exact I1|]. unfold bytes_drawn. rewrite F1. split; [|split].
  - apply Forall_forall. intros x X. apply repeat_spec in X. exact X.
  - rewrite F2. apply drawn_from_fold.
  - exists d. split; [exact B|]. split; [rewrite sum_repeat, E; reflexivity|exact Q].
Qed.
