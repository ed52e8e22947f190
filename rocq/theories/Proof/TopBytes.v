(** C82: the work is linear in the length of the message. *)
From Verif Require Import Spec.Fips205 Spec.Fips205Hash.
From Verif Require Import Model.Api Proof.Facts Proof.HashP Proof.Fun Proof.WotsP Proof.XmssP Proof.HtP Proof.ForsP Proof.SlhP Proof.SerP Proof.ApiP
  Proof.SpecFun Proof.SpecP Proof.HelpersP Proof.Honest Proof.PosP Spec.Vocab Proof.Summary Proof.CallsP Proof.TopCorrect Proof.TopSafety
  Proof.TopKeys Proof.TopSer Proof.TopFraming Proof.TopTrace Proof.TopFips Proof.TopPath Spec.VocabWork Proof.TopWork Proof.TopCalls Spec.VocabBytes.
Import ListNotations.
Open Scope list_scope.
Open Scope N_scope.

Lemma bytes_app a b : bytes_handed (a ++ b) = bytes_handed a + bytes_handed b.
Proof. unfold bytes_handed. rewrite map_app. apply total_app. Qed.
Lemma bytes_cons e b : bytes_handed (e :: b) = handed e + bytes_handed b.
Proof. reflexivity. Qed.
Lemma bytes_calls t : bytes_handed (calls t) = bytes_handed t.
Proof.
  induction t as [|e t IH]; [reflexivity|]. unfold calls. cbn [filter]. fold (calls t). rewrite bytes_cons, <- IH.
  destruct e; cbn [is_call handed]; try rewrite bytes_cons; reflexivity.
Qed.
Lemma total_nlen_concat (l : list bytes) : total (map nlen l) = nlen (concat l).
Proof.
  induction l as [|x l IH]; [reflexivity|]. cbn [map total fold_right concat]. change (fold_right N.add 0 ?l) with (total l).
  rewrite IH, nlen_app. reflexivity.
Qed.

Lemma largest_eq s : largest_call s =
  cN (param_set s) + 32 + N.max (cLEN (param_set s)) (cK (param_set s)) * cN (param_set s).
Proof. destruct s; reflexivity. Qed.

Lemma shaped_bytes s ps e : nlen ps = cN (param_set s) -> shaped (param_set s) ps e -> handed e <= largest_call s.
Proof.
  intros Lp (k & l & t & ty & b & c & d & inp & -> & _ & S & F). cbn [handed]. rewrite Lp, largest_eq.
  assert (E : total (map nlen inp) = nlen inp * cN (param_set s)).
  { clear S. induction F as [|x inp Lx F IH]; [reflexivity|]. cbn [map total fold_right].
    change (fold_right N.add 0 ?l) with (total l). rewrite IH, Lx, nlen_cons. lia. }
  rewrite E. apply N.add_le_mono_l. apply N.mul_le_mono_r.
  assert (B : nlen inp <= cLEN (param_set s) \/ nlen inp <= cK (param_set s)).
  { assert (2 <= cK (param_set s)) by (destruct s; discriminate).
    unfold slot in S. set (j := nlen inp) in *. clearbody j. intuition lia. }
  destruct B as [B|B]; [apply (N.le_trans _ _ _ B), N.le_max_l|apply (N.le_trans _ _ _ B), N.le_max_r].
Qed.

Lemma shaped_total s ps L : nlen ps = cN (param_set s) -> Forall (shaped (param_set s) ps) L ->
  bytes_handed L <= nlen L * largest_call s.
Proof.
  intros Lp F. induction F as [|e L S F IH]; [apply N.le_0_l|]. rewrite bytes_cons, nlen_cons.
  pose proof (shaped_bytes s ps e Lp S) as B. set (c := largest_call s) in *. clearbody c. lia.
Qed.

Lemma three_n s : 3 * cN (param_set s) <= largest_call s.
Proof. destruct s; discriminate. Qed.

Lemma owned_bytes {P : Prims} s ps ss okx okf L : nlen ps = cN (param_set s) -> nlen ss = cN (param_set s) ->
  okx = okx0 (param_set s) -> okf = okf0 (param_set s) ->
  Forall (owned (param_set s) (hf_of (param_set s)) ps ss okx okf) L -> bytes_handed L <= nlen L * largest_call s.
Proof.
  intros Lp Ls -> -> F. apply (shaped_total s ps L Lp). eapply Forall_impl; [|exact F]. intros e O.
  exact (owned_shaped _ (param_PF s) _ (HASHERS_len _ (param_PF s)) ps ss e Ls O).
Qed.

Lemma verify_bytes {T : Target} {P : Prims} s pk M' sig tr : verifying_run s pk M' sig tr ->
  bytes_handed tr <= hash_count tr * largest_call s + nlen M'.
Proof.
  intros R. pose proof (param_PF s) as HP. pose proof (HASHERS_len _ HP) as HL.
  destruct (verifying_shape _ _ _ _ _ R) as (mp & Em & [W1 W2] & L & C).
  pose proof (wf_dec_sig _ HP sig L) as WD.
  rewrite <- bytes_calls, <- hash_count_calls, C. unfold verify_calls.
  set (dg := verify_digest _ pk _ _). 
  pose proof (shaped_vrootC _ HP (hf_of (param_set s)) HL (pk_seed pk) dg _ WD) as F.
  rewrite <- param_n in W1, W2.
  pose proof (shaped_total s _ _ W1 F) as B. rewrite <- (hash_count_allH (vrootC _ _ _ _ _)) in B by apply allH_vrootC.
  set (V := vrootC _ _ _ _ _) in *. clearbody V. rewrite bytes_cons.
  change (EHmsg ?a ?b ?c ?d :: V) with ([EHmsg a b c d] ++ V). rewrite hash_count_app. change (hash_count [_]) with 1.
  cbn [handed]. rewrite total_nlen_concat, Em, W1, W2.
  assert (LR : nlen (randomness (dec_sig (param_set s) sig)) = cN (param_set s)) by apply WD. rewrite LR.
  pose proof (three_n s) as K3. set (c := largest_call s) in *. clearbody c. lia.
Qed.

Lemma sign_bytes_handed {T : Target} {P : Prims} s sk M' sig tr : signing_run s sk M' sig tr ->
  bytes_handed tr <= hash_count tr * largest_call s + 2 * nlen M'.
Proof.
  intros R. pose proof (param_PF s) as HP. pose proof (HASHERS_len _ HP) as HL.
  destruct (signing_shape _ _ _ _ _ R) as (r & g & mp & hedged & b & Em & Es & (W1 & W2 & W3 & W4) & C & D).
  rewrite <- param_n in W1, W2, W3, W4.
  assert (Lb : nlen b = cN (param_set s)).
  { unfold draw in D. destruct hedged; [|injection D as D; rewrite <- D; exact W3].
    eapply (try_fill_len r). exact D. }
  rewrite <- bytes_calls, <- hash_count_calls, C, bytes_app, hash_count_app.
  replace (bytes_handed (if hedged then [ERng (cN (param_set s))] else [])) with 0 by (destruct hedged; reflexivity).
  replace (hash_count (if hedged then [ERng (cN (param_set s))] else [])) with 0 by (destruct hedged; reflexivity).
  rewrite !N.add_0_l. unfold sign_calls. cbv zeta.
  set (dg := sign_digest _ sk b _).
  pose proof (owned_bytes s _ _ _ _ _ W3 W1 eq_refl eq_refl (tail_owned _ HP (hf_of (param_set s)) (sk_pk_seed sk) (sk_seed sk) dg)) as B.
  rewrite <- (hash_count_allH (sig_tailC _ _ _ _ _)) in B by apply allH_sig_tailC.
  set (V := sig_tailC _ _ _ _ _) in *. clearbody V. rewrite !bytes_cons.
  change (?x :: ?y :: V) with ([x; y] ++ V). rewrite hash_count_app. change (hash_count [_; _]) with 2.
  cbn [handed]. rewrite !total_nlen_concat, Em, W2, W3, W4, Lb.
  assert (LR : nlen (sign_R (hf_of (param_set s)) sk b M') = cN (param_set s)) by apply (len_PRFm _ _ _ HL). rewrite LR.
  pose proof (three_n s) as K3. set (c := largest_call s) in *. clearbody c. lia.
Qed.

Lemma root_bytes {P : Prims} s ps ss : nlen ps = cN (param_set s) -> nlen ss = cN (param_set s) ->
  bytes_handed (prootC (param_set s) (hf_of (param_set s)) ps ss) <=
  nlen (prootC (param_set s) (hf_of (param_set s)) ps ss) * largest_call s.
Proof. intros Lp Ls. exact (owned_bytes s ps ss _ _ _ Lp Ls eq_refl eq_refl (root_owned _ (param_PF s) _ ps ss)). Qed.

Lemma prop_work_linear_in_message :
  forall (T : Target) (P : Prims) (s : set_name),
    let t := table2 s in
    let len := chains s in
    let verify_calls := t_k t * (t_a t + 1) + 2 + t_d t * (15 * len + t_h' t + 1) in
    let sign_calls := 2 + t_k t * (3 * 2 ^ t_a t) + (t_k t * (t_a t + 1) + 1) +
      t_d t * ((2 ^ t_h' t - 1) * (16 * len + 2) + 16 * len + (15 * len + t_h' t + 1)) in
    let keygen_calls := 2 ^ t_h' t * (16 * len + 2) - 1 in
    (** the framed message enters a verification once, and a signature twice *)
    (forall pk M' sig tr, verifying_run s pk M' sig tr ->
       bytes_handed tr <= verify_calls * largest_call s + nlen M') /\
    (forall sk M' sig tr, signing_run s sk M' sig tr ->
       bytes_handed tr <= sign_calls * largest_call s + 2 * nlen M') /\
    (** a request with a refused context hands nothing to these functions *)
    (forall pk m sig ctx ph, 255 < nlen ctx ->
       bytes_handed (trace (verify (param_set s) pk m sig ctx)) = 0 /\
       bytes_handed (trace (hash_verify (param_set s) pk m sig ctx ph)) = 0) /\
    (forall r g sk m ctx ph hedged, 255 < nlen ctx ->
       bytes_handed (trace_of (try_sign_with_rng (param_set s) r sk m ctx hedged) g) = 0 /\
       bytes_handed (trace_of (try_hash_sign_with_rng (param_set s) r sk m ctx ph hedged) g) = 0) /\
    (** generation and import, successful or not *)
    (forall r g, bytes_handed (trace_of (try_keygen_with_rng (param_set s) r) g) <= keygen_calls * largest_call s) /\
    (forall bs, nlen bs = sk_size s ->
       bytes_handed (trace (sk_try_from_bytes (param_set s) bs)) <= keygen_calls * largest_call s) /\
    (** the framed messages *)
    (forall m ctx, nlen (Fips205.pure_M' m ctx) = 2 + nlen ctx + nlen m) /\
    (forall m ctx ph, nlen (Fips205.hash_M' (fst (PH_fn ph m)) (snd (PH_fn ph m)) ctx) <= 2 + nlen ctx + 11 + 64).
Proof.
  intros T P s t len vc sc kc. pose proof (param_PF s) as HP.
  destruct (prop_keygen_and_signing_work T P s) as (_ & _ & KS).
  assert (EL : 2 * t_n t + 3 = len) by reflexivity. cbv zeta in KS. fold t in KS. rewrite EL in KS. fold sc in KS.
  split; [|split; [|split; [|split; [|split; [|split; [|split]]]]]].
  - intros pk M' sig tr R. pose proof (verify_bytes _ _ _ _ _ R) as B.
    assert (C : hash_count tr <= vc).
    { destruct R as [pk m sig ctx W L Hc|pk m sig ctx ph W L Hc|pk m sig W L].
      - exact (proj1 (prop_verification_work_bounded T P s pk m sig ctx PhSHA256 L)).
      - exact (proj1 (proj2 (prop_verification_work_bounded T P s pk m sig ctx (ph_arg ph) L))).
      - exact (proj2 (proj2 (prop_verification_work_bounded T P s pk m sig [] PhSHA256 L))). }
    apply (N.le_trans _ _ _ B). apply N.add_le_mono_r. apply N.mul_le_mono_r. exact C.
  - intros sk M' sig tr R. pose proof (sign_bytes_handed _ _ _ _ _ R) as B. specialize (KS _ _ _ _ R).
    apply (N.le_trans _ _ _ B). apply N.add_le_mono_r. apply N.mul_le_mono_r. exact KS.
  - intros pk m sig ctx ph Hc. rewrite <- (bytes_calls (trace (verify _ _ _ _ _))), <- (bytes_calls (trace (hash_verify _ _ _ _ _ _))).
    rewrite (proj2 (runs_verify_long _ pk m sig ctx Hc)), (proj2 (runs_hash_verify_long _ pk m sig ctx ph Hc)). split; reflexivity.
  - intros r g sk m ctx ph hedged Hc. unfold trace_of.
    rewrite (try_sign_long _ _ _ _ _ _ _ Hc), (try_hash_sign_long _ _ _ _ _ _ _ _ Hc). split; reflexivity.
  - intros r g. unfold trace_of. rewrite <- bytes_calls.
    pose proof (keygen_is _ HP (r := r) g) as D. unfold keygen_desc in D. cbv zeta in D.
    destruct (try_fill r g (cN (param_set s))) as [g1 [x|e|z]] eqn:E1; cbn [fst snd] in D.
    2,3: destruct D as [_ [_ D]]; rewrite D; apply N.le_0_l.
    destruct (try_fill r g1 (cN (param_set s))) as [g2 [y|e|z]] eqn:E2; cbn [fst snd] in D.
    2,3: destruct D as [_ [_ D]]; rewrite D; apply N.le_0_l.
    destruct (try_fill r g2 (cN (param_set s))) as [g3 [w|e|z]] eqn:E3; cbn [fst snd] in D.
    2,3: destruct D as [_ [_ D]]; rewrite D; apply N.le_0_l.
    destruct D as [_ [_ D]]. rewrite D.
    change (?a :: ?b :: ?c :: ?Z) with ([a; b; c] ++ Z). rewrite bytes_app. change (bytes_handed [_; _; _]) with 0. rewrite N.add_0_l.
    pose proof (root_bytes s w x (try_fill_len _ _ _ _ _ E3) (try_fill_len _ _ _ _ _ E1)) as B.
    rewrite len_prootC in B. rewrite (TopSer.param_hp s), (TopSer.param_len s) in B. exact B.
  - intros bs L. rewrite <- param_sk in L. rewrite <- bytes_calls.
    pose proof (wf_sk_of_bytes _ HP _ L) as (Wa & Wb & Wc & Wd).
    pose proof (root_bytes s _ _ Wc Wa) as B. rewrite len_prootC in B. rewrite (TopSer.param_hp s), (TopSer.param_len s) in B.
    destruct (list_eq_dec Byte.byte_eq_dec (sk_pk_root (sk_of_bytes (param_set s) bs))
             (proot (param_set s) (hf_of (param_set s)) (sk_pk_seed (sk_of_bytes (param_set s) bs)) (sk_seed (sk_of_bytes (param_set s) bs)))) as [C|C].
    + rewrite (proj2 (runs_sk_try_from_bytes _ HP bs L C)). exact B.
    + rewrite (proj2 (errs_sk_try_from_bytes _ HP bs L C)). exact B.
  - intros m ctx. unfold Fips205.pure_M'. rewrite !toByte1, !nlen_app. change (nlen [_]) with 1. lia.
  - intros m ctx ph. unfold Fips205.hash_M'. rewrite !toByte1, !nlen_app. change (nlen [_]) with 1.
    assert (K : nlen (fst (PH_fn ph m)) = 11 /\ nlen (snd (PH_fn ph m)) <= 64).
    { destruct ph; cbn [PH_fn fst snd]; (split; [reflexivity|]).
      - rewrite (sha256_len m). discriminate.
      - rewrite (sha512_len m). discriminate.
      - rewrite (shake128_len m 32). discriminate.
      - rewrite (shake256_len m 64). discriminate. }
    lia.
Qed.
