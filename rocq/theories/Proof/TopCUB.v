(** C programs: which calls are undefined behaviour. *)
From Coq Require Import String.
From Verif Require Import Spec.Fips205 Spec.Fips205Hash.
From Verif Require Import Model.Api Model.Ffi Model.FfiMem Proof.Facts Spec.Vocab Spec.VocabFfi Spec.VocabC Proof.TopFfi Proof.TopC.
Import ListNotations.
Open Scope list_scope.
Open Scope N_scope.

Lemma overlap_iff a n b m : overlap a n b m = true <-> ~ apart a n b m.
Proof.
  split.
  - intros E A. rewrite (apart_overlap _ _ _ _ A) in E. discriminate E.
  - intros A. unfold apart in A. unfold overlap.
    rewrite (proj2 (N.eqb_neq a 0)), (proj2 (N.eqb_neq b 0)), (proj2 (N.ltb_lt 0 n)), (proj2 (N.ltb_lt 0 m)),
      (proj2 (N.ltb_lt a (b + m))), (proj2 (N.ltb_lt b (a + n))) by lia. reflexivity.
Qed.

Lemma ref_iff M a n : ref_ok M a n = true <-> null_or_struct M a n.
Proof. unfold ref_ok, null_or_struct. rewrite orb_true_iff, N.eqb_eq, N.leb_le. reflexivity. Qed.

Lemma slice_iff buf len a n b m : slice_aliases buf len a n b m = true <->
  a <> 0 /\ b <> 0 /\ (~ apart buf (Z.to_N len) a n \/ ~ apart buf (Z.to_N len) b m).
Proof.
  unfold slice_aliases. rewrite !andb_true_iff, !negb_true_iff, orb_true_iff, !N.eqb_neq, !overlap_iff. tauto.
Qed.

Section UB.
Context {T : Target} {P : Prims}.

Lemma raw_ub M a len : a <> 0 ->
  from_raw_parts (buffer M a) len = RUB <-> (0 < len)%Z /\ Z.to_N len < 2 ^ usize_bits /\ mem_top M < a + Z.to_N len.
Proof.
  intros Na. unfold buffer, from_raw_parts. rewrite (proj2 (N.eqb_neq a 0) Na).
  set (X := 2 ^ usize_bits) in *. assert (0 < X) by (unfold X; apply N.neq_0_lt_0, N.pow_nonzero; discriminate). clearbody X.
  destruct (Z.ltb_spec len 0) as [L|L]; cbn [orb]; [split; [intros Q; discriminate Q|intros (Q & _); lia]|].
  destruct (Z.leb_spec (Z.of_N X) len) as [L2|L2]; [split; [intros Q; discriminate Q|intros (_ & Q & _); lia]|].
  rewrite nlen_load. destruct (N.leb_spec (Z.to_N len) (mem_top M - a)) as [L3|L3].
  - split; [intros Q; discriminate Q|]. intros Q. lia.
  - split; [intros _; lia|reflexivity].
Qed.

Lemma raw_null len : from_raw_parts None len = RUB <-> (0 <= len)%Z /\ Z.to_N len < 2 ^ usize_bits.
Proof.
  unfold from_raw_parts. set (X := 2 ^ usize_bits) in *. clearbody X.
  destruct (Z.ltb_spec len 0) as [L|L]; cbn [orb]; [split; [intros Q; discriminate Q|intros Q; lia]|].
  destruct (Z.leb_spec (Z.of_N X) len) as [L2|L2]; [split; [intros Q; discriminate Q|intros Q; lia]|].
  split; [intros _; lia|reflexivity].
Qed.

Lemma keygen_no_ub os g a b : snd (ffi_keygen os g a b) <> FUB.
Proof.
  unfold ffi_keygen. destruct a, b; try (cbn [snd]; discriminate).
  destruct (try_keygen _ os g) as [g' r]. destruct (result r) as [[pk sk]|e|q]; [|cbn [snd]; discriminate..].
  destruct (result (pk_into_bytes _ pk)); [|cbn [snd]; discriminate..].
  destruct (result (sk_into_bytes _ sk)); cbn [snd]; discriminate.
Qed.

Lemma sign_ub os g b len k o : snd (ffi_sign os g (Some b) len (Some k) (Some o)) = FUB <-> from_raw_parts (Some b) len = RUB.
Proof.
  unfold ffi_sign. destruct (from_raw_parts (Some b) len) as [m| |].
  - destruct (result (sk_try_from_bytes _ k)) as [sk|e|q]; [|split; intros Q; discriminate Q..].
    destruct (try_sign _ os sk m [] true g) as [g' r]. destruct (result r); split; intros Q; discriminate Q.
  - split; intros Q; discriminate Q.
  - split; reflexivity.
Qed.

Lemma verify_ub b len k s : ffi_verify b len (Some k) (Some s) = FUB <-> from_raw_parts b len = RUB.
Proof.
  unfold ffi_verify. destruct (from_raw_parts b len) as [m| |].
  - destruct (result (pk_try_from_bytes _ k)) as [pk|e|q]; [|split; intros Q; discriminate Q..].
    destruct (result (verify _ pk m s [])) as [[|]|e|q]; split; intros Q; discriminate Q.
  - split; intros Q; discriminate Q.
  - split; reflexivity.
Qed.
End UB.

Lemma prop_c_undefined_exactly :
  forall (T : Target) (P : Prims) (os : Rng) (g : rng_st os) (M : cmem),
    (forall pub priv, snd (c_step os g M (CKeygen pub priv)) = FUB <->
       ~ (null_or_struct M pub 32 /\ null_or_struct M priv 64 /\ apart pub 32 priv 64)) /\
    (forall buf len sk out, snd (c_step os g M (CSign buf len sk out)) = FUB <->
       ~ (null_or_struct M sk 64 /\ null_or_struct M out 17088 /\ apart sk 64 out 17088) \/
       (sk <> 0 /\ out <> 0 /\ buf <> 0 /\
        (~ apart buf (Z.to_N len) sk 64 \/ ~ apart buf (Z.to_N len) out 17088 \/
         ((0 < len)%Z /\ Z.to_N len < 2 ^ usize_bits /\ mem_top M < buf + Z.to_N len)))) /\
    (forall buf len pk sig, snd (c_step os g M (CVerify buf len pk sig)) = FUB <->
       ~ (null_or_struct M pk 32 /\ null_or_struct M sig 17088 /\ apart pk 32 sig 17088) \/
       (pk <> 0 /\ sig <> 0 /\
        ((buf = 0 /\ (0 <= len)%Z /\ Z.to_N len < 2 ^ usize_bits) \/
         (buf <> 0 /\
          (~ apart buf (Z.to_N len) pk 32 \/ ~ apart buf (Z.to_N len) sig 17088 \/
           ((0 < len)%Z /\ Z.to_N len < 2 ^ usize_bits /\ mem_top M < buf + Z.to_N len)))))).
Proof.
  intros T P os g M. cbn [c_step]. split; [|split].
  - intros pub priv. unfold c_keygen. change C_PK_LEN with 32. change C_SK_LEN with 64.
    destruct (ref_ok M pub 32) eqn:R1; cbn [andb].
    2: { split; [|reflexivity]. intros _ (X & _). apply ref_iff in X. congruence. }
    destruct (ref_ok M priv 64) eqn:R2; cbn [andb].
    2: { split; [|reflexivity]. intros _ (_ & X & _). apply ref_iff in X. congruence. }
    destruct (overlap pub 32 priv 64) eqn:R3; cbn [negb].
    { split; [|reflexivity]. intros _ (_ & _ & X). apply overlap_iff in R3. exact (R3 X). }
    apply ref_iff in R1. apply ref_iff in R2.
    pose proof (keygen_no_ub os g (deref M pub 32) (deref M priv 64)) as K.
    destruct (ffi_keygen os g (deref M pub 32) (deref M priv 64)) as [g' r]. cbn [snd] in *. split.
    + intros Q. exfalso. destruct r as [c [pb sb]| |]; try discriminate Q. apply K. reflexivity.
    + intros X. exfalso. apply X. split; [exact R1|]. split; [exact R2|].
      destruct (overlap pub 32 priv 64) eqn:Y; [discriminate R3|]. unfold apart, overlap in *. lia.
  - intros buf len sk out. unfold c_sign. change C_SK_LEN with 64. change C_SIG_LEN with 17088.
    destruct (ref_ok M sk 64) eqn:R1; cbn [andb].
    2: { split; [|reflexivity]. intros _. left. intros (X & _). apply ref_iff in X. congruence. }
    destruct (ref_ok M out 17088) eqn:R2; cbn [andb].
    2: { split; [|reflexivity]. intros _. left. intros (_ & X & _). apply ref_iff in X. congruence. }
    destruct (overlap sk 64 out 17088) eqn:R3; cbn [negb andb].
    { split; [|reflexivity]. intros _. left. intros (_ & _ & X). apply overlap_iff in R3. exact (R3 X). }
    apply ref_iff in R1. apply ref_iff in R2.
    assert (A : apart sk 64 out 17088) by (unfold apart, overlap in *; lia). clear R3.
    assert (Base : forall X : Prop, X <-> ~ (null_or_struct M sk 64 /\ null_or_struct M out 17088 /\ apart sk 64 out 17088) \/ X) by tauto.
    rewrite <- Base. clear Base.
    destruct (slice_aliases buf len sk 64 out 17088) eqn:Sl; cbn [negb].
    { apply slice_iff in Sl. destruct Sl as (N1 & N2 & Sl). split; [|reflexivity]. intros _. split; [exact N1|]. split; [exact N2|].
      split; [intros ->; destruct Sl as [Sl|Sl]; apply Sl; left; reflexivity|]. tauto. }
    assert (Sl' : ~ (sk <> 0 /\ out <> 0 /\ (~ apart buf (Z.to_N len) sk 64 \/ ~ apart buf (Z.to_N len) out 17088))).
    { intros X. apply slice_iff in X. congruence. }
    assert (W : forall g' r, snd ((g', match r with FReturn code o => FReturn code (assign M out o) | FAbort => FAbort | FUB => FUB end) : rng_st os * ffi_result cmem) = FUB
                  <-> snd ((g', r) : rng_st os * ffi_result (option bytes)) = FUB).
    { intros g' r. cbn [snd]. destruct r; split; intros Q; try discriminate Q; reflexivity. }
    destruct (ffi_sign os g (buffer M buf) len (deref M sk 64) (deref M out 17088)) as [g' r] eqn:E. rewrite W, <- E. clear W E g' r.
    unfold deref. destruct (N.eqb_spec sk 0) as [Z1|Z1]; [cbn [ffi_sign snd]; split; [intros Q; discriminate Q|tauto]|].
    destruct (N.eqb_spec out 0) as [Z2|Z2]; [cbn [ffi_sign snd]; split; [intros Q; discriminate Q|tauto]|].
    destruct (N.eqb_spec buf 0) as [Z3|Z3].
    + subst buf. cbn [buffer ffi_sign]. split; [intros Q; discriminate Q|tauto].
    + assert (Bf : exists b, buffer M buf = Some b) by (unfold buffer; rewrite (proj2 (N.eqb_neq buf 0) Z3); eauto).
      destruct Bf as [b Bf]. rewrite Bf, sign_ub, <- Bf, (raw_ub M buf len Z3). tauto.
  - intros buf len pk sig. cbn [snd]. unfold c_verify. change C_PK_LEN with 32. change C_SIG_LEN with 17088.
    destruct (ref_ok M pk 32) eqn:R1; cbn [andb].
    2: { split; [|reflexivity]. intros _. left. intros (X & _). apply ref_iff in X. congruence. }
    destruct (ref_ok M sig 17088) eqn:R2; cbn [andb].
    2: { split; [|reflexivity]. intros _. left. intros (_ & X & _). apply ref_iff in X. congruence. }
    destruct (overlap pk 32 sig 17088) eqn:R3; cbn [negb andb].
    { split; [|reflexivity]. intros _. left. intros (_ & _ & X). apply overlap_iff in R3. exact (R3 X). }
    apply ref_iff in R1. apply ref_iff in R2.
    assert (A : apart pk 32 sig 17088) by (unfold apart, overlap in *; lia). clear R3.
    assert (Base : forall X : Prop, X <-> ~ (null_or_struct M pk 32 /\ null_or_struct M sig 17088 /\ apart pk 32 sig 17088) \/ X) by tauto.
    rewrite <- Base. clear Base.
    destruct (slice_aliases buf len pk 32 sig 17088) eqn:Sl; cbn [negb].
    { apply slice_iff in Sl. destruct Sl as (N1 & N2 & Sl). split; [|reflexivity]. intros _. split; [exact N1|]. split; [exact N2|].
      right. split; [intros ->; destruct Sl as [Sl|Sl]; apply Sl; left; reflexivity|]. tauto. }
    assert (Sl' : ~ (pk <> 0 /\ sig <> 0 /\ (~ apart buf (Z.to_N len) pk 32 \/ ~ apart buf (Z.to_N len) sig 17088))).
    { intros X. apply slice_iff in X. congruence. }
    assert (W : forall r, match r : ffi_result unit with FReturn code _ => FReturn code M | FAbort => FAbort | FUB => FUB end = FUB <-> r = FUB).
    { intros r. destruct r; split; intros Q; try discriminate Q; reflexivity. }
    rewrite W. clear W.
    unfold deref. destruct (N.eqb_spec pk 0) as [Z1|Z1]; [cbn [ffi_verify]; split; [intros Q; discriminate Q|tauto]|].
    destruct (N.eqb_spec sig 0) as [Z2|Z2]; [cbn [ffi_verify]; split; [intros Q; discriminate Q|tauto]|].
    rewrite verify_ub. destruct (N.eqb_spec buf 0) as [Z3|Z3].
    + subst buf. change (buffer M 0) with (@None bytes). rewrite raw_null. tauto.
    + rewrite (raw_ub M buf len Z3). tauto.
Qed.
