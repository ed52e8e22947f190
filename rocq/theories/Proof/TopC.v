(** C programs calling the library on their own memory: C60. *)
From Coq Require Import String.
From Verif Require Import Spec.Fips205 Spec.Fips205Hash.
From Verif Require Import Model.Api Model.Ffi Model.FfiMem Proof.Facts Proof.ApiP Spec.Vocab Spec.VocabFfi Spec.VocabC Proof.Summary
  Proof.TopCorrect Proof.TopSafety Proof.TopFips Proof.TopKeys Proof.TopRandom Proof.TopFfi.
Import ListNotations.
Open Scope list_scope.
Open Scope N_scope.

(** ** memory *)
Lemma nlen_load M a n : nlen (load M a n) = n.
Proof. unfold load, nlen. rewrite map_length, seq_length. lia. Qed.

Lemma load_ext M M' a n :
  (forall x, a <= x < a + n -> mem_at M' x = mem_at M x) -> load M' a n = load M a n.
Proof.
  intros E. unfold load. apply map_ext_in. intros i I. apply in_seq in I. apply E. lia.
Qed.

Lemma map_seq_shift {A} (f : nat -> A) k n : map f (seq k n) = map (fun i => f (k + i)%nat) (seq 0 n).
Proof.
  revert f k. induction n as [|n IH]; intros f k; [reflexivity|]. cbn [seq map].
  rewrite (IH f (S k)), (IH (fun i => f (k + i)%nat) 1%nat), Nat.add_0_r. apply (f_equal (cons (f k))).
  apply map_ext. intros i. f_equal. lia.
Qed.

Lemma sub_load M a n lo hi : lo <= hi -> hi <= n -> sub_bytes (load M a n) lo hi = load M (a + lo) (hi - lo).
Proof.
  intros L1 L2. unfold sub_bytes, load.
  replace (N.to_nat n) with (N.to_nat lo + (N.to_nat (hi - lo) + N.to_nat (n - hi)))%nat by lia.
  rewrite seq_app, map_app, skipn_app, map_length, seq_length, Nat.sub_diag.
  rewrite skipn_all2 by (rewrite map_length, seq_length; lia). cbn [app skipn].
  rewrite seq_app, map_app, firstn_app, map_length, seq_length, Nat.sub_diag, firstn_O, app_nil_r.
  rewrite firstn_all2 by (rewrite map_length, seq_length; lia).
  rewrite map_seq_shift. apply map_ext. intros i. f_equal. lia.
Qed.

Lemma load_store M a bs : load (store M a bs) a (nlen bs) = bs.
Proof.
  unfold load, nlen. rewrite Nat2N.id.
  apply nth_ext with (d := Byte.x00) (d' := Byte.x00); rewrite map_length, seq_length; [reflexivity|].
  intros i I. rewrite nth_indep with (d' := mem_at (store M a bs) (a + N.of_nat 0)).
  2: { rewrite map_length, seq_length. exact I. }
  rewrite map_nth with (f := fun i => mem_at (store M a bs) (a + N.of_nat i)).
  rewrite seq_nth by exact I. cbn [mem_at store].
  replace (a <=? a + N.of_nat (0 + i)) with true by (symmetry; apply N.leb_le; lia).
  replace (a + N.of_nat (0 + i) <? a + nlen bs) with true by (symmetry; apply N.ltb_lt; unfold nlen; lia).
  cbn [andb]. f_equal. lia.
Qed.

Lemma store_other M a bs x : ~ (a <= x < a + nlen bs) -> mem_at (store M a bs) x = mem_at M x.
Proof.
  intros N. cbn [store mem_at]. destruct (N.leb_spec a x) as [L1|L1]; [|reflexivity].
  destruct (N.ltb_spec x (a + nlen bs)) as [L2|L2]; [|reflexivity]. exfalso. lia.
Qed.

Lemma load_store_apart M a bs b n :
  a + nlen bs <= b \/ b + n <= a -> load (store M a bs) b n = load M b n.
Proof. intros D. apply load_ext. intros x L. apply store_other. lia. Qed.

(** writing back what was read changes no byte *)
Lemma store_load M a n x : mem_at (store M a (load M a n)) x = mem_at M x.
Proof.
  cbn [store mem_at]. rewrite nlen_load.
  destruct (N.leb_spec a x) as [L1|L1]; [|reflexivity].
  destruct (N.ltb_spec x (a + n)) as [L2|L2]; [|reflexivity]. cbn [andb].
  unfold load. rewrite nth_indep with (d' := mem_at M (a + N.of_nat 0)).
  2: { rewrite map_length, seq_length. lia. }
  rewrite map_nth with (f := fun i => mem_at M (a + N.of_nat i)).
  rewrite seq_nth by lia. f_equal. lia.
Qed.

Lemma assign_deref M M1 a n x : (forall y, mem_at M1 y = mem_at M y) ->
  mem_at (assign M1 a (deref M a n)) x = mem_at M x.
Proof.
  intros E. unfold deref. destruct (a =? 0); cbn [assign]; [apply E|].
  rewrite <- (store_load M a n x). cbn [store mem_at]. rewrite E. reflexivity.
Qed.

Lemma apart_overlap a n b m : apart a n b m -> overlap a n b m = false.
Proof.
  intros A. unfold overlap.
  destruct (N.eqb_spec a 0); [reflexivity|]. destruct (N.eqb_spec b 0); [reflexivity|].
  destruct (N.ltb_spec 0 n); [|reflexivity]. destruct (N.ltb_spec 0 m); [|reflexivity].
  destruct (N.ltb_spec a (b + m)); [|reflexivity]. destruct (N.ltb_spec b (a + n)); [|reflexivity].
  exfalso. destruct A as [?|[?|[?|[?|[?|?]]]]]; lia.
Qed.

Lemma struct_ok M a n : null_or_struct M a n -> ref_ok M a n = true.
Proof.
  intros [->|L]; unfold ref_ok; [reflexivity|]. apply orb_true_iff. right. apply N.leb_le. exact L.
Qed.

Lemma slice_apart buf len a n b m :
  buf = 0 \/ (apart buf (Z.to_N len) a n /\ apart buf (Z.to_N len) b m) -> slice_aliases buf len a n b m = false.
Proof.
  intros C. unfold slice_aliases.
  replace (overlap buf (Z.to_N len) a n) with false; [replace (overlap buf (Z.to_N len) b m) with false|].
  - apply andb_false_r.
  - symmetry. apply apart_overlap. destruct C as [->|[_ C]]; [left; reflexivity|exact C].
  - symmetry. apply apart_overlap. destruct C as [->|[C _]]; [left; reflexivity|exact C].
Qed.

Lemma read_message {T : Target} M a len :
  readable M a len -> exists buf, buffer M a = Some buf /\ c_message buf len (load M a (Z.to_N len)).
Proof.
  intros (Na & L0 & L1 & L2). exists (load M a (mem_top M - a)). split.
  - unfold buffer. destruct (N.eqb_spec a 0) as [E|_]; [contradiction|reflexivity].
  - unfold c_message. rewrite nlen_load. split; [exact L0|].
    split; [|split; [|exact L2]].
    + rewrite sub_load by (set (X := 2 ^ usize_bits) in *; clearbody X; lia). f_equal; lia.
    + set (X := 2 ^ usize_bits) in *; clearbody X. lia.
Qed.

Lemma deref_some M a n : a <> 0 -> deref M a n = Some (load M a n).
Proof. intros Na. unfold deref. destruct (N.eqb_spec a 0) as [E|_]; [contradiction|reflexivity]. Qed.

Lemma ret_inv {O} c (o : O) c' o' : FReturn c o = FReturn c' o' -> c' = c /\ o' = o.
Proof. intros E. split; congruence. Qed.

(** ** the functions on struct contents, by cases on what they return *)
Section Cases.
Context {T : Target} {P : Prims}.

(** a private struct the library accepts *)
Definition good_sk (skb : bytes) : Prop :=
  nlen skb = 64 /\ exists sk, result (sk_try_from_bytes (param_set SHA2_128f) skb) = Val sk.

Definition verified (pkb m sigb : bytes) : Prop :=
  Fips205.slh_verify (fips_params SHA2_128f) (fips_hash SHA2_128f) m sigb [] pkb = true.

Lemma keygen_cases os g pub priv g' code outs :
  ffi_keygen os g pub priv = (g', FReturn code outs) ->
  (In code [1; 4] /\ outs = (pub, priv)) \/
  (code = 0 /\ pub <> None /\ priv <> None /\
   exists skb, nlen skb = 64 /\ good_sk skb /\ outs = (Some (sub_bytes skb 32 64), Some skb)).
Proof.
  unfold ffi_keygen. intros E.
  destruct pub as [pb|].
  2: { apply pair_equal_spec in E. destruct E as [_ E]. apply ret_inv in E. destruct E as [-> ->]. left. split; [left|]; reflexivity. }
  destruct priv as [qb|].
  2: { apply pair_equal_spec in E. destruct E as [_ E]. apply ret_inv in E. destruct E as [-> ->]. left. split; [left|]; reflexivity. }
  unfold try_keygen in E. change slh_dsa_sha2_128f with (param_set SHA2_128f) in E.
  destruct (try_keygen_with_rng (param_set SHA2_128f) os g) as [g1 r] eqn:K.
  destruct (result r) as [[pk sk]|e|q] eqn:R.
  - assert (C : call (try_keygen_with_rng (param_set SHA2_128f) os) g = Val (pk, sk)).
    { unfold call. rewrite K. exact R. }
    assert (KP : key_pair SHA2_128f pk sk) by (eapply kp_generated; exact C).
    destruct (proj1 (prop_private_key_round_trip T P SHA2_128f) _ _ KP) as (skb & E1 & L1 & I1).
    pose proof (proj1 (prop_get_public_key_matches T P SHA2_128f) _ _ KP) as G.
    pose proof (proj2 (prop_get_public_key_matches T P SHA2_128f) _ _ L1 I1) as G2. rewrite G in G2.
    rewrite G2, E1 in E. apply pair_equal_spec in E. destruct E as [_ E].
    right. change (pk_size SHA2_128f) with 32 in E. change (2 * 32) with 64 in E.
    assert (Ec : code = SLH_DSA_OK) by (apply (f_equal (fun x => match x with FReturn c _ => c | _ => code end)) in E; symmetry; exact E).
    assert (Eo : outs = (Some (sub_bytes skb 32 64), Some skb))
      by (apply (f_equal (fun x => match x with FReturn _ c => c | _ => outs end)) in E; symmetry; exact E).
    split; [exact Ec|]. split; [discriminate|]. split; [discriminate|].
    exists skb. split; [exact L1|]. split; [|exact Eo]. split; [exact L1|]. exists sk. exact I1.
  - left. apply pair_equal_spec in E. destruct E as [_ E].
    apply ret_inv in E; destruct E as [-> ->]. split; [right; left|]; reflexivity.
  - exfalso. apply pair_equal_spec in E. destruct E as [_ E]. discriminate E.
Qed.

Lemma sign_cases os g buf len m skb o g' code out :
  c_message buf len m -> nlen skb = 64 ->
  ffi_sign os g (Some buf) len (Some skb) (Some o) = (g', FReturn code out) ->
  (In code [3; 5] /\ out = Some o) \/
  (code = 0 /\ exists sig, out = Some sig /\ nlen sig = 17088 /\ verified (sub_bytes skb 32 64) m sig).
Proof.
  intros C L E. unfold ffi_sign in E. rewrite (designated _ _ _ C) in E.
  change slh_dsa_sha2_128f with (param_set SHA2_128f) in E.
  destruct (result (sk_try_from_bytes (param_set SHA2_128f) skb)) as [sk|e|q] eqn:I.
  - unfold try_sign in E.
    destruct (try_sign_with_rng (param_set SHA2_128f) os sk m [] true g) as [g1 r] eqn:K.
    apply pair_equal_spec in E. destruct E as [_ E].
    destruct (result r) as [sig|e|q] eqn:R.
    + right.
      assert (Ec : code = SLH_DSA_OK) by (apply (f_equal (fun x => match x with FReturn c _ => c | _ => code end)) in E; symmetry; exact E).
      assert (Eo : out = Some sig)
        by (apply (f_equal (fun x => match x with FReturn _ c => c | _ => out end)) in E; symmetry; exact E).
      split; [exact Ec|]. exists sig. split; [exact Eo|].
      pose proof (kp_imported SHA2_128f _ _ L I) as KP.
      destruct (prop_pure_signatures_verify T P SHA2_128f _ _ KP os g m [] true ltac:(discriminate)) as [V _].
      destruct (V sig) as [Ls Vs].
      { unfold call. rewrite K. exact R. }
      split; [exact Ls|].
      assert (Wp : pk_typed SHA2_128f (get_public_key sk)).
      { apply wf_typed_pk. destruct (key_pair_facts SHA2_128f _ _ KP) as [[_ [_ W3]] _]. exact W3. }
      pose proof (proj2 (prop_get_public_key_matches T P SHA2_128f) _ _ L I) as E3.
      rewrite (prop_verify_is_fips T P SHA2_128f _ _ m _ [] Wp E3 Ls) in Vs.
      change (pk_size SHA2_128f) with 32 in Vs. change (2 * 32) with 64 in Vs.
      unfold verified. assert (Q : forall x : bool, Val x = Val true -> x = true) by congruence. exact (Q _ Vs).
    + left. apply ret_inv in E; destruct E as [-> ->]. split; [right; left|]; reflexivity.
    + discriminate E.
  - left. apply pair_equal_spec in E. destruct E as [_ E]. apply ret_inv in E; destruct E as [-> ->]. split; [left|]; reflexivity.
  - apply pair_equal_spec in E. destruct E as [_ E]. discriminate E.
Qed.

Lemma sign_returns os g buf len m skb o :
  never_panics os -> c_message buf len m -> nlen skb = 64 ->
  exists g' code out, ffi_sign os g (Some buf) len (Some skb) (Some o) = (g', FReturn code out).
Proof.
  intros Np C L. unfold ffi_sign. rewrite (designated _ _ _ C).
  change slh_dsa_sha2_128f with (param_set SHA2_128f).
  destruct (prop_keygen_sign_import_never_panic T P SHA2_128f os g Np) as (_ & N2 & _ & _ & N5).
  specialize (N2 skb L).
  destruct (result (sk_try_from_bytes (param_set SHA2_128f) skb)) as [sk|e|q] eqn:I.
  - unfold try_sign.
    pose proof (kp_imported SHA2_128f _ _ L I) as KP.
    assert (W : sk_typed SHA2_128f sk) by (apply wf_typed_sk; apply (key_pair_facts SHA2_128f _ _ KP)).
    destruct (proj2 (N5 _ W) m [] PH_SHA256 true) as [N6 _]. unfold call in N6.
    destruct (try_sign_with_rng (param_set SHA2_128f) os sk m [] true g) as [g1 r]. cbn [snd] in N6.
    destruct (result r) as [sig|e|q]; [do 3 eexists; reflexivity..|]. exfalso. exact (N6 q eq_refl).
  - do 3 eexists; reflexivity.
  - exfalso. exact (N2 q eq_refl).
Qed.

Lemma good_consistent skb : good_sk skb ->
  snd (Fips205.slh_keygen_internal (fips_params SHA2_128f) (fips_hash SHA2_128f)
    (sub_bytes skb 0 16) (sub_bytes skb 16 32) (sub_bytes skb 32 48)) = sub_bytes skb 32 48 ++ sub_bytes skb 48 64.
Proof.
  intros [L [sk I]].
  pose proof (prop_import_accepts_exactly_consistent_keys T P SHA2_128f skb L) as K. cbv zeta in K.
  change (seed_bytes SHA2_128f) with 16 in K. change (2 * 16) with 32 in K. change (3 * 16) with 48 in K.
  change (4 * 16) with 64 in K.
  destruct (Fips205.slh_keygen_internal _ _ _ _ _) as [SK0 PK]. cbn [snd]. destruct K as [_ K].
  destruct (list_eq_dec Byte.byte_eq_dec PK (sub_bytes skb 32 48 ++ sub_bytes skb 48 64)) as [Y|Y]; [exact Y|].
  rewrite (K Y) in I. discriminate.
Qed.

(** ** one operation *)
Lemma keygen_guard os g M pub priv : legal M (CKeygen pub priv) ->
  c_keygen os g M pub priv =
  let (g', r) := ffi_keygen os g (deref M pub C_PK_LEN) (deref M priv C_SK_LEN) in
  (g', match r with
       | FReturn code (pb, sb) => FReturn code (assign (assign M pub pb) priv sb)
       | FAbort => FAbort
       | FUB => FUB
       end).
Proof.
  intros (L1 & L2 & L3). unfold c_keygen, C_PK_LEN, C_SK_LEN.
  rewrite (struct_ok _ _ _ L1), (struct_ok _ _ _ L2), (apart_overlap _ _ _ _ L3). reflexivity.
Qed.

Lemma sign_guard os g M buf len sk out : legal M (CSign buf len sk out) ->
  c_sign os g M buf len sk out =
  let (g', r) := ffi_sign os g (buffer M buf) len (deref M sk C_SK_LEN) (deref M out C_SIG_LEN) in
  (g', match r with
       | FReturn code o => FReturn code (assign M out o)
       | FAbort => FAbort
       | FUB => FUB
       end).
Proof.
  intros (L1 & L2 & L3 & L4). unfold c_sign.
  replace (ref_ok M sk C_SK_LEN) with true by (symmetry; apply struct_ok, L1).
  replace (ref_ok M out C_SIG_LEN) with true by (symmetry; apply struct_ok, L2).
  replace (overlap sk C_SK_LEN out C_SIG_LEN) with false by (symmetry; apply apart_overlap, L3).
  replace (slice_aliases buf len sk C_SK_LEN out C_SIG_LEN) with false; [reflexivity|].
  symmetry. apply slice_apart. destruct L4 as [->|[_ L4]]; [left; reflexivity|right; exact L4].
Qed.

Lemma verify_guard M buf len pk sig : legal M (CVerify buf len pk sig) ->
  c_verify M buf len pk sig =
  match ffi_verify (buffer M buf) len (deref M pk C_PK_LEN) (deref M sig C_SIG_LEN) with
  | FReturn code _ => FReturn code M
  | FAbort => FAbort
  | FUB => FUB
  end.
Proof.
  intros (L1 & L2 & L3 & _ & L4). unfold c_verify.
  replace (ref_ok M pk C_PK_LEN) with true by (symmetry; apply struct_ok, L1).
  replace (ref_ok M sig C_SIG_LEN) with true by (symmetry; apply struct_ok, L2).
  replace (overlap pk C_PK_LEN sig C_SIG_LEN) with false by (symmetry; apply apart_overlap, L3).
  replace (slice_aliases buf len pk C_PK_LEN sig C_SIG_LEN) with false; [reflexivity|].
  symmetry. apply slice_apart. right. exact L4.
Qed.

Lemma verify_code M buf len pk sig : legal M (CVerify buf len pk sig) ->
  c_verify M buf len pk sig =
  FReturn (if (pk =? 0) || (sig =? 0) then 1 else
           if Fips205.slh_verify (fips_params SHA2_128f) (fips_hash SHA2_128f) (load M buf (Z.to_N len))
                (load M sig 17088) [] (load M pk 32) then 0 else 6) M.
Proof.
  intros L. rewrite (verify_guard _ _ _ _ _ L). destruct L as (_ & _ & _ & Rd & _).
  destruct (named_ffi_verify_contract T P len (deref M pk C_PK_LEN) (deref M sig C_SIG_LEN)) as [V1 V2].
  destruct (N.eqb_spec pk 0) as [->|Np].
  { rewrite V1 by (left; reflexivity). reflexivity. }
  destruct (N.eqb_spec sig 0) as [->|Ns].
  { rewrite V1 by (right; reflexivity). reflexivity. }
  destruct (read_message _ _ _ Rd) as (b & Eb & Cm). rewrite Eb. cbn [orb].
  rewrite (V2 b _ _ _ Cm (deref_some _ _ _ Np) (nlen_load _ _ _) (deref_some _ _ _ Ns) (nlen_load _ _ _)).
  change C_PK_LEN with 32. change C_SIG_LEN with 17088.
  destruct (Fips205.slh_verify _ _ _ _ _ _); reflexivity.
Qed.

Lemma step_returns os g M op : never_panics os -> legal M op ->
  exists g' code M', c_step os g M op = (g', FReturn code M').
Proof.
  intros Np L. destruct op as [a b|pub priv|buf len sk out|buf len pk sig]; cbn [c_step].
  - do 3 eexists. reflexivity.
  - rewrite (keygen_guard _ _ _ _ _ L).
    destruct (named_ffi_keygen_contract T P os g (deref M pub C_PK_LEN) (deref M priv C_SK_LEN)) as (_ & _ & K).
    destruct (K Np) as (code & [pb sb] & E).
    destruct (ffi_keygen os g (deref M pub C_PK_LEN) (deref M priv C_SK_LEN)) as [g' r]. cbn [snd] in E. rewrite E.
    do 3 eexists. reflexivity.
  - rewrite (sign_guard _ _ _ _ _ _ _ L). destruct L as (_ & _ & _ & L).
    assert (X : exists g' code o, ffi_sign os g (buffer M buf) len (deref M sk C_SK_LEN) (deref M out C_SIG_LEN)
                = (g', FReturn code o)).
    { destruct (named_ffi_sign_contract T P os g len (deref M sk C_SK_LEN) (deref M out C_SIG_LEN)) as [S1 _].
      destruct (N.eqb_spec sk 0) as [->|Ns].
      { do 3 eexists. apply S1. right. left. reflexivity. }
      destruct (N.eqb_spec out 0) as [->|No].
      { do 3 eexists. apply S1. right. right. reflexivity. }
      destruct L as [->|[Rd _]].
      { do 3 eexists. apply S1. left. reflexivity. }
      destruct (read_message _ _ _ Rd) as (b & Eb & Cm). rewrite Eb, (deref_some _ _ _ Ns), (deref_some _ _ _ No).
      apply (sign_returns os g b len _ _ _ Np Cm). apply nlen_load. }
    destruct X as (g' & code & o & E). rewrite E. do 3 eexists. reflexivity.
  - rewrite (verify_code _ _ _ _ _ L). do 3 eexists. reflexivity.
Qed.

(** what one operation did *)
Definition step_facts (op : c_op) (code : N) (M M' : cmem) : Prop :=
  match op with
  | CKeygen pub priv => code = 0 ->
      pub <> 0 /\ priv <> 0 /\ good_sk (load M' priv 64) /\ load M' pub 32 = sub_bytes (load M' priv 64) 32 64
  | CSign buf len sk out => code = 0 ->
      buf <> 0 /\ sk <> 0 /\ out <> 0 /\
      verified (load M (sk + 32) 32) (load M buf (Z.to_N len)) (load M' out 17088)
  | _ => True
  end.

Lemma step_effect os g M op g' code M' : legal M op -> c_step os g M op = (g', FReturn code M') ->
  documented op code /\ mem_top M' = mem_top M /\
  (forall x, mem_at M' x <> mem_at M x -> may_change op code x) /\ step_facts op code M M'.
Proof.
  intros L E. destruct op as [a b|pub priv|buf len sk out|buf len pk sig]; cbn [c_step] in E.
  - apply pair_equal_spec in E. destruct E as [_ E].
    assert (Ec : code = 0) by congruence. assert (Em : M' = store M a [b]) by congruence. subst code M'.
    refine (conj eq_refl (conj eq_refl (conj _ I))). intros x D. cbn [may_change].
    destruct (N.eq_dec x a) as [Y|Y]; [exact Y|]. exfalso. apply D, store_other. change (nlen [b]) with 1. lia.
  - rewrite (keygen_guard _ _ _ _ _ L) in E. destruct L as (_ & _ & Ap).
    destruct (ffi_keygen os g (deref M pub C_PK_LEN) (deref M priv C_SK_LEN)) as [g1 r] eqn:K.
    apply pair_equal_spec in E. destruct E as [_ E].
    destruct r as [c [pb sb]| |]; [|discriminate..].
    assert (Ec : code = c) by congruence.
    assert (Em : M' = assign (assign M pub pb) priv sb) by congruence. clear E. subst c.
    destruct (keygen_cases _ _ _ _ _ _ _ K) as [[Ic Eo]|(Ec & Np & Ns & skb & Lk & G & Eo)].
    + assert (Ep : pb = deref M pub C_PK_LEN) by congruence. assert (Es : sb = deref M priv C_SK_LEN) by congruence.
      subst pb sb M'.
      assert (Same : forall x, mem_at (assign (assign M pub (deref M pub C_PK_LEN)) priv (deref M priv C_SK_LEN)) x = mem_at M x).
      { intros x. apply assign_deref. intros y. apply assign_deref. reflexivity. }
      refine (conj _ (conj _ (conj _ _))).
      * destruct Ic as [<-|[<-|[]]]; cbn; auto.
      * unfold deref. destruct (pub =? 0), (priv =? 0); reflexivity.
      * intros x D. exfalso. exact (D (Same x)).
      * intros ->. destruct Ic as [X|[X|[]]]; discriminate X.
    + subst code.
      assert (Ep : pb = Some (sub_bytes skb 32 64)) by congruence. assert (Es : sb = Some skb) by congruence.
      subst pb sb M'. cbn [assign].
      assert (Nz : pub <> 0) by (intros ->; apply Np; reflexivity).
      assert (Nz2 : priv <> 0) by (intros ->; apply Ns; reflexivity).
      assert (Lp : nlen (sub_bytes skb 32 64) = 32) by (rewrite nlen_sub_bytes by lia; reflexivity).
      set (pkb := sub_bytes skb 32 64) in *.
      refine (conj _ (conj _ (conj _ _))).
      * left. reflexivity.
      * reflexivity.
      * intros x D. cbn [may_change]. split; [reflexivity|].
        destruct (N.le_gt_cases priv x) as [A1|A1]; [destruct (N.lt_ge_cases x (priv + 64)) as [A2|A2]|].
        { right. lia. }
        all: rewrite store_other in D by (rewrite Lk; lia).
        all: left; destruct (N.le_gt_cases pub x) as [B1|B1]; [destruct (N.lt_ge_cases x (pub + 32)) as [B2|B2]|].
        all: try lia.
        all: exfalso; apply D, store_other; rewrite Lp; lia.
      * intros _. refine (conj Nz (conj Nz2 _)).
        assert (X1 : load (store (store M pub pkb) priv skb) priv 64 = skb).
        { rewrite <- Lk. apply load_store. }
        assert (X2 : load (store (store M pub pkb) priv skb) pub 32 = pkb).
        { rewrite load_store_apart.
          - rewrite <- Lp. apply load_store.
          - rewrite Lk. unfold apart in Ap. lia. }
        rewrite X1, X2. split; [exact G|reflexivity].
  - rewrite (sign_guard _ _ _ _ _ _ _ L) in E. destruct L as (_ & _ & Ap & L).
    destruct (ffi_sign os g (buffer M buf) len (deref M sk C_SK_LEN) (deref M out C_SIG_LEN)) as [g1 r] eqn:K.
    apply pair_equal_spec in E. destruct E as [_ E].
    destruct r as [c o| |]; [|discriminate..].
    assert (Ec : code = c) by congruence.
    assert (Em : M' = assign M out o) by congruence. clear E. subst c.
    assert (Cs : (In code [1; 3; 5] /\ o = deref M out C_SIG_LEN) \/
                 (code = 0 /\ buf <> 0 /\ sk <> 0 /\ out <> 0 /\
                  exists sig, o = Some sig /\ nlen sig = 17088 /\ verified (load M (sk + 32) 32) (load M buf (Z.to_N len)) sig)).
    { destruct (named_ffi_sign_contract T P os g len (deref M sk C_SK_LEN) (deref M out C_SIG_LEN)) as [S1 _].
      assert (Nul : buf = 0 \/ sk = 0 \/ out = 0 -> In code [1; 3; 5] /\ o = deref M out C_SIG_LEN).
      { intros Z. rewrite S1 in K by (destruct Z as [-> | [-> | ->]]; auto).
        apply pair_equal_spec in K. destruct K as [_ K]. apply ret_inv in K; destruct K as [-> ->]. split; [left|]; reflexivity. }
      destruct (N.eqb_spec buf 0) as [Zb|Nb]; [left; auto|].
      destruct (N.eqb_spec sk 0) as [Zs|Ns]; [left; auto|].
      destruct (N.eqb_spec out 0) as [Zo|No]; [left; auto|].
      destruct L as [Zb|[Rd _]]; [contradiction|].
      destruct (read_message _ _ _ Rd) as (b & Eb & Cm).
      rewrite Eb, (deref_some _ _ _ Ns), (deref_some _ _ _ No) in K. rewrite (deref_some _ _ _ No).
      destruct (sign_cases _ _ _ _ _ _ _ _ _ _ Cm (nlen_load _ _ _) K) as [[Ic Eo]|(Ec & sig & Eo & Ls & V)].
      - left. split; [right; exact Ic|exact Eo].
      - right. refine (conj Ec (conj Nb (conj Ns (conj No _)))). exists sig. split; [exact Eo|]. split; [exact Ls|].
        unfold C_SK_LEN in V. rewrite sub_load in V by lia. change (64 - 32) with 32 in V. exact V. }
    destruct Cs as [[Ic Eo]|(Ec & Nb & Ns & No & sig & Eo & Ls & V)]; subst o M'.
    + refine (conj _ (conj _ (conj _ _))).
      * cbn [documented]. right. exact Ic.
      * unfold deref. destruct (out =? 0); reflexivity.
      * intros x D. exfalso. apply D, assign_deref. reflexivity.
      * intros ->. destruct Ic as [X|[X|[X|[]]]]; discriminate X.
    + subst code. cbn [assign]. refine (conj _ (conj _ (conj _ _))).
      * left. reflexivity.
      * reflexivity.
      * intros x D. cbn [may_change]. split; [reflexivity|].
        destruct (N.le_gt_cases out x) as [A1|A1]; [destruct (N.lt_ge_cases x (out + 17088)) as [A2|A2]|].
        { lia. }
        all: exfalso; apply D, store_other; rewrite Ls; lia.
      * intros _. refine (conj Nb (conj Ns (conj No _))).
        replace (load (store M out sig) out 17088) with sig; [exact V|]. rewrite <- Ls. symmetry. apply load_store.
  - rewrite (verify_code _ _ _ _ _ L) in E. apply pair_equal_spec in E. destruct E as [_ E].
    assert (Em : M' = M) by congruence. subst M'.
    refine (conj _ (conj eq_refl (conj _ I))).
    + assert (Ec : code = if (pk =? 0) || (sig =? 0) then 1 else
           if Fips205.slh_verify (fips_params SHA2_128f) (fips_hash SHA2_128f) (load M buf (Z.to_N len))
                (load M sig 17088) [] (load M pk 32) then 0 else 6) by congruence.
      cbn [documented]. rewrite Ec. destruct ((pk =? 0) || (sig =? 0)); [right; left; reflexivity|].
      destruct (Fips205.slh_verify _ _ _ _ _ _); [left; reflexivity|right; right; left; reflexivity].
    + intros x D. apply D. reflexivity.
Qed.

(** ** histories *)
Lemma history_facts os g0 M0 g M keys issued : c_history os g0 M0 g M keys issued ->
  (forall pkb skb, In (pkb, skb) keys -> good_sk skb /\ pkb = sub_bytes skb 32 64) /\
  (forall pkb m sigb, In (pkb, m, sigb) issued -> verified pkb m sigb).
Proof.
  induction 1 as [|g M keys issued op g' code M' Hs [IK II] L E]; [split; intros; contradiction|].
  destruct (step_effect _ _ _ _ _ _ _ L E) as (_ & _ & _ & F). split.
  - intros pkb skb I. apply in_app_or in I. destruct I as [I|I]; [|apply IK; exact I].
    destruct op; cbn [new_keys] in I; try contradiction.
    destruct (N.eqb_spec code 0) as [Z|Z]; [|contradiction]. destruct I as [I|[]].
    cbn [step_facts] in F. destruct (F Z) as (_ & _ & G & Ep).
    apply pair_equal_spec in I. destruct I as [<- <-]. split; [exact G|exact Ep].
  - intros pkb m sigb I. apply in_app_or in I. destruct I as [I|I]; [|apply II; exact I].
    destruct op; cbn [new_issues] in I; try contradiction.
    destruct (N.eqb_spec code 0) as [Z|Z]; [|contradiction]. destruct I as [I|[]].
    cbn [step_facts] in F. destruct (F Z) as (_ & _ & _ & V).
    apply pair_equal_spec in I. destruct I as [I <-]. apply pair_equal_spec in I. destruct I as [<- <-]. exact V.
Qed.

Lemma good_signs os g M buf len sk out :
  legal M (CSign buf len sk out) -> buf <> 0 -> sk <> 0 -> out <> 0 -> good_sk (load M sk 64) ->
  (refuses os g 16 -> exists g' M', c_step os g M (CSign buf len sk out) = (g', FReturn 5 M')) /\
  (forall b g', gives os g 16 b g' -> exists M', c_step os g M (CSign buf len sk out) = (g', FReturn 0 M')).
Proof.
  intros L Nb Ns No G. cbn [c_step]. rewrite (sign_guard _ _ _ _ _ _ _ L). destruct L as (_ & _ & _ & L).
  destruct L as [Zb|[Rd _]]; [contradiction|]. destruct (read_message _ _ _ Rd) as (b & Eb & Cm).
  destruct (named_ffi_sign_contract T P os g len (deref M sk C_SK_LEN) (deref M out C_SIG_LEN)) as [_ S2].
  assert (No' : deref M out C_SIG_LEN <> None) by (rewrite (deref_some _ _ _ No); discriminate).
  specialize (S2 b _ _ Cm (deref_some _ _ _ Ns) (nlen_load _ _ _) No'). cbv zeta in S2.
  change C_SK_LEN with 64 in *. pose proof (good_consistent _ G) as Cn.
  destruct (Fips205.slh_keygen_internal _ _ _ _ _) as [SK0 PK]. cbn [snd] in Cn.
  destruct S2 as (_ & S2 & S3). rewrite Eb. split.
  - intros R. specialize (S2 Cn R).
    destruct (ffi_sign os g (Some b) len (deref M sk 64) (deref M out C_SIG_LEN)) as [g' r]. cbn [snd] in S2. subst r.
    do 2 eexists. reflexivity.
  - intros bs g' Gv. destruct (S3 Cn _ _ Gv) as (sig & E & _). rewrite E. eexists. reflexivity.
Qed.

End Cases.

Lemma prop_c_program_histories :
  forall (T : Target) (P : Prims) (os : Rng) (g0 g : rng_st os) (M0 M : cmem)
         (keys : list (bytes * bytes)) (issued : list (bytes * bytes * bytes)),
    c_history os g0 M0 g M keys issued ->
    (never_panics os -> forall op, legal M op -> exists g' code M', c_step os g M op = (g', FReturn code M')) /\
    (forall op g' code M', legal M op -> c_step os g M op = (g', FReturn code M') ->
       documented op code /\ mem_top M' = mem_top M /\
       forall x, mem_at M' x <> mem_at M x -> may_change op code x) /\
    (forall pkb m sigb, In (pkb, m, sigb) issued ->
       forall buf len pk sig, legal M (CVerify buf len pk sig) -> pk <> 0 -> sig <> 0 ->
         load M pk 32 = pkb -> load M buf (Z.to_N len) = m -> load M sig 17088 = sigb ->
         c_step os g M (CVerify buf len pk sig) = (g, FReturn 0 M)) /\
    (forall pkb skb, In (pkb, skb) keys ->
       forall buf len sk out, legal M (CSign buf len sk out) -> buf <> 0 -> sk <> 0 -> out <> 0 ->
         load M sk 64 = skb ->
         load M (sk + 32) 32 = pkb /\
         (refuses os g 16 -> exists g' M', c_step os g M (CSign buf len sk out) = (g', FReturn 5 M')) /\
         (forall b g', gives os g 16 b g' -> exists M', c_step os g M (CSign buf len sk out) = (g', FReturn 0 M'))).
Proof.
  intros T P os g0 g M0 M keys issued Hs. destruct (history_facts _ _ _ _ _ _ _ Hs) as [HK HI].
  refine (conj _ (conj _ (conj _ _))).
  - intros Np op L. apply step_returns; assumption.
  - intros op g' code M' L E. destruct (step_effect _ _ _ _ _ _ _ L E) as (A & B & C & _).
    exact (conj A (conj B C)).
  - intros pkb m sigb I buf len pk sig L Np Ns E1 E2 E3. specialize (HI _ _ _ I). subst pkb m sigb.
    cbn [c_step]. rewrite (verify_code _ _ _ _ _ L).
    destruct (N.eqb_spec pk 0) as [Z|_]; [contradiction|]. destruct (N.eqb_spec sig 0) as [Z|_]; [contradiction|].
    cbn [orb]. unfold verified in HI. rewrite HI. reflexivity.
  - intros pkb skb I buf len sk out L Nb Ns No E. destruct (HK _ _ I) as [G Ep]. subst skb.
    split.
    + rewrite Ep, sub_load by lia. reflexivity.
    + apply good_signs; assumption.
Qed.

Lemma named_c_call_results :
  forall (T : Target) (P : Prims) (os : Rng) (g : rng_st os) (M : cmem),
    let ps := fips_params SHA2_128f in
    let hs := fips_hash SHA2_128f in
    (forall pub priv, legal M (CKeygen pub priv) ->
       let r := c_step os g M (CKeygen pub priv) in
       (pub = 0 \/ priv = 0 -> exists M', r = (g, FReturn SLH_DSA_NULL_PTR_ERROR M')) /\
       (pub <> 0 -> priv <> 0 ->
          (refuses os g 16 \/
           (exists a g1, gives os g 16 a g1 /\ refuses os g1 16) \/
           (exists a b g1 g2, gives os g 16 a g1 /\ gives os g1 16 b g2 /\ refuses os g2 16) ->
           exists g' M', r = (g', FReturn SLH_DSA_KEYGEN_ERROR M')) /\
          (forall a b c g1 g2 g3, gives os g 16 a g1 -> gives os g1 16 b g2 -> gives os g2 16 c g3 ->
           exists M', r = (g3, FReturn SLH_DSA_OK M') /\
             Fips205.slh_keygen_internal ps hs a b c = (load M' priv 64, load M' pub 32)))) /\
    (forall buf len sk out, legal M (CSign buf len sk out) ->
       let r := c_step os g M (CSign buf len sk out) in
       let skb := load M sk 64 in
       let '(_, PK) := Fips205.slh_keygen_internal ps hs (sub_bytes skb 0 16) (sub_bytes skb 16 32) (sub_bytes skb 32 48) in
       (buf = 0 \/ sk = 0 \/ out = 0 -> exists M', r = (g, FReturn SLH_DSA_NULL_PTR_ERROR M')) /\
       (buf <> 0 -> sk <> 0 -> out <> 0 ->
          (PK <> sub_bytes skb 32 64 -> exists M', r = (g, FReturn SLH_DSA_DESERIALIZATION_ERROR M')) /\
          (PK = sub_bytes skb 32 64 -> refuses os g 16 -> exists g' M', r = (g', FReturn SLH_DSA_SIGN_ERROR M')) /\
          (PK = sub_bytes skb 32 64 -> forall b g', gives os g 16 b g' ->
           exists M', r = (g', FReturn SLH_DSA_OK M') /\
             Some (load M' out 17088) = Fips205.slh_sign ps hs (load M buf (Z.to_N len)) [] skb (Some (Some b))))) /\
    (forall buf len pk sig, legal M (CVerify buf len pk sig) ->
       c_step os g M (CVerify buf len pk sig) =
       (g, FReturn (if (pk =? 0) || (sig =? 0) then SLH_DSA_NULL_PTR_ERROR
                    else if Fips205.slh_verify ps hs (load M buf (Z.to_N len)) (load M sig 17088) [] (load M pk 32)
                    then SLH_DSA_OK else SLH_DSA_VERIFY_ERROR) M)).
Proof.
  intros T P os g M ps hs. refine (conj _ (conj _ _)).
  - intros pub priv L r. subst r. cbn [c_step]. rewrite (keygen_guard _ _ _ _ _ L). destruct L as (_ & _ & Ap).
    destruct (named_ffi_keygen_contract T P os g (deref M pub C_PK_LEN) (deref M priv C_SK_LEN)) as (K1 & K2 & _).
    destruct (ffi_keygen os g (deref M pub C_PK_LEN) (deref M priv C_SK_LEN)) as [g' r]. cbn [snd fst] in *. split.
    + intros Z. destruct K1 as [-> ->].
      { destruct Z as [-> | ->]; [left|right]; reflexivity. }
      eexists. reflexivity.
    + intros N1 N2. destruct K2 as [K2 K3].
      { rewrite (deref_some _ _ _ N1). discriminate. }
      { rewrite (deref_some _ _ _ N2). discriminate. }
      split.
      * intros R. rewrite (K2 R). do 2 eexists. reflexivity.
      * intros a b c g1 g2 g3 G1 G2 G3.
        destruct (K3 _ _ _ _ _ _ G1 G2 G3) as (pk & sk & pkb & skb & -> & -> & F & _ & _ & L1 & _ & L2).
        eexists. split; [reflexivity|]. cbn [assign].
        change (sk_size SHA2_128f) with 64 in L2. change (pk_size SHA2_128f) with 32 in L1.
        assert (X1 : load (store (store M pub pkb) priv skb) priv 64 = skb).
        { rewrite <- L2. apply load_store. }
        assert (X2 : load (store (store M pub pkb) priv skb) pub 32 = pkb).
        { rewrite load_store_apart.
          - rewrite <- L1. apply load_store.
          - rewrite L2. unfold apart in Ap. lia. }
        rewrite X1, X2. exact F.
  - intros buf len sk out L r skb. subst r. cbn [c_step]. rewrite (sign_guard _ _ _ _ _ _ _ L).
    destruct L as (_ & _ & _ & L).
    destruct (named_ffi_sign_contract T P os g len (deref M sk C_SK_LEN) (deref M out C_SIG_LEN)) as [S1 S2].
    destruct (Fips205.slh_keygen_internal ps hs (sub_bytes skb 0 16) (sub_bytes skb 16 32) (sub_bytes skb 32 48))
      as [SK0 PK] eqn:K.
    split.
    + intros Z. rewrite S1 by (destruct Z as [-> | [-> | ->]]; auto). eexists. reflexivity.
    + intros Nb Ns No. destruct L as [Zb|[Rd _]]; [contradiction|].
      destruct (read_message _ _ _ Rd) as (b & Eb & Cm).
      assert (No' : deref M out C_SIG_LEN <> None) by (rewrite (deref_some _ _ _ No); discriminate).
      specialize (S2 b _ _ Cm (deref_some _ _ _ Ns) (nlen_load _ _ _) No'). cbv zeta in S2.
      change (load M sk C_SK_LEN) with skb in S2. fold ps hs in S2. rewrite K in S2.
      assert (Lk : nlen skb = 64) by apply nlen_load.
      rewrite sub_bytes_split in S2 by lia.
      destruct S2 as (S2 & S3 & S4). rewrite Eb. refine (conj _ (conj _ _)).
      * intros D. rewrite (S2 D). eexists. reflexivity.
      * intros D R. specialize (S3 D R).
        destruct (ffi_sign os g (Some b) len (deref M sk C_SK_LEN) (deref M out C_SIG_LEN)) as [g' r].
        cbn [snd] in S3. subst r. do 2 eexists. reflexivity.
      * intros D bs g' G. destruct (S4 D _ _ G) as (sig & E & Ls & F & _). rewrite E.
        eexists. split; [reflexivity|]. cbn [assign]. change (sig_size SHA2_128f) with 17088 in Ls.
        rewrite <- Ls, load_store. exact F.
  - intros buf len pk sig L. cbn [c_step]. rewrite (verify_code _ _ _ _ _ L). reflexivity.
Qed.
Lemma prop_c_call_results :
  forall (T : Target) (P : Prims) (os : Rng) (g : rng_st os) (M : cmem),
    let ps := fips_params SHA2_128f in
    let hs := fips_hash SHA2_128f in
    (forall pub priv, legal M (CKeygen pub priv) ->
       let r := c_step os g M (CKeygen pub priv) in
       (pub = 0 \/ priv = 0 -> exists M', r = (g, FReturn 1 M')) /\
       (pub <> 0 -> priv <> 0 ->
          (refuses os g 16 \/
           (exists a g1, gives os g 16 a g1 /\ refuses os g1 16) \/
           (exists a b g1 g2, gives os g 16 a g1 /\ gives os g1 16 b g2 /\ refuses os g2 16) ->
           exists g' M', r = (g', FReturn 4 M')) /\
          (forall a b c g1 g2 g3, gives os g 16 a g1 -> gives os g1 16 b g2 -> gives os g2 16 c g3 ->
           exists M', r = (g3, FReturn 0 M') /\
             Fips205.slh_keygen_internal ps hs a b c = (load M' priv 64, load M' pub 32)))) /\
    (forall buf len sk out, legal M (CSign buf len sk out) ->
       let r := c_step os g M (CSign buf len sk out) in
       let skb := load M sk 64 in
       let '(_, PK) := Fips205.slh_keygen_internal ps hs (sub_bytes skb 0 16) (sub_bytes skb 16 32) (sub_bytes skb 32 48) in
       (buf = 0 \/ sk = 0 \/ out = 0 -> exists M', r = (g, FReturn 1 M')) /\
       (buf <> 0 -> sk <> 0 -> out <> 0 ->
          (PK <> sub_bytes skb 32 64 -> exists M', r = (g, FReturn 3 M')) /\
          (PK = sub_bytes skb 32 64 -> refuses os g 16 -> exists g' M', r = (g', FReturn 5 M')) /\
          (PK = sub_bytes skb 32 64 -> forall b g', gives os g 16 b g' ->
           exists M', r = (g', FReturn 0 M') /\
             Some (load M' out 17088) = Fips205.slh_sign ps hs (load M buf (Z.to_N len)) [] skb (Some (Some b))))) /\
    (forall buf len pk sig, legal M (CVerify buf len pk sig) ->
       c_step os g M (CVerify buf len pk sig) =
       (g, FReturn (if (pk =? 0) || (sig =? 0) then 1
                    else if Fips205.slh_verify ps hs (load M buf (Z.to_N len)) (load M sig 17088) [] (load M pk 32)
                    then 0 else 6) M)).
Proof. exact named_c_call_results. Qed.
