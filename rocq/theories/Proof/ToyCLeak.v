(** Two C programs with different hash functions, private keys and messages in which a verifier sees the same
    values, for the Example beside the theorem on leakage through the C interface. *)
From Verif Require Import Spec.Fips205 Spec.Fips205Hash.
From Verif Require Import Model.Api Model.Ffi Model.FfiMem Model.FfiTrace Proof.Runs Proof.HelpersP Proof.Facts Proof.HashP Proof.Fun Proof.SlhP
  Proof.SerP Proof.ApiP Proof.WotsP Spec.Vocab Spec.VocabC Spec.VocabCLeak Spec.VocabFfi Proof.Summary Proof.TopCorrect Spec.VocabForge Spec.VocabPublic
  Proof.LowSign Proof.TopFips Proof.TopKeys Proof.TopLeak Proof.TopPrf Proof.TopFfi Proof.TopC Proof.TopFfiLeak Proof.Toy Proof.ToyPublic Proof.ToyC.
Import ListNotations.
Open Scope list_scope.
Open Scope N_scope.

(** byte 73 of the input is the type of the address: PRF and the WOTS+ chains depend on the input and
    on [g], all other calls with an address give a constant *)
Definition sha_hash (g : byte) (x : bytes) : bytes :=
  let ty := b2n (nth 73 x (n2b 9)) in
  if (ty =? 0) || (ty =? 5) || (ty =? 6) then nrepeat (checksum (g :: x)) 32 else nrepeat (n2b 9) 32.

Definition sha_prims (g : byte) : Prims.
Proof.
  refine {| sha256 := sha_hash g; sha512 := fun x => nrepeat (checksum x) 64;
            shake128 := fun _ k => nrepeat (n2b 9) k; shake256 := fun _ k => nrepeat (n2b 9) k |};
    intros; try apply nlen_nrepeat; unfold sha_hash; destruct (_ || _); apply nlen_nrepeat.
Defined.

Section Half.
Context (g : byte).
Instance PS : Prims := sha_prims g.
Let p := param_set SHA2_128f.
Let hf := hf_of p.
Let nine := nrepeat (n2b 9) 16.

Lemma sha_type l t ty a b c x : nth 9 (ADRSc (flat (adr l t ty a b c)) ++ x) (n2b 9) = n2b ty.
Proof. lazy -[n2b N.div]. reflexivity. Qed.

Lemma sha_call ps l t ty a b c x : nlen ps = 16 ->
  (b2n (n2b ty) =? 0) || (b2n (n2b ty) =? 5) || (b2n (n2b ty) =? 6) = false ->
  Fips205.T_l hf ps (flat (adr l t ty a b c)) x = nine.
Proof.
  intros L E.
  change (Fips205.T_l hf ps (flat (adr l t ty a b c)) x) with
    (firstn 16 (sha_hash g (ps ++ Fips205.toByte 0 48 ++ ADRSc (flat (adr l t ty a b c)) ++ x))).
  unfold sha_hash. rewrite app_nth2 by (unfold nlen in L; lia).
  replace (73 - length ps)%nat with 57%nat by (unfold nlen in L; lia).
  assert (E9 : nth 57 (Fips205.toByte 0 48 ++ ADRSc (flat (adr l t ty a b c)) ++ x) (n2b 9) = n2b ty).
  { rewrite app_nth2 by (apply Nat.leb_le; reflexivity).
    replace (57 - length (Fips205.toByte 0 48))%nat with 9%nat by reflexivity. apply sha_type. }
  rewrite E9, E. reflexivity.
Qed.

Lemma sha_xnd ps l t z i x y : nlen ps = 16 -> xnd hf ps l t z i x y = nine.
Proof. intros L. exact (sha_call ps l t 2 0 z i (x ++ y) L eq_refl). Qed.

Lemma sha_root ps ss : nlen ps = 16 -> proot p hf ps ss = nine.
Proof. intros L. unfold proot, xnode. change (N.to_nat (cHP p)) with 3%nat. cbn [mnode]. apply sha_xnd, L. Qed.

Lemma sha_layer sk dg j : nlen (sk_pk_seed sk) = 16 -> layer_value p hf sk dg j = nine.
Proof.
  intros L. unfold layer_value. destruct j as [|j]; cbn [hmsg].
  - exact (sha_call _ _ _ 4 _ _ _ _ L eq_refl).
  - unfold xpk. change (N.to_nat (cHP p)) with 3%nat. apply climb_const. intros. apply sha_xnd, L.
Qed.

Lemma sha_short x : nlen x <= 73 -> sha_hash g x = nrepeat (n2b 9) 32.
Proof. intros L. unfold sha_hash. rewrite nth_overflow by (unfold nlen in L; lia). reflexivity. Qed.

Lemma sha_hmsg r ps root M : nlen r = 16 -> nlen ps = 16 -> nlen root = 16 -> nlen M <= 25 ->
  Fips205.H_msg hf r ps root M = nrepeat (n2b 9) 34.
Proof.
  intros L1 L2 L3 L4.
  change (Fips205.H_msg hf r ps root M) with (MGF1 (sha_hash g) 32 (r ++ ps ++ sha_hash g (r ++ ps ++ root ++ M)) 34).
  rewrite (sha_short (r ++ ps ++ root ++ M)) by (rewrite !nlen_app; lia).
  unfold MGF1. change (ceil_div 34 32) with 2. unfold for_. change (nseq 0 (N.to_nat (2 - 0))) with [0; 1]. cbn [fold_left].
  assert (LT : forall c, nlen (Fips205.toByte c 4) = 4) by (intros c; apply nlen_toByte).
  rewrite !sha_short by (rewrite !nlen_app, nlen_nrepeat, LT; lia). reflexivity.
Qed.

Lemma sha_view k o M : wf_sk p k -> consistent p k -> nlen M <= 25 ->
  public_view SHA2_128f (get_public_key k) M (sign_bytes p k o M) = (nrepeat (n2b 9) 34, map (fun _ => nine) (seq 0 22)).
Proof.
  intros W C LM. assert (L : nlen (sk_pk_seed k) = 16) by apply W.
  etransitivity; [apply public_view_sign|]. apply f_equal2.
  - unfold sign_digest. apply sha_hmsg; [|exact L|apply W|exact LM].
    apply (len_PRFm _ _ _ (HASHERS_len p (param_PF SHA2_128f))).
  - change (N.to_nat (cD (param_set SHA2_128f))) with 22%nat. apply map_ext. intros j. apply sha_layer, L.
Qed.

(** whatever five bytes a C program signs with whatever key, the verifier sees the same *)
Lemma sha_public (T : Target) os g0 g1 M M' :
  legal M (CSign 300 5 200 1000) -> c_step os g0 M (CSign 300 5 200 1000) = (g1, FReturn 0 M') ->
  c_public (CSign 300 5 200 1000) M M' = (nrepeat (n2b 9) 34, map (fun _ => nine) (seq 0 22)).
Proof.
  intros L E. destruct (sign_step _ _ _ _ _ _ _ _ _ _ L E) as [(_ & C & _)|(_ & _ & _ & [(C & _)|D])]; [discriminate C..|].
  destruct D as (k & I & _ & [(C & _)|(_ & sig & X & ->)]); [discriminate C|].
  destruct (imported_public _ _ _ I) as [W G]. unfold c_public. rewrite <- G.
  rewrite (signed_in_place _ _ _ _ _ _ _ _ _ I X).
  destruct (import_inv p (param_PF SHA2_128f) _ _ (nlen_load M 200 64) I) as [_ C].
  destruct (sign_desc_inv _ _ _ _ _ _ _ _ (try_sign_desc p (param_PF SHA2_128f) (r := os) g0 k _ [] true W ltac:(discriminate)) X)
    as (o & h & _ & ->).
  rewrite <- pure_pieces_M'. apply sha_view; [exact W|exact C|].
  rewrite pure_pieces_M'. unfold Fips205.pure_M'. rewrite !nlen_app, !nlen_toByte, nlen_load, nlen_nil. change (Z.to_N 5) with 5. lia.
Qed.
End Half.

(** a program that generates a key pair and then signs the five bytes at 300 *)
Lemma sha_program (g : byte) (a : N) (m : bytes) : nlen m = 5 ->
  exists M g1 M', mem_top M = 20000 /\ load M 300 5 = m /\ load M 200 16 = nrepeat (n2b a) 16 /\
    c_step (T := debug64) (P := sha_prims g) counter (a + 1 + 1 + 1) M (CSign 300 5 200 1000) = (g1, FReturn 0 M').
Proof.
  intros Lm. set (M0 := store zeros 300 m). assert (T0 : mem_top M0 = 20000) by reflexivity.
  destruct (named_c_call_results debug64 (sha_prims g) counter a M0) as [K _].
  destruct (proj2 (proj2 (K 100 200 (legal_keygen M0 T0)) ltac:(discriminate) ltac:(discriminate))
              _ _ _ _ _ _ (counter_gives a 16) (counter_gives (a + 1) 16) (counter_gives (a + 1 + 1) 16)) as (M1 & E1 & G1).
  pose proof (c_next (T := debug64) (P := sha_prims g) counter a M0 a M0 [] [] _ _ _ _
                (c_start counter a M0) (legal_keygen M0 T0) E1) as H1.
  cbn [new_keys new_issues app] in H1. change (SLH_DSA_OK =? 0) with true in H1. cbn iota in H1.
  destruct (prop_c_program_histories _ _ _ _ _ _ _ _ _ (c_start (T := debug64) (P := sha_prims g) counter a M0)) as (_ & F0 & _).
  destruct (F0 _ _ _ _ (legal_keygen M0 T0) E1) as (_ & T1 & Ch). rewrite T0 in T1. cbn [may_change] in Ch.
  destruct (prop_c_program_histories _ _ _ _ _ _ _ _ _ H1) as (_ & F1 & _ & S1).
  destruct (S1 _ _ (or_introl eq_refl) 300 5%Z 200 1000 (legal_sign M1 T1) ltac:(discriminate) ltac:(discriminate)
              ltac:(discriminate) eq_refl) as (_ & _ & Sg).
  destruct (Sg _ _ (counter_gives _ 16)) as (M2 & E2).
  exists M1. do 2 eexists. split; [exact T1|]. split; [|split; [|exact E2]].
  - transitivity (load M0 300 5); [|rewrite <- Lm; apply load_store].
    apply load_ext. intros x Lx. destruct (Byte.byte_eq_dec (mem_at M1 x) (mem_at M0 x)) as [Y|Y]; [exact Y|].
    destruct (Ch x Y) as [_ B]. lia.
  - apply (f_equal fst) in G1. cbn [fst] in G1. transitivity (sub_bytes (load M1 200 64) 0 16).
    { rewrite sub_load by lia. reflexivity. }
    rewrite <- G1. unfold Fips205.slh_keygen_internal. cbv zeta. cbn [fst]. rewrite <- (nlen_nrepeat (n2b a) 16) at 2.
    apply sub_bytes_prefix.
Qed.

Lemma sha_programs :
  exists M1 M2 g1 g2 M1' M2',
    legal (T := debug64) M1 (CSign 300 5 200 1000) /\ legal (T := debug64) M2 (CSign 300 5 200 1000) /\
    load M1 300 5 <> load M2 300 5 /\ load M1 200 16 <> load M2 200 16 /\
    c_step (T := debug64) (P := sha_prims (n2b 1)) counter 3 M1 (CSign 300 5 200 1000) = (g1, FReturn 0 M1') /\
    c_step (T := debug64) (P := sha_prims (n2b 2)) counter 8 M2 (CSign 300 5 200 1000) = (g2, FReturn 0 M2') /\
    c_public (P := sha_prims (n2b 1)) (CSign 300 5 200 1000) M1 M1' =
    c_public (P := sha_prims (n2b 2)) (CSign 300 5 200 1000) M2 M2'.
Proof.
  destruct (sha_program (n2b 1) 0 (nrepeat (n2b 1) 5) eq_refl) as (M1 & g1 & M1' & T1 & E1 & K1 & S1).
  destruct (sha_program (n2b 2) 5 (nrepeat (n2b 2) 5) eq_refl) as (M2 & g2 & M2' & T2 & E2 & K2 & S2).
  change (0 + 1 + 1 + 1) with 3 in S1. change (5 + 1 + 1 + 1) with 8 in S2.
  exists M1, M2, g1, g2, M1', M2'. split; [apply legal_sign, T1|]. split; [apply legal_sign, T2|].
  split; [|split; [|split; [exact S1|split; [exact S2|]]]].
  - rewrite E1, E2. intros E. apply (f_equal (fun l => hd (n2b 0) l)) in E. discriminate E.
  - rewrite K1, K2. intros E. apply (f_equal (fun l => hd (n2b 0) l)) in E. discriminate E.
  - etransitivity; [exact (sha_public (n2b 1) _ _ _ _ _ _ (legal_sign M1 T1) S1)|].
    symmetry. exact (sha_public (n2b 2) _ _ _ _ _ _ (legal_sign M2 T2) S2).
Qed.

Lemma sha_prims_differ :
  sha256 (Prims := sha_prims (n2b 1)) (nrepeat (n2b 0) 74) <> sha256 (Prims := sha_prims (n2b 2)) (nrepeat (n2b 0) 74).
Proof. intros E. apply (f_equal (fun l => hd (n2b 0) l)) in E. lazy in E. discriminate. Qed.
