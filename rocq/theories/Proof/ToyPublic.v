(** Two different sets of hash functions, two keys with different seeds and two messages for which a
    verifier sees the same values, for the Example beside the theorem that signing leaks only the
    public view. *)
From Verif Require Import Spec.Fips205 Spec.Fips205Hash.
From Verif Require Import Model.Api Proof.Runs Proof.HelpersP Proof.Facts Proof.HashP Proof.Fun Proof.SlhP Proof.SerP Proof.ApiP
  Proof.WotsP Spec.Vocab Proof.Summary Proof.TopCorrect Spec.VocabForge Spec.VocabPublic Proof.LowSign Proof.TopFips Proof.TopLeak Proof.Toy.
Import ListNotations.
Open Scope list_scope.
Open Scope N_scope.

(** byte 35 of the input is the type of the address: PRF and the WOTS+ chains depend on the input and
    on [g], all other calls give a constant *)
Definition half_hash (g : byte) (x : bytes) (k : N) : bytes :=
  let ty := b2n (nth 35 x (n2b 9)) in
  if (ty =? 0) || (ty =? 5) || (ty =? 6) then nrepeat (checksum (g :: x)) k else nrepeat (n2b 9) k.

Definition half_prims (g : byte) : Prims.
Proof.
  refine {| sha256 := fun x => nrepeat (checksum x) 32; sha512 := fun x => nrepeat (checksum x) 64;
            shake128 := half_hash g; shake256 := half_hash g |};
    intros; try apply nlen_nrepeat; unfold half_hash; destruct (_ || _); apply nlen_nrepeat.
Defined.

Definition half_key (g : byte) (a : N) : SlhPublicKey * SlhPrivateKey :=
  key_of (P := half_prims g) (param_set SHAKE_128s) (nrepeat (n2b a) 16) (nrepeat (n2b (a + 1)) 16) (nrepeat (n2b (a + 2)) 16).

Lemma half_keygen (T : Target) g a :
  call (try_keygen_with_rng (P := half_prims g) (param_set SHAKE_128s) counter) a = Val (fst (half_key g a), snd (half_key g a)).
Proof.
  destruct (@rruns_keygen T (half_prims g) (param_set SHAKE_128s) (param_PF SHAKE_128s) counter a (a + 1) (a + 1 + 1) (a + 1 + 1 + 1)
              (nrepeat (n2b a) 16) (nrepeat (n2b (a + 1)) 16)
              (nrepeat (n2b (a + 1 + 1)) 16) eq_refl eq_refl eq_refl) as [_ [V _]].
  unfold call. etransitivity; [exact V|].
  replace (a + 1 + 1) with (a + 2) by lia. apply f_equal, surjective_pairing.
Qed.

Lemma half_pair (T : Target) g a : key_pair (P := half_prims g) SHAKE_128s (fst (half_key g a)) (snd (half_key g a)).
Proof. apply (kp_generated SHAKE_128s counter a). apply half_keygen. Qed.

Lemma half_typed g a : sk_typed SHAKE_128s (snd (half_key g a)).
Proof. apply wf_typed_sk. apply (key_pair_facts (P := half_prims g) SHAKE_128s _ _ (half_pair debug64 g a)). Qed.

Section Half.
Context (g : byte).
Instance PG : Prims := half_prims g.
Let p := param_set SHAKE_128s.
Let hf := hf_of p.
Let nine := nrepeat (n2b 9) 16.

Lemma type_byte l t ty a b c x : nth 19 (flat (adr l t ty a b c) ++ x) (n2b 9) = n2b ty.
Proof. lazy -[n2b N.div]. reflexivity. Qed.

Lemma half_typed_call ps l t ty a b c x : nlen ps = 16 ->
  (b2n (n2b ty) =? 0) || (b2n (n2b ty) =? 5) || (b2n (n2b ty) =? 6) = false ->
  half_hash g (ps ++ flat (adr l t ty a b c) ++ x) 16 = nine.
Proof.
  intros L E. unfold half_hash. rewrite app_nth2 by (unfold nlen in L; lia).
  replace (35 - length ps)%nat with 19%nat by (unfold nlen in L; lia). rewrite type_byte, E. reflexivity.
Qed.

Lemma climb_const nd auth idx c : forall cnt k x, (forall z i u v, nd z i u v = c) ->
  climb nd auth idx (S cnt) k x = c.
Proof.
  induction cnt as [|cnt IH]; intros k x Hnd.
  - cbn [climb]. unfold up. destruct (N.even _); apply Hnd.
  - change (climb nd auth idx (S (S cnt)) k x) with (climb nd auth idx (S cnt) (k + 1) (up nd idx k x (auth k))). apply IH, Hnd.
Qed.

Lemma half_xnd ps l t z i x y : nlen ps = 16 -> xnd hf ps l t z i x y = nine.
Proof. intros L. exact (half_typed_call ps l t 2 0 z i (x ++ y) L eq_refl). Qed.

Lemma half_root ps ss : nlen ps = 16 -> proot p hf ps ss = nine.
Proof.
  intros L. unfold proot, xnode. change (N.to_nat (cHP p)) with 9%nat. cbn [mnode]. apply half_xnd, L.
Qed.

Lemma half_layer sk dg j : nlen (sk_pk_seed sk) = 16 -> layer_value p hf sk dg j = nine.
Proof.
  intros L. unfold layer_value. destruct j as [|j]; cbn [hmsg].
  - exact (half_typed_call _ _ _ 4 _ _ _ _ L eq_refl).
  - unfold xpk. change (N.to_nat (cHP p)) with 9%nat. apply climb_const. intros. apply half_xnd, L.
Qed.

Lemma half_digest a o M : sign_digest hf (snd (half_key g a)) o M = nrepeat (n2b 9) 30.
Proof.
  pose proof (typed_sk _ _ (half_typed g a)) as (_ & _ & L & _). change (cN (param_set SHAKE_128s)) with 16 in L.
  unfold sign_digest.
  assert (R : sk_pk_root (snd (half_key g a)) = nine)
    by (unfold half_key, key_of; cbn [snd sk_pk_root]; apply half_root, nlen_nrepeat).
  rewrite R. assert (LR : nlen (sign_R hf (snd (half_key g a)) o M) = 16)
    by apply (len_PRFm _ _ _ (HASHERS_len p (param_PF SHAKE_128s))).
  change (half_hash g (sign_R hf (snd (half_key g a)) o M ++ sk_pk_seed (snd (half_key g a)) ++ nine ++ M) 30 = nrepeat (n2b 9) 30).
  generalize dependent (sign_R hf (snd (half_key g a)) o M). generalize dependent (sk_pk_seed (snd (half_key g a))).
  clear. intros u L v LR. unfold half_hash. unfold nlen in L, LR. rewrite app_nth2 by lia. rewrite app_nth2 by lia.
  replace (35 - length v - length u)%nat with 3%nat by lia.
  rewrite app_nth1 by (apply Nat.ltb_lt; reflexivity). reflexivity.
Qed.

Lemma half_view a o M :
  public_view SHAKE_128s (get_public_key (snd (half_key g a))) M (sign_bytes p (snd (half_key g a)) o M) =
  (nrepeat (n2b 9) 30, map (fun _ => nine) (seq 0 7)).
Proof.
  pose proof (typed_sk _ _ (half_typed g a)) as (_ & _ & L & _). change (cN (param_set SHAKE_128s)) with 16 in L.
  etransitivity; [apply public_view_sign|]. apply f_equal2; [apply half_digest|].
  change (N.to_nat (cD (param_set SHAKE_128s))) with 7%nat. apply map_ext. intros j. apply half_layer, L.
Qed.

Lemma half_signs (T : Target) a g0 m ctx : nlen ctx <= 255 ->
  exists o, nlen o = 16 /\ o = nrepeat (n2b g0) 16 /\
  call (try_sign_with_rng p counter (snd (half_key g a)) m ctx true) g0 =
    Val (sign_bytes p (snd (half_key g a)) o (concat (pure_pieces m ctx))).
Proof.
  intros Hc. pose proof (typed_sk _ _ (half_typed g a)) as W.
  destruct (@try_sign_desc T PG _ (param_PF SHAKE_128s) counter g0 _ m ctx true W Hc) as [_ [V _]].
  unfold draw in V. cbn [snd counter try_fill] in V.
  eexists. split; [|split; [|exact V]]; [apply nlen_nrepeat|reflexivity].
Qed.
End Half.

Definition half_m1 : bytes := [n2b 0; n2b 105].
Definition half_m2 : bytes := [n2b 5; n2b 33].

Lemma half_views (T : Target) :
  exists sig1 sig2,
    call (try_sign_with_rng (P := half_prims (n2b 1)) (param_set SHAKE_128s) counter (snd (half_key (n2b 1) 3)) half_m1 toy_ctx true) 5 = Val sig1 /\
    call (try_sign_with_rng (P := half_prims (n2b 2)) (param_set SHAKE_128s) counter (snd (half_key (n2b 2) 4)) half_m2 toy_ctx true) 8 = Val sig2 /\
    block SHAKE_128s sig1 0 <> block SHAKE_128s sig2 0 /\
    public_view (P := half_prims (n2b 1)) SHAKE_128s (get_public_key (snd (half_key (n2b 1) 3))) (Fips205.pure_M' half_m1 toy_ctx) sig1 =
    public_view (P := half_prims (n2b 2)) SHAKE_128s (get_public_key (snd (half_key (n2b 2) 4))) (Fips205.pure_M' half_m2 toy_ctx) sig2.
Proof.
  destruct (half_signs (n2b 1) T 3 5 half_m1 toy_ctx toy_ctx_le) as (o1 & _ & O1 & V1).
  destruct (half_signs (n2b 2) T 4 8 half_m2 toy_ctx toy_ctx_le) as (o2 & _ & O2 & V2).
  do 2 eexists. split; [exact V1|]. split; [exact V2|]. split.
  - assert (B : forall g a o M, block SHAKE_128s (sign_bytes (P := half_prims g) (param_set SHAKE_128s) (snd (half_key g a)) o M) 0 =
      half_hash g (nrepeat (n2b (a + 1)) 16 ++ o ++ M) 16).
    { intros g a o M. exact (view_R (P := half_prims g) SHAKE_128s (snd (half_key g a)) o M). }
    rewrite !B. subst o1 o2. intros E. apply (f_equal (fun l => hd (n2b 0) l)) in E. lazy in E. discriminate.
  - rewrite <- !pure_pieces_M'. etransitivity; [apply half_view|]. symmetry. apply half_view.
Qed.

Lemma half_prims_differ :
  shake256 (Prims := half_prims (n2b 1)) (nrepeat (n2b 0) 64) 16 <> shake256 (Prims := half_prims (n2b 2)) (nrepeat (n2b 0) 64) 16.
Proof. intros E. apply (f_equal (fun l => hd (n2b 0) l)) in E. lazy in E. discriminate. Qed.

Lemma half_seeds_differ : sk_seed (snd (half_key (n2b 1) 3)) <> sk_seed (snd (half_key (n2b 2) 4)).
Proof. intros E. change (nrepeat (n2b 3) 16 = nrepeat (n2b 4) 16) in E. apply (f_equal (fun l => hd (n2b 0) l)) in E. discriminate. Qed.
