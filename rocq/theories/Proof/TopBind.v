(** C61: a signature is bound to one message, also under a public key that its owner chose. *)
From Verif Require Import Spec.Fips205 Spec.Fips205Hash.
From Verif Require Import Model.Api Proof.Facts Proof.HashP Proof.Fun Proof.WotsP Proof.SlhP Proof.SerP Proof.ApiP
  Proof.SpecFun Proof.SpecP Proof.HelpersP Spec.Vocab Proof.Summary Proof.CallsP Proof.TopCorrect Proof.TopSer Proof.Honest Proof.PosP Proof.TopTrace Proof.TopFraming
  Proof.TopFips Proof.TopPath Proof.TopWots Proof.Forge Spec.VocabForge Proof.TopForge Proof.Bind Spec.VocabBind.
Import ListNotations.
Open Scope list_scope.
Open Scope N_scope.

Lemma accepting_any {T : Target} {P : Prims} s pk M sig t : accepting_run s pk M sig t -> any_run s t.
Proof. intros [? ? ? ? L _|? ? ? ? ? L _|? ? ? L _]; constructor; exact L. Qed.

Lemma coll_collision {T : Target} {P : Prims} s ps t1 t2 : any_run s t1 -> any_run s t2 ->
  coll (hf_of (param_set s)) ps (fun e => In e t1) (fun e => In e t2) -> collision s ps t1 t2.
Proof.
  intros A1 A2 (k & a1 & a2 & i1 & i2 & v & W1 & W2 & I1 & I2 & Ne & Lm & F1 & F2).
  exists k, a1, a2, i1, i2, v.
  refine (conj W1 (conj W2 (conj I1 (conj I2 (conj Lm (conj _ (conj (fval_hash_value s ps k a1 i1 v W1 F1) (fval_hash_value s ps k a2 i2 v W2 F2)))))))).
  destruct Ne as [Ne|Ne]; [left|right; exact Ne].
  destruct (prop_compressed_addresses_unambiguous T P s s t1 t2 k k ps ps a1 a2 i1 i2 A1 I1 A2 I2)
    as [(c1 & c2 & R1 & R2 & _ & _ & J) (e1 & e2 & Q1 & Q2 & _ & _ & K)].
  split.
  - intros E. apply Ne, J. assert (X : Val c1 = Val c2) by (etransitivity; [symmetry; exact R1|etransitivity; [exact E|exact R2]]).
    injection X. exact (fun z => z).
  - intros E. apply Ne, K. assert (X : Val e1 = Val e2) by (etransitivity; [symmetry; exact Q1|etransitivity; [exact E|exact Q2]]).
    injection X. exact (fun z => z).
Qed.

Section Any.
Context {T : Target} {P : Prims} (s : set_name) (pk : SlhPublicKey).
Notation p := (param_set s).
Notation hf := (hf_of (param_set s)).
Definition adg (M sig : bytes) : bytes := H_msg hf (block s sig 0) (pk_seed pk) (pk_root pk) M.
Lemma adg_len M sig : nlen (adg M sig) = cM p.
Proof. apply (len_Hmsg _ _ _ (HASHERS_len p (param_PF s))). Qed.
Lemma adigest_eq M sig : sig_digest s pk M sig = (dg_md p (adg M sig), dg_tree p (adg M sig), dg_leaf p (adg M sig)).
Proof.
  unfold sig_digest. rewrite <- param_hf, <- param_fips.
  change (H_msg hf (block s sig 0) (pk_seed pk) (pk_root pk) M) with (adg M sig).
  apply (split_digest_eq _ (param_PF s)). apply adg_len.
Qed.
Lemma aleaf_eq M sig i : i < cK p ->
  fors_leaf s pk M sig i = (dg_tree p (adg M sig), dg_leaf p (adg M sig), fidx p (dg_md p (adg M sig)) i).
Proof.
  intros Hi. unfold fors_leaf. rewrite adigest_eq. rewrite <- param_a, <- param_k.
  pose proof (md_bits p (param_PF s) _ (adg_len M sig)) as B. pose proof (pf_a _ (param_PF s)).
  rewrite base_2b_digits by lia. rewrite nth_digits by exact Hi. reflexivity.
Qed.
Lemma vdigest_eq M sig : verify_digest hf pk (dec_sig p sig) M = adg M sig.
Proof. unfold verify_digest, adg, block. rewrite <- param_n. reflexivity. Qed.
End Any.

Lemma prop_signature_binds_message :
  forall (T : Target) (P : Prims) (s : set_name) (pk : SlhPublicKey) (sig M1 M2 : bytes) (t1 t2 : list event),
    accepting_run s pk M1 sig t1 -> accepting_run s pk M2 sig t2 ->
    (** the digests of the two messages select the same key and the same leaf of every FORS tree, *)
    (forall i, i < t_k (table2 s) -> fors_leaf s pk M1 sig i = fors_leaf s pk M2 sig i) \/
    (** or the two verifications contain a collision, *)
    collision s (pk_seed pk) t1 t2 \/
    (** or a block of the signature comes back after one or more steps along its own hash chain *)
    earlier_chain_value s pk t1 M1 sig sig.
Proof.
  intros T P s pk sig M1 M2 t1 t2 A1 A2.
  pose proof (param_PF s) as HP.
  pose proof (coll_collision s (pk_seed pk) t1 t2 (accepting_any _ _ _ _ _ A1) (accepting_any _ _ _ _ _ A2)) as CC.
  set (p := param_set s) in *. set (hf := hf_of p) in *.
  pose proof (HASHERS_spec p HP) as HS. fold hf in HS. pose proof (HASHERS_len p HP) as HL. fold hf in HL.
  destruct (accepting_shape _ _ _ _ _ A1) as [Ls [Va1 [mp1 [Emp1 Ct1]]]]. fold p in Ls, Va1, Ct1. fold hf in Va1, Ct1.
  destruct (accepting_shape _ _ _ _ _ A2) as [_ [Va2 [mp2 [Emp2 Ct2]]]]. fold p in Va2, Ct2. fold hf in Va2, Ct2.
  pose proof (wf_dec_sig p HP sig Ls) as Wd.
  unfold verify_val in Va1, Va2. apply bytes_eqb_eq in Va1. apply bytes_eqb_eq in Va2.
  rewrite (vdigest_eq s pk : forall M x, verify_digest hf pk (dec_sig p x) M = _) in Va1, Va2.
  set (dg1 := adg s pk M1 sig) in *. set (dg2 := adg s pk M2 sig) in *.
  assert (Ldg : nlen dg1 = cM p) by apply adg_len.
  destruct (vroot_two p HP hf HL (pk_seed pk) (fun e => In e t1) (fun e => In e t2) dg1 dg2 (dec_sig p sig) Wd)
    as [(Et & El & Ef)|[C|C]].
  - rewrite Forall_forall. intros e He. apply (filter_In is_call). unfold calls in Ct1. rewrite Ct1.
    unfold verify_calls. right. rewrite Emp1, (vdigest_eq s pk : forall M x, verify_digest hf pk (dec_sig p x) M = _). exact He.
  - rewrite Forall_forall. intros e He. apply (filter_In is_call). unfold calls in Ct2. rewrite Ct2.
    unfold verify_calls. right. rewrite Emp2, (vdigest_eq s pk : forall M x, verify_digest hf pk (dec_sig p x) M = _). exact He.
  - etransitivity; [exact Va1|symmetry; exact Va2].
  - left. intros i Hi. rewrite <- param_k in Hi. rewrite !aleaf_eq by exact Hi.
    fold p. fold dg1 dg2. rewrite Et, El, (Ef i Hi). reflexivity.
  - right. left. apply CC. exact C.
  - right. right. destruct C as [j [Hj [i [c [Hi [Hc [Le [In1 Ev]]]]]]]].
    set (l := N.of_nat j) in *.
    assert (Hl : l < cD p) by (unfold l; lia).
    assert (Ej : N.to_nat l = j) by (unfold l; lia).
    set (b := wdig p _ i) in Le, In1, Ev.
    set (tr := tree_at p (dg_tree p dg1) j) in *. set (kp := leaf_at p (dg_tree p dg1) (dg_leaf p dg1) j) in *.
    assert (EB : chain_block s l i = ho p + l * hb p + i).
    { unfold chain_block, ho, hb, fb, cLEN. unfold p. destruct s; reflexivity. }
    assert (E1 : nth (N.to_nat i) (sig_wots (nth j (ht_sig (dec_sig p sig)) (mkXmssSig [] []))) []
                 = block s sig (chain_block s l i)).
    { rewrite EB. unfold dec_sig. cbn [ht_sig]. rewrite <- Ej. rewrite nth_map_nrange by exact Hl.
      cbn [sig_wots]. rewrite nth_map_nrange by exact Hi. unfold block. rewrite <- param_n. reflexivity. }
    rewrite E1 in In1, Ev.
    exists l, i, b, c.
    split; [unfold p in Hl; destruct s; exact Hl|].
    split; [rewrite <- param_n; exact Hi|]. split; [exact Hc|]. split; [exact Le|].
    assert (EP : sig_position s pk M1 sig l = (tr, kp)).
    { unfold sig_position. rewrite adigest_eq. fold p dg1. unfold tr, kp. rewrite <- Ej.
      f_equal; [apply path_tree_at|apply path_leaf_at]. }
    rewrite EP. cbv zeta.
    assert (EA : chain_address l tr kp i = adr l tr 0 kp i 0).
    { unfold chain_address. rewrite adr_default, adr_layer, adr_tree, adr_type, adr_kp, adr_chain. reflexivity. }
    rewrite EA. split; [rewrite adr_hash; exact In1|].
    destruct (runs_chain (HASHERS p) hf HS (pk_seed pk) (block s sig (chain_block s l i)) b c l tr kp i 0
                ltac:(lia)) as [Rc _].
    etransitivity; [exact Rc|]. apply f_equal. exact Ev.
Qed.
