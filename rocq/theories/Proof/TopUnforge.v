(** C55: what a forgery in a history of issued signatures amounts to. *)
From Verif Require Import Spec.Fips205 Spec.Fips205Hash.
From Verif Require Import Model.Api Proof.Facts Proof.HelpersP Proof.SpecP Proof.HashP Proof.Fun Proof.WotsP Proof.SlhP Proof.SerP Proof.ApiP
  Proof.SpecFun Spec.Vocab Proof.Summary Proof.CallsP Proof.TopCorrect Proof.TopSer Proof.Honest Proof.PosP Proof.TopTrace Proof.TopFraming
  Proof.TopFips Proof.TopPath Proof.TopWots Proof.Forge Spec.VocabForge Proof.TopForge.
Import ListNotations.
Open Scope list_scope.
Open Scope N_scope.

Section Honest.
Context {T : Target} {P : Prims} (s : set_name) (sk : SlhPrivateKey).
Notation p := (param_set s).
Notation hf := (hf_of (param_set s)).
Notation ps := (sk_pk_seed sk).
Notation ss := (sk_seed sk).

Definition hdg (M' sig : bytes) : bytes := H_msg hf (block s sig 0) ps (sk_pk_root sk) M'.
Definition hsg (M' sig : bytes) : SlhDsaSig :=
  mkSlhDsaSig (block s sig 0) (sig_fors_of p hf ps ss (hdg M' sig)) (sig_ht_of p hf ps ss (hdg M' sig)).
(** sig is what the owner computes for M' with the randomizer of sig *)
Definition honest (M' sig : bytes) : Prop := nlen (block s sig 0) = cN p /\ sig = enc_sig p (hsg M' sig).

Lemma hdg_len M' sig : nlen (hdg M' sig) = cM p.
Proof. apply (len_Hmsg _ _ _ (HASHERS_len _ (param_PF s))). Qed.

Lemma wf_hsg M' sig : honest M' sig -> wf_sig_n p (hsg M' sig).
Proof. intros [L _]. apply (wf_n_of p hf (HASHERS_len _ (param_PF s))). exact L. Qed.

Lemma issued_honest M' sig t : signing_run s sk M' sig t -> honest M' sig.
Proof.
  intros R. pose proof (param_PF s) as HP.
  destruct (signing_shape _ _ _ _ _ R) as (r & g & mp & hedged & b & Em & Es & W & Cl & _).
  pose proof (wf_n_sign_val p HP sk b M') as Wi.
  assert (B : block s sig 0 = sign_R hf sk b M').
  { rewrite Es. unfold sign_bytes. rewrite block_enc; [reflexivity|exact Wi|]. unfold nblocks, ho. lia. }
  split.
  - rewrite B. destruct Wi as [_ [Wr _]]. exact Wr.
  - rewrite Es at 1. unfold sign_bytes. apply f_equal. unfold hsg, hdg. rewrite B. reflexivity.
Qed.

Lemma fixed_honest M' R sg gen : nlen (sk_prf sk) = cN p -> nlen R = cN p ->
  result (sign_with_randomizer s R M' sk) = Val sg -> result (serialize p sg) = Val gen -> honest M' gen.
Proof.
  intros W2 LR Sr Er. pose proof (param_PF s) as HP.
  pose proof (HASHERS_spec p HP) as HS. pose proof (HASHERS_len p HP) as HL.
  destruct (runs_slh_sign_internal p HP _ _ (fixed_spec hf R _ HS) (fixed_len hf R _ _ LR HL) [M'] sk []
              W2 ltac:(discriminate)) as [Sr' _].
  rewrite concat1, fixed_sign in Sr'. cbv zeta in Sr'. unfold sign_with_randomizer in Sr. rewrite Sr' in Sr.
  set (dg := H_msg hf R ps (sk_pk_root sk) M') in Sr.
  assert (Wsg : wf_sig_n p (mkSlhDsaSig R (sig_fors_of p hf ps ss dg) (sig_ht_of p hf ps ss dg)))
    by (apply (wf_n_of p hf HL); exact LR).
  apply (f_equal (fun o => match o with Val x => x | _ => sg end)) in Sr. cbv beta iota in Sr. rewrite <- Sr in Er.
  destruct (runs_serialize p HP _ Wsg) as [Er' _]. rewrite Er' in Er.
  apply (f_equal (fun o => match o with Val x => x | _ => gen end)) in Er. cbv beta iota in Er.
  assert (B : block s gen 0 = R).
  { rewrite <- Er. rewrite block_enc; [reflexivity|exact Wsg|]. unfold nblocks, ho. lia. }
  split; [rewrite B; exact LR|]. rewrite <- Er at 1. unfold hsg, hdg. rewrite B. reflexivity.
Qed.

Lemma sig_digest_eq M' sig :
  sig_digest s (get_public_key sk) M' sig = (dg_md p (hdg M' sig), dg_tree p (hdg M' sig), dg_leaf p (hdg M' sig)).
Proof.
  unfold sig_digest. cbn [get_public_key pk_seed pk_root]. rewrite <- param_hf, <- param_fips.
  change (H_msg hf (block s sig 0) ps (sk_pk_root sk) M') with (hdg M' sig).
  apply (split_digest_eq _ (param_PF s)). apply hdg_len.
Qed.

Lemma fors_leaf_eq M' sig i : i < cK p ->
  fors_leaf s (get_public_key sk) M' sig i
  = (dg_tree p (hdg M' sig), dg_leaf p (hdg M' sig), fidx p (dg_md p (hdg M' sig)) i).
Proof.
  intros Hi. unfold fors_leaf. rewrite sig_digest_eq. rewrite <- param_a, <- param_k.
  pose proof (md_bits p (param_PF s) _ (hdg_len M' sig)) as B. pose proof (pf_a _ (param_PF s)).
  rewrite base_2b_digits by lia. rewrite nth_digits by exact Hi. reflexivity.
Qed.

Lemma reveals M' sig i : honest M' sig -> i < cK p ->
  block s sig (fors_block s i) = fors_secret s sk (fors_leaf s (get_public_key sk) M' sig i).
Proof.
  intros Hh Hi. pose proof (param_PF s) as HP. pose proof (wf_hsg _ _ Hh) as W. destruct Hh as [_ E].
  rewrite fors_leaf_eq by exact Hi. unfold fors_secret. cbv zeta.
  rewrite <- param_hf, zero_fl, setTree_fl, setType_fl, setKP_fl.
  assert (Ht : dg_tree p (hdg M' sig) < 18446744073709551616) by (apply dg_tree_lt; exact HP).
  assert (Hl : dg_leaf p (hdg M' sig) < 4294967296) by (apply (N.lt_le_trans _ (2 ^ cHP p)); [apply dg_leaf_lt|]; apply (N.le_trans _ (2 ^ 9)); [apply N.pow_le_mono_r; [discriminate|apply (pf_hp _ HP)]|discriminate]).
  rewrite fors_skGen_eq by assumption.
  assert (EB : fors_block s i = 1 + i * fb p) by (unfold fors_block, fb; rewrite <- param_a; lia).
  rewrite EB. rewrite E at 1. rewrite block_enc; [|exact W|].
  - rewrite sigB_pkv by exact Hi. unfold hsg. cbn [fors_sig]. unfold sig_fors_of, fsig. cbn [private_key_value].
    rewrite nth_map_nrange by exact Hi. reflexivity.
  - pose proof (fors_block_lt p i 0 Hi ltac:(unfold fb; lia)) as L. unfold nblocks. lia.
Qed.

Lemma leaf_tree M1 sig1 i1 M2 sig2 i2 : i1 < cK p -> i2 < cK p ->
  fors_leaf s (get_public_key sk) M1 sig1 i1 = fors_leaf s (get_public_key sk) M2 sig2 i2 -> i1 = i2.
Proof.
  intros H1 H2. rewrite !fors_leaf_eq by assumption. intros E.
  apply (f_equal snd) in E. cbn [snd] in E. unfold fidx in E.
  pose proof (digit_lt (dg_md p (hdg M1 sig1)) (cA p) i1) as D1.
  pose proof (digit_lt (dg_md p (hdg M2 sig2)) (cA p) i2) as D2.
  set (Q := 2 ^ cA p) in *. assert (Q <> 0) by apply pow2_nz. clearbody Q.
  apply (f_equal (fun x => x / Q)) in E.
  rewrite !(N.add_comm (_ * Q)), !N.div_add, !N.div_small in E by assumption. lia.
Qed.

Lemma same_chain_block M1 sig1 M2 sig2 l i : honest M1 sig1 -> honest M2 sig2 -> l < cD p -> i < cLEN p ->
  sig_position s (get_public_key sk) M1 sig1 l = sig_position s (get_public_key sk) M2 sig2 l ->
  block s sig1 (chain_block s l i) = block s sig2 (chain_block s l i).
Proof.
  intros H1 H2 Hl Hi. pose proof (param_PF s) as HP.
  unfold sig_position. rewrite !sig_digest_eq, !path_tree_at, !path_leaf_at. intros E.
  apply (f_equal fst) in E as E1. apply (f_equal snd) in E as E2. cbn [fst snd] in E1, E2.
  assert (EB : chain_block s l i = ho p + l * hb p + i).
  { unfold chain_block, ho, hb, fb, cLEN. destruct s; reflexivity. }
  assert (Hblk : ho p + l * hb p + i < nblocks p) by (apply ht_block_lt; [exact Hl|unfold hb; lia]).
  pose proof (wf_hsg _ _ H1) as W1. pose proof (wf_hsg _ _ H2) as W2.
  destruct H1 as [_ F1], H2 as [_ F2]. rewrite EB, F1, F2.
  rewrite !block_enc by assumption. rewrite !sigB_wots by assumption.
  apply (f_equal (fun x => nth (N.to_nat i) (sig_wots x) [])). unfold hsg. cbn [ht_sig].
  apply hsig_layer; [exact HP|lia|exact E1|exact E2].
Qed.
End Honest.

Lemma search {A} (Q : A -> Prop) (l : list A) : (forall x, {Q x} + {~ Q x}) ->
  {x | In x l /\ Q x} + {forall x, In x l -> ~ Q x}.
Proof.
  intros D. induction l as [|x l [IH|IH]].
  - right. intros x [].
  - left. destruct IH as [y [I Y]]. exists y. split; [right; exact I|exact Y].
  - destruct (D x) as [Y|Y]; [left; exists x; split; [left; reflexivity|exact Y]|].
    right. intros y [<-|I]; [exact Y|apply IH; exact I].
Qed.

Lemma search_below (Q : N -> Prop) k : (forall i, {Q i} + {~ Q i}) ->
  {i | i < k /\ Q i} + {forall i, i < k -> ~ Q i}.
Proof.
  intros D. destruct (search Q (nrange k) D) as [[i [I Y]]|Y].
  - left. exists i. split; [apply In_nrange; exact I|exact Y].
  - right. intros i Hi. apply Y, In_nrange. exact Hi.
Qed.

Lemma leaf_dec (x y : N * N * N) : {x = y} + {x <> y}.
Proof. repeat decide equality. Qed.

Lemma prop_unforgeability_reduction :
  forall (T : Target) (P : Prims) (s : set_name) (pk : SlhPublicKey) (sk : SlhPrivateKey) (hist : list (bytes * bytes)),
    key_pair s pk sk -> issued_by s sk hist ->
    let k := t_k (table2 s) in
    (** an issued signature reveals the secrets of the leaves its digest selects *)
    (forall M' sig i, In (M', sig) hist -> i < k ->
       block s sig (fors_block s i) = fors_secret s sk (fors_leaf s pk M' sig i)) /\
    (forall (M' sig : bytes) (t : list event), accepting_run s pk M' sig t ->
     let owner := trace (keygen_with_seeds (param_set s) (sk_seed sk) (sk_prf sk) (sk_pk_seed sk)) ++
                  trace (sign_with_randomizer s (block s sig 0) M' sk) in
       (** it was issued, *)
       In (M', sig) hist \/
       (** or it exhibits a second preimage, *)
       second_preimage s t owner \/
       (** or a value that lies earlier on a hash chain than the one value issued signatures show, *)
       (exists l i b c w, l < t_d (table2 s) /\ i < 2 * seed_bytes s + 3 /\ 1 <= c /\ b + c <= 15 /\
          let (tr, kp) := sig_position s pk M' sig l in
          let v := block s sig (chain_block s l i) in
          In (EHash KF (pk_seed pk) (set_hash_address (chain_address l tr kp i) b) [v]) t /\
          result (chain (HASHERS (param_set s)) v b c (pk_seed pk) (chain_address l tr kp i)) = Val w /\
          forall M2 sig2, In (M2, sig2) hist -> sig_position s pk M2 sig2 l = (tr, kp) ->
            block s sig2 (chain_block s l i) = w) \/
       (** or a secret value that no issued signature reveals, *)
       (exists i, i < k /\
          block s sig (fors_block s i) = fors_secret s sk (fors_leaf s pk M' sig i) /\
          forall M2 sig2 i2, In (M2, sig2) hist -> i2 < k ->
            fors_leaf s pk M2 sig2 i2 <> fors_leaf s pk M' sig i) \/
       (** or its digest, of a new pair of randomizer and message, selects only leaves that digests of
           issued signatures select *)
       ((forall M2 sig2, In (M2, sig2) hist -> (M2, block s sig2 0) <> (M', block s sig 0)) /\
        forall i, i < k -> exists M2 sig2, In (M2, sig2) hist /\
          fors_leaf s pk M2 sig2 i = fors_leaf s pk M' sig i)).
Proof.
  intros T P s pk sk hist K Is k. pose proof (param_PF s) as HP.
  pose proof (prop_forgery_extraction T P s pk sk K) as FX.
  destruct (key_pair_facts _ _ _ K) as [W [Cs ->]].
  assert (Ek : k = cK (param_set s)) by (symmetry; apply param_k).
  assert (Hist : forall M2 sig2, In (M2, sig2) hist -> exists t, signing_run s sk M2 sig2 t).
  { unfold issued_by in Is. rewrite Forall_forall in Is. intros M2 sig2 I. exact (Is _ I). }
  assert (Hon : forall M2 sig2, In (M2, sig2) hist -> honest s sk M2 sig2).
  { intros M2 sig2 I. destruct (Hist _ _ I) as [t2 R2]. exact (issued_honest s sk _ _ _ R2). }
  split.
  { intros M' sig i I Hi. apply reveals; [apply Hon; exact I|rewrite <- Ek; exact Hi]. }
  intros M' sig t A owner.
  destruct (FX M' sig t A) as (sg & gen & Sr & Er & B0 & _ & Un & C). cbv zeta in C. fold owner in C.
  assert (Hg : honest s sk M' gen).
  { assert (LR : nlen (block s sig 0) = cN (param_set s)).
    { destruct (accepting_shape _ _ _ _ _ A) as [Ls _]. unfold block. rewrite <- param_n.
      assert (Ln : nblocks (param_set s) * cN (param_set s) = nlen sig) by (rewrite Ls; symmetry; apply sig_len_blocks; exact HP).
      apply (nlen_blk (cN (param_set s)) sig 0 (nblocks (param_set s))); [lia|]. unfold nblocks, ho. lia. }
    exact (fixed_honest s sk M' (block s sig 0) sg gen (proj1 (proj2 W)) LR Sr Er). }
  assert (Pg : forall l, sig_position s (get_public_key sk) M' gen l = sig_position s (get_public_key sk) M' sig l).
  { intros l. unfold sig_position, sig_digest. rewrite B0. reflexivity. }
  destruct C as [->|[C|C]].
  - (* the accepted signature is the owner's *)
    destruct (search (fun x => (fst x, block s (snd x) 0) = (M', block s gen 0)) hist) as [[[M2 sig2] [I E]]|Nw].
    { intros x. decide equality; apply bytes_dec. }
    { left. cbn [fst snd] in E. apply (f_equal fst) in E as E1. apply (f_equal snd) in E as E2. cbn [fst snd] in E1, E2.
      subst M2. destruct (Hist _ _ I) as [t2 R2]. rewrite (Un _ _ R2 E2) in I. exact I. }
    right. right. right.
    destruct (search_below (fun i => forall x, In x hist -> fors_leaf s (get_public_key sk) (fst x) (snd x) i
                                                 <> fors_leaf s (get_public_key sk) M' gen i) k) as [[i [Hi Y]]|Y].
    { intros i. destruct (search (fun x => fors_leaf s (get_public_key sk) (fst x) (snd x) i
                                   = fors_leaf s (get_public_key sk) M' gen i) hist) as [[x [I E]]|Y].
      - intros x. apply leaf_dec.
      - right. intros F. exact (F x I E).
      - left. exact Y. }
    + left. exists i. split; [exact Hi|]. split; [apply reveals; [exact Hg|rewrite <- Ek; exact Hi]|].
      intros M2 sig2 i2 I H2 E. assert (i2 = i) by (eapply leaf_tree; [| |exact E]; rewrite <- Ek; assumption). subst i2.
      exact (Y (M2, sig2) I E).
    + right. split; [intros M2 sig2 I; exact (Nw (M2, sig2) I)|]. intros i Hi.
      destruct (search (fun x => fors_leaf s (get_public_key sk) (fst x) (snd x) i
                                   = fors_leaf s (get_public_key sk) M' gen i) hist) as [[[M2 sig2] [I E]]|Z].
      * intros x. apply leaf_dec.
      * exists M2, sig2. split; assumption.
      * exfalso. apply (Y i Hi). exact Z.
  - right. left. exact C.
  - right. right. left. destruct C as (l & i & b & c & Hl & Hi & Hc & Hb & C).
    exists l, i, b, c, (block s gen (chain_block s l i)). repeat (split; [assumption|]).
    specialize (Pg l). destruct (sig_position s (get_public_key sk) M' sig l) as [tr kp] eqn:E.
    destruct C as [C1 C2]. cbv zeta in *. split; [exact C1|]. split; [exact C2|].
    intros M2 sig2 I Q. apply (same_chain_block s sk M2 sig2 M' gen); [apply Hon; exact I|exact Hg| | |].
    + rewrite param_d. exact Hl.
    + unfold cLEN. rewrite param_n. exact Hi.
    + rewrite Q, Pg. reflexivity.
Qed.
