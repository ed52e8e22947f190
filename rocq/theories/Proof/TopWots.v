(** C34: the WOTS+ checksum prevents domination. *)
From Coq Require Import String.
From Verif Require Import Spec.Fips205 Spec.Fips205Hash.
From Verif Require Import Model.Api Proof.Facts Proof.HashP Proof.Fun Proof.WotsP Proof.SlhP Proof.SerP Proof.ApiP
  Proof.SpecP Proof.SpecFun Spec.Vocab Proof.Summary Proof.CallsP Proof.TopSer Proof.Honest Proof.PosP Proof.TopTrace.
Import ListNotations.
Open Scope list_scope.
Open Scope N_scope.

(** pointwise order of lists *)
Definition le_all (a b : list N) : Prop := Forall2 N.le a b.

Lemma le_all_nth a b : length a = length b -> (forall i, (i < length a)%nat -> nth i a 0 <= nth i b 0) -> le_all a b.
Proof.
  revert b. induction a as [|x a IH]; intros [|y b] L K; try discriminate; [constructor|].
  constructor; [apply (K 0%nat); cbn; lia|]. apply IH; [injection L; auto|].
  intros i Hi. apply (K (S i)). cbn. lia.
Qed.

Definition sum (l : list N) : N := fold_right N.add 0 l.
Lemma le_all_sum a b : le_all a b -> sum a <= sum b /\ (sum a = sum b -> a = b).
Proof.
  induction 1 as [|x y a b Hxy _ [I1 I2]]; [split; [apply N.le_refl|reflexivity]|].
  cbn [sum fold_right]. fold (sum a) (sum b). split; [lia|]. intros E. assert (x = y) by lia. subst y.
  f_equal. apply I2. lia.
Qed.

Lemma csum_sum l : Forall (fun d => d < 16) l -> forall c,
  fold_left (fun c d => c + (15 - d)) l c + sum l = c + 15 * nlen l.
Proof.
  induction 1 as [|x l Hx _ IH]; intros c; [cbn [fold_left sum fold_right]; change (nlen (@nil N)) with 0; lia|]. cbn [fold_left sum fold_right]. fold (sum l).
  rewrite nlen_cons. specialize (IH (c + (15 - x))). lia.
Qed.

Lemma poly_le a b : le_all a b -> forall x y, x <= y ->
  fold_left (fun v d => v * 2 ^ 4 + d) a x <= fold_left (fun v d => v * 2 ^ 4 + d) b y.
Proof.
  change (2 ^ 4) with 16.
  induction 1 as [|c d a b Hcd _ IH]; intros x y Hxy; [exact Hxy|]. cbn [fold_left]. apply IH. lia.
Qed.

Lemma Forall2_app_split {A B} (R : A -> B -> Prop) a1 a2 b1 b2 :
  length a1 = length b1 -> Forall2 R (a1 ++ a2) (b1 ++ b2) -> Forall2 R a1 b1 /\ Forall2 R a2 b2.
Proof.
  revert b1. induction a1 as [|x a IH]; intros [|y b] L F; try discriminate.
  - split; [constructor|exact F].
  - inversion F as [|? ? ? ? E F']. subst. injection L as L. destruct (IH _ L F'). split; [constructor|]; assumption.
Qed.

Section W.
Context (p : Params) (HP : PF p).

Lemma digits16 x c : Forall (fun d => d < 16) (digits x 4 c).
Proof. exact (digits_lt x 4 c). Qed.

Lemma csum_digits_value m :
  fold_left (fun v d => v * 2 ^ 4 + d) (digits (be_bytes 2 (csum p m * 16)) 4 3) 0 = csum p m.
Proof.
  rewrite digits_value by discriminate. rewrite of_be_be_bytes. change (256 ^ N.of_nat 2) with 65536.
  change (2 ^ (8 * nlen (be_bytes 2 (csum p m * 16)) - 3 * 4)) with 16.
  pose proof (csum_le p m). pose proof (PF_n_range p HP). rewrite N.mod_small by lia. apply N.div_mul. discriminate.
Qed.

Lemma digits_inj a b : nlen a = cN p -> nlen b = cN p -> digits a 4 (2 * cN p) = digits b 4 (2 * cN p) -> a = b.
Proof.
  intros La Lb E.
  assert (K : forall x, nlen x = cN p -> fold_left (fun v d => v * 2 ^ 4 + d) (digits x 4 (2 * cN p)) 0 = of_be x).
  { intros x Lx. rewrite digits_value by lia. replace (8 * nlen x - 2 * cN p * 4) with 0 by lia. apply N.div_1_r. }
  apply of_be_inj; [unfold nlen in *; lia|]. rewrite <- (K a La), <- (K b Lb), E. reflexivity.
Qed.

Lemma no_domination m1 m2 : nlen m1 = cN p -> nlen m2 = cN p ->
  (forall i, i < cLEN p -> wdig p m1 i <= wdig p m2 i) -> m1 = m2.
Proof.
  intros L1 L2 Dom.
  assert (D : le_all (wdigits p m1) (wdigits p m2)).
  { assert (Ll : forall m, length (wdigits p m) = N.to_nat (cLEN p)).
    { intros m. pose proof (nlen_wdigits p m) as X. unfold nlen in X. lia. }
    apply le_all_nth; [rewrite !Ll; reflexivity|].
    intros i Hi. rewrite Ll in Hi. specialize (Dom (N.of_nat i) ltac:(lia)). unfold wdig in Dom.
    rewrite !Nnat.Nat2N.id in Dom. exact Dom. }
  unfold wdigits in D. apply Forall2_app_split in D.
  2:{ unfold digits. rewrite !map_length. reflexivity. }
  destruct D as [D1 D2].
  pose proof (poly_le _ _ D2 0 0 (N.le_refl _)) as Q. rewrite !csum_digits_value in Q.
  destruct (le_all_sum _ _ D1) as [S1 S2].
  pose proof (csum_sum _ (digits16 m1 (2 * cN p)) 0) as C1. pose proof (csum_sum _ (digits16 m2 (2 * cN p)) 0) as C2.
  fold (csum p m1) in C1. fold (csum p m2) in C2.
  assert (Ln : nlen (digits m1 4 (2 * cN p)) = nlen (digits m2 4 (2 * cN p))).
  { unfold digits, nlen. rewrite !map_length. reflexivity. }
  apply digits_inj; [exact L1|exact L2|]. apply S2. lia.
Qed.

Lemma exists_below (k : N) (f : N -> bool) : (exists i, i < k /\ f i = true) \/ (forall i, i < k -> f i = false).
Proof.
  destruct (existsb f (nrange k)) eqn:E.
  - apply existsb_exists in E. destruct E as [i [I Fi]]. left. exists i. split; [apply In_nrange; exact I|exact Fi].
  - right. intros i Hi. destruct (f i) eqn:Fi; [|reflexivity].
    assert (existsb f (nrange k) = true) by (apply existsb_exists; exists i; split; [apply In_nrange; exact Hi|exact Fi]). congruence.
Qed.

Lemma incomparable m1 m2 : nlen m1 = cN p -> nlen m2 = cN p -> m1 <> m2 ->
  exists i, i < cLEN p /\ wdig p m1 i < wdig p m2 i.
Proof.
  intros L1 L2 Ne. destruct (exists_below (cLEN p) (fun i => wdig p m1 i <? wdig p m2 i)) as [[i [Hi E]]|K].
  - exists i. split; [exact Hi|]. apply N.ltb_lt. exact E.
  - exfalso. apply Ne. symmetry. apply no_domination; [exact L2|exact L1|]. intros i Hi. specialize (K i Hi).
    apply N.ltb_ge. exact K.
Qed.
End W.

(** counting the steps of one chain *)
Definition on_chain (i : N) (e : event) : bool :=
  match e with EHash KF _ a _ => a_word2 a =? i | _ => false end.

Lemma on_chain_calls i t : filter (on_chain i) (calls t) = filter (on_chain i) t.
Proof.
  induction t as [|e t IH]; [reflexivity|]. unfold calls. cbn [filter]. fold (calls t).
  destruct e; cbn [is_call filter]; rewrite ?IH; reflexivity.
Qed.

Section C.
Context {P : Prims} (p : Params) (HP : PF p) (hf : HashFns) (ps ss : bytes) (l t kp : N).

Lemma filter_chainC i c : i < 4294967296 -> c < 4294967296 -> forall cnt s x,
  s + N.of_nat cnt <= 16 ->
  nlen (filter (on_chain i) (chainC hf ps (wA l t kp c) s cnt x)) = if c =? i then N.of_nat cnt else 0.
Proof.
  intros Hi Hc. induction cnt as [|cnt IH]; intros s x Hs.
  - cbn [chainC filter]. destruct (c =? i); reflexivity.
  - cbn [chainC]. change (EHash KF ps (wA l t kp c s) [x] :: ?Z) with ([EHash KF ps (wA l t kp c s) [x]] ++ Z).
    rewrite filter_app, nlen_app, IH by lia. unfold wA at 1.
    assert (E : a_word2 (adr l t 0 kp c s) = c).
    { unfold a_word2, adr. cbn [f0 f1 f2 f3 f4 f5 f6 f7]. apply of_be4. lia. }
    cbn [filter on_chain]. rewrite E. destruct (c =? i); cbn [nlen length]; [change (nlen [_]) with 1|change (nlen []) with 0]; lia.
Qed.

Lemma count_flat_map i k (f : N -> list event) (g : N -> N) :
  i < k -> (forall c, c < k -> nlen (filter (on_chain i) (f c)) = if c =? i then g c else 0) ->
  nlen (filter (on_chain i) (flat_map f (nrange k))) = g i.
Proof.
  intros Hi Hf.
  assert (K : forall k', k' <= k -> nlen (filter (on_chain i) (flat_map f (nrange k'))) = if i <? k' then g i else 0).
  { induction k' as [|k' IH] using N.peano_ind; intros Hk.
    - destruct (i <? 0) eqn:E; [apply N.ltb_lt in E; lia|reflexivity].
    - rewrite <- N.add_1_r, nrange_snoc, flat_map_app, filter_app, nlen_app, IH by lia.
      cbn [flat_map]. rewrite app_nil_r, Hf by lia.
      destruct (N.ltb_spec i k') as [C1|C1], (N.ltb_spec i (k' + 1)) as [C2|C2], (N.eqb_spec k' i) as [C3|C3]; try lia.
      rewrite C3. lia. }
  rewrite K by lia. replace (i <? k) with true by (symmetry; apply N.ltb_lt; exact Hi). reflexivity.
Qed.

Lemma cLEN_small : cLEN p < 4294967296.
Proof. pose proof (PF_n_range p HP). unfold cLEN. lia. Qed.

Lemma wsig_steps m i : i < cLEN p -> nlen (filter (on_chain i) (wsigC p hf ps ss l t kp m)) = wdig p m i.
Proof.
  intros Hi. pose proof cLEN_small. unfold wsigC. apply (count_flat_map i (cLEN p) _ (wdig p m)); [exact Hi|].
  intros c Hc. unfold wvalC, wskC. cbn [filter on_chain]. pose proof (wdig_lt p m c).
  rewrite filter_chainC by lia. rewrite Nnat.N2Nat.id. reflexivity.
Qed.
Lemma wpk_steps sig m i : i < cLEN p -> nlen (filter (on_chain i) (wpkC p hf ps l t kp sig m)) = 15 - wdig p m i.
Proof.
  intros Hi. pose proof cLEN_small. unfold wpkC. rewrite filter_app, nlen_app.
  replace (filter (on_chain i) [wcompC ps l t kp (wtips p hf ps l t kp sig m)]) with (@nil event) by reflexivity.
  change (nlen []) with 0. rewrite N.add_0_r.
  apply (count_flat_map i (cLEN p) _ (fun i => 15 - wdig p m i)); [exact Hi|].
  intros c Hc. pose proof (wdig_lt p m c). rewrite filter_chainC by lia. rewrite Nnat.N2Nat.id. reflexivity.
Qed.
End C.

(** the address of one WOTS+ key pair: key pair [kp] of tree [t] in layer [l] *)
Definition wots_address (l t kp : N) : Adrs :=
  set_key_pair_address (set_type_and_clear (set_tree_address (set_layer_address adrs_default l) t) WOTS_HASH) kp.
Lemma wots_address_adr l t kp : wots_address l t kp = adr l t 0 kp 0 0.
Proof. unfold wots_address. rewrite adr_default, adr_layer, adr_tree, adr_type, adr_kp. reflexivity. Qed.

Lemma prop_checksum_incomparable :
  forall (T : Target) (P : Prims) (s : set_name) (l t kp : N) (skseed pkseed m1 m2 : bytes),
    l < 2 ^ 32 -> t < 2 ^ 64 -> kp < 2 ^ 32 ->
    nlen m1 = seed_bytes s -> nlen m2 = seed_bytes s -> m1 <> m2 ->
    let p := param_set s in
    let A := set_key_pair_address
               (set_type_and_clear (set_tree_address (set_layer_address adrs_default l) t) WOTS_HASH) kp in
    let steps (tr : list event) (i : N) :=
      nlen (filter (fun e => match e with EHash KF _ a _ => a_word2 a =? i | _ => false end) tr) in
    let walked m i := steps (trace (wots_sign p (HASHERS p) m skseed pkseed A)) i in
    let remaining sig m i := steps (trace (wots_pk_from_sig p (HASHERS p) sig m pkseed A)) i in
    let chains := 2 * seed_bytes s + 3 in
    (exists sig1, result (wots_sign p (HASHERS p) m1 skseed pkseed A) = Val sig1 /\ nlen sig1 = chains) /\
    (forall i, i < chains -> walked m1 i <= 15) /\
    (exists i, i < chains /\ walked m1 i < walked m2 i) /\
    (exists j, j < chains /\ walked m2 j < walked m1 j) /\
    (forall sig i, nlen sig = chains -> i < chains -> walked m1 i + remaining sig m1 i = 15).
Proof.
  intros T P s l t kp ss ps m1 m2 Hl Ht Hkp L1 L2 Ne p A steps walked remaining chains.
  pose proof (param_PF s) as HP. fold p in HP.
  change (2 ^ 32) with 4294967296 in Hl, Hkp. change (2 ^ 64) with 18446744073709551616 in Ht.
  rewrite <- param_n in L1, L2. fold p in L1, L2.
  assert (Ec : chains = cLEN p).
  { unfold chains, cLEN. rewrite <- param_n. fold p. reflexivity. }
  assert (EA : A = adr l t 0 kp 0 0) by apply wots_address_adr.
  clearbody chains A. subst chains A.
  assert (W : forall m i, nlen m = cN p -> i < cLEN p -> walked m i = wdig p m i).
  { intros m i Lm Hi. unfold walked, steps. change (fun e => _) with (on_chain i).
    destruct (runs_wots_sign p HP (HASHERS p) (hf_of p) (HASHERS_spec p HP) ps ss m l t kp Hkp Lm) as [_ Et].
    rewrite <- on_chain_calls, Et. apply wsig_steps; assumption. }
  assert (R : forall sig m i, nlen sig = cLEN p -> nlen m = cN p -> i < cLEN p -> remaining sig m i = 15 - wdig p m i).
  { intros sig m i Ls Lm Hi. unfold remaining, steps. change (fun e => _) with (on_chain i).
    destruct (runs_wots_pk_from_sig p HP (HASHERS p) (hf_of p) (HASHERS_spec p HP) ps sig m l t kp Hkp Lm Ls) as [_ Et].
    rewrite <- on_chain_calls, Et. apply wpk_steps; assumption. }
  clearbody walked remaining.
  split; [|split; [|split; [|split]]].
  - destruct (runs_wots_sign p HP (HASHERS p) (hf_of p) (HASHERS_spec p HP) ps ss m1 l t kp Hkp L1) as [Er _].
    eexists. split; [exact Er|]. unfold wsig. rewrite nlen_map. apply nlen_nrange.
  - intros i Hi. rewrite W by assumption. pose proof (wdig_lt p m1 i). lia.
  - destruct (incomparable p HP m1 m2 L1 L2 Ne) as [i [Hi K]]. exists i. split; [exact Hi|]. rewrite !W by assumption. exact K.
  - destruct (incomparable p HP m2 m1 L2 L1 (fun e => Ne (eq_sym e))) as [i [Hi K]]. exists i. split; [exact Hi|]. rewrite !W by assumption. exact K.
  - intros sig i Ls Hi. rewrite W, R by assumption. pose proof (wdig_lt p m1 i). lia.
Qed.
