(** C63, C64: digests select leaves uniformly; how many digests hit only leaves already open. *)
From Verif Require Import Spec.Fips205 Spec.Fips205Hash.
From Verif Require Import Model.Api Proof.Facts Proof.HelpersP Proof.SpecP Proof.HashP Proof.Fun Proof.WotsP Proof.SlhP Proof.SerP Proof.ApiP
  Proof.SpecFun Spec.Vocab Proof.Summary Proof.CallsP Proof.TopCorrect Proof.TopSer Proof.Honest Proof.PosP Proof.TopTrace Proof.TopFraming
  Proof.TopFips Proof.TopPath Proof.TopWots Proof.Forge Spec.VocabForge Proof.TopForge Proof.TopUnforge Spec.VocabSel Proof.Select.
Import ListNotations.
Open Scope list_scope.
Open Scope N_scope.

Section Sel.
Context (s : set_name).
Notation p := (param_set s).
Let HP : PF p := param_PF s.

Definition choose (d : bytes) : N * N * list N := sel (cK p) (cA p) (cH p - cHP p) (cHP p) (dg1 p) (dg2 p) (dg3 p) d.

Lemma ceil8 x : x <= 8 * ((x + 7) / 8).
Proof. lia. Qed.

Lemma B1 : cK p * cA p <= 8 * dg1 p. Proof. apply ceil8. Qed.
Lemma B2 : cH p - cHP p <= 8 * dg2 p. Proof. apply ceil8. Qed.
Lemma B3 : cHP p <= 8 * dg3 p. Proof. apply ceil8. Qed.
Lemma m_eq : cM p = dg1 p + dg2 p + dg3 p. Proof. apply (pf_m p HP). Qed.

Lemma choose_eq d : nlen d = cM p -> choose d = (dg_tree p d, dg_leaf p d, digits (dg_md p d) (cA p) (cK p)).
Proof.
  intros L. unfold choose, sel, dg_tree, dg_leaf. f_equal. rewrite dgs_map, N2Nat.id. unfold digits, digit.
  apply map_ext_in. intros i Hi. apply In_nrange in Hi. rewrite <- (dg_md_len p HP _ L). unfold dg_md.
  rewrite N.div_div by apply pow_nz. rewrite <- N.pow_add_r. do 3 f_equal.
  pose proof B1. assert ((i + 1) * cA p <= cK p * cA p) by (apply N.mul_le_mono_r; lia).
  rewrite N.mul_sub_distr_r. unfold dg1 in *. lia.
Qed.

Lemma tb : t_k (table2 s) = cK p /\ t_a (table2 s) = cA p /\ t_h (table2 s) = cH p /\ t_h' (table2 s) = cHP p /\ t_m (table2 s) = cM p.
Proof. destruct s; repeat split. Qed.
End Sel.

(** the leaves seen in a trace *)
Definition op1 (e : event) : list (N * N * N) :=
  match e with
  | EHash KF _ a _ => if (a_type a =? 3) && (a_word2 a =? 0) then [(a_tree a, a_word1 a, a_word3 a)] else []
  | _ => []
  end.
Lemma opened_app t u : opened (t ++ u) = opened t ++ opened u.
Proof. apply flat_map_app. Qed.
Lemma opened_none t : Forall (fun e => op1 e = []) t -> opened t = [].
Proof. induction 1 as [|e t E _ IH]; [reflexivity|]. unfold opened in *. cbn [flat_map]. change (op1 e ++ opened t = []). rewrite E. exact IH. Qed.
Lemma opened_flat {A} (g : A -> list event) l : opened (flat_map g l) = flat_map (fun x => opened (g x)) l.
Proof. induction l as [|x l IH]; [reflexivity|]. cbn [flat_map]. rewrite opened_app, IH. reflexivity. Qed.

Lemma a_type_adr l t ty b c d : ty < 4294967296 -> a_type (adr l t ty b c d) = ty.
Proof. intros Ht. unfold a_type, adr. cbn [f4]. apply of_be4. exact Ht. Qed.

Section Opened.
Context (p : Params) (HP : PF p) (hf : HashFns) (ps : bytes).

Lemma opened_xpkC l t idx sg m : opened (xpkC p hf ps l t idx sg m) = [].
Proof.
  apply opened_none, Forall_app. split.
  - apply Forall_app. split.
    + apply Forall_flat_map_iff. intros i _. apply Forall_chainC. intros j _. cbn [op1].
      unfold wA. rewrite a_type_adr by reflexivity. reflexivity.
    + constructor; [reflexivity|constructor].
  - apply Forall_climbC. intros j _. unfold up. destruct (N.even _); reflexivity.
Qed.

Lemma opened_fpkC t kp fs md : t < 18446744073709551616 -> kp < 2 ^ cHP p ->
  opened (fpkC p hf ps t kp fs md) = map (fun i => (t, kp, fidx p md i)) (nrange (cK p)).
Proof.
  intros Ht Hk. unfold fpkC. rewrite opened_app. unfold opened at 2. cbn [flat_map]. rewrite app_nil_r, opened_flat.
  rewrite <- flat_map_concat_map || rewrite flat_map_concat_map.
  rewrite (map_ext_in _ (fun i => [(t, kp, fidx p md i)])).
  - induction (nrange (cK p)) as [|i l IH]; [reflexivity|]. cbn [map concat app]. rewrite IH. reflexivity.
  - intros i Hi. apply In_nrange in Hi. unfold frootC, flvC.
    change (EHash KF ps (fA t kp 0 (fidx p md i)) [nth (N.to_nat i) (private_key_value fs) []] :: ?Z)
      with ([EHash KF ps (fA t kp 0 (fidx p md i)) [nth (N.to_nat i) (private_key_value fs) []]] ++ Z).
    rewrite opened_app, (opened_none (climbC _ _ _ _ _ _ _)), app_nil_r.
    + unfold opened. cbn [flat_map]. rewrite app_nil_r. unfold fA.
      assert (Sm : small 0 t 3 kp 0 (fidx p md i)).
      { pose proof (fidx_lt p md i Hi). pose proof (bounds p HP) as (b1 & b2 & b3 & b4 & b5 & b6 & b7 & b8).
        unfold small. abstract_pows. split_and; lia. }
      destruct (adr_fields _ _ _ _ _ _ Sm) as (F1 & F2 & F3 & F4 & F5 & F6). rewrite F2, F3, F4, F5, F6. reflexivity.
    + apply Forall_climbC. intros j _. unfold up. destruct (N.even _); reflexivity.
Qed.

Lemma opened_vrootC dg sg :
  opened (vrootC p hf ps dg sg) = map (fun i => (dg_tree p dg, dg_leaf p dg, fidx p (dg_md p dg) i)) (nrange (cK p)).
Proof.
  unfold vrootC. rewrite opened_app, opened_flat, opened_fpkC by (apply dg_tree_lt || apply dg_leaf_lt; exact HP).
  rewrite (flat_map_ext _ (fun _ => [])) by (intros j; apply opened_xpkC).
  rewrite <- app_nil_r. f_equal. induction (seq _ _) as [|? ? IH]; [reflexivity|exact IH].
Qed.
End Opened.

Lemma opened_calls t : opened (calls t) = opened t.
Proof.
  unfold opened, calls. induction t as [|e t IH]; [reflexivity|]. cbn [filter flat_map].
  destruct e; cbn [flat_map app is_call]; rewrite ?IH; reflexivity.
Qed.

Lemma leaves_choose s d : nlen d = cM (param_set s) ->
  leaves s (choose s d) =
  map (fun i => (dg_tree (param_set s) d, dg_leaf (param_set s) d, fidx (param_set s) (dg_md (param_set s) d) i))
      (nrange (cK (param_set s))).
Proof.
  intros L. destruct (tb s) as (Ek & Ea & _). rewrite (choose_eq s d L). unfold leaves. rewrite Ek, Ea.
  apply map_ext_in. intros i Hi. apply In_nrange in Hi. rewrite nth_digits by exact Hi. reflexivity.
Qed.

Lemma msg_digest_len {T : Target} {P : Prims} s pk M' sig : nlen (msg_digest s pk M' sig) = cM (param_set s).
Proof. unfold msg_digest. rewrite <- param_hf. apply (len_Hmsg _ _ _ (HASHERS_len _ (param_PF s))). Qed.

Lemma sel_in_range s c :
  sel_ok (cK (param_set s)) (cA (param_set s)) (cH (param_set s) - cHP (param_set s)) (cHP (param_set s)) c <-> in_range s c.
Proof.
  destruct c as [[tr kp] js]. destruct (tb s) as (Ek & Ea & Eh & Ehp & _). unfold sel_ok, in_range.
  rewrite Ek, Ea, Eh, Ehp. reflexivity.
Qed.

Lemma prop_digest_selects_uniformly :
  forall s : set_name, let t := table2 s in
  exists select : bytes -> N * N * list N,
    (forall (T : Target) (P : Prims) pk M' sig tr, verifying_run s pk M' sig tr ->
       nlen (msg_digest s pk M' sig) = t_m t /\ opened tr = leaves s (select (msg_digest s pk M' sig))) /\
    (forall (T : Target) (P : Prims) sk M' sig tr, signing_run s sk M' sig tr ->
       nlen (msg_digest s (get_public_key sk) M' sig) = t_m t /\
       published s sig = map (fors_secret s sk) (leaves s (select (msg_digest s (get_public_key sk) M' sig)))) /\
    (forall d, nlen d = t_m t -> in_range s (select d)) /\
    (forall c, in_range s c -> exists ds, NoDup ds /\ nlen ds = 2 ^ (8 * t_m t - t_k t * t_a t - t_h t) /\
       forall d, In d ds <-> nlen d = t_m t /\ select d = c).
Proof.
  intros s t. destruct (tb s) as (Ek & Ea & Eh & Ehp & Em). unfold t. rewrite Em, Ek, Ea, Eh.
  pose proof (param_PF s) as HP. exists (choose s). split; [|split; [|split]].
  - intros T P pk M' sig tr R. split; [apply msg_digest_len|].
    destruct (verifying_shape _ _ _ _ _ R) as (mp & <- & W & L & C).
    rewrite <- opened_calls, C. unfold verify_calls. change (EHmsg ?a ?b ?c ?d :: ?Z) with ([EHmsg a b c d] ++ Z).
    rewrite opened_app. change (opened [EHmsg _ _ _ _]) with (@nil (N * N * N)). cbn [app].
    rewrite (opened_vrootC _ HP). rewrite (leaves_choose s _ (msg_digest_len s pk _ sig)).
    unfold msg_digest, verify_digest. rewrite <- param_hf. rewrite (sig_R s sig L). reflexivity.
  - intros T P sk M' sig tr R. split; [apply msg_digest_len|]. unfold published. rewrite Ek.
    pose proof (issued_honest s sk _ _ _ R) as Hh.
    rewrite (leaves_choose s _ (msg_digest_len s (get_public_key sk) M' sig)), map_map.
    apply map_ext_in. intros i Hi. apply In_nrange in Hi. rewrite (reveals s sk _ _ i Hh Hi).
    rewrite (fors_leaf_eq s sk M' sig i Hi). unfold msg_digest, hdg. rewrite <- param_hf. reflexivity.
  - intros d L. apply sel_in_range. apply sel_ok_sel; auto using B1, B2, B3. rewrite L. apply m_eq.
  - intros c Hc. apply sel_in_range in Hc.
    exists (pre (cK (param_set s)) (cA (param_set s)) (cH (param_set s) - cHP (param_set s)) (cHP (param_set s))
              (dg1 (param_set s)) (dg2 (param_set s)) (dg3 (param_set s)) c).
    split; [apply NoDup_pre; auto using B1, B2, B3|]. split.
    + rewrite nlen_pre by auto using B1, B2, B3. f_equal. rewrite (m_eq s).
      assert (cHP (param_set s) <= cH (param_set s)) by (rewrite (pf_h _ HP); pose proof (pf_d _ HP); nia). lia.
    + intros d. rewrite (m_eq s). apply In_pre; auto using B1, B2, B3.
Qed.

(** *** C64 *)
Lemma fold_sum_map {A} (g : A -> N) l b : (forall x, In x l -> g x <= b) -> fold_right N.add 0 (map g l) <= nlen l * b.
Proof.
  induction l as [|x l IH]; intros Hb; [cbn; lia|]. cbn [map fold_right]. rewrite nlen_cons.
  specialize (Hb x (or_introl eq_refl)) as Hx. specialize (IH (fun y Iy => Hb y (or_intror Iy))). lia.
Qed.

Lemma prop_few_time_reuse_bound :
  forall (T : Target) (P : Prims) (s : set_name) (pk : SlhPublicKey) (hist : list (bytes * bytes)),
    let t := table2 s in
    exists danger : list bytes,
      NoDup danger /\
      nlen danger <= 2 ^ (8 * t_m t - t_k t * t_a t - t_h t) * reuse s pk hist /\
      (forall gamma, (forall M' sig, In (M', sig) hist -> times_used s pk hist (fors_key s pk M' sig) <= gamma) ->
         nlen danger * 2 ^ (t_k t * t_a t + t_h t) <= 2 ^ (8 * t_m t) * (nlen hist * gamma ^ (t_k t - 1))) /\
      (forall M' sig,
         (forall i, i < t_k t -> exists M2 sig2, In (M2, sig2) hist /\ fors_leaf s pk M2 sig2 i = fors_leaf s pk M' sig i) ->
         In (msg_digest s pk M' sig) danger).
Proof.
  intros T P s pk hist t. destruct (tb s) as (Ek & Ea & Eh & Ehp & Em). unfold t. rewrite Em, Ek, Ea, Eh.
  pose proof (param_PF s) as HP. pose proof (B1 s) as b1. pose proof (B2 s) as b2. pose proof (B3 s) as b3.
  pose proof (m_eq s) as Hm.
  set (p := param_set s) in *.
  set (qs := map (fun '(M', sig) => choose s (msg_digest s pk M' sig)) hist).
  set (L := cover (cK p) (cA p) (cH p - cHP p) (cHP p) (dg1 p) (dg2 p) (dg3 p) qs).
  assert (Hhp : cHP p <= cH p) by (rewrite (pf_h _ HP); pose proof (pf_d _ HP); nia).
  assert (SD : forall M' sig, sig_digest s pk M' sig =
             (dg_md p (msg_digest s pk M' sig), dg_tree p (msg_digest s pk M' sig), dg_leaf p (msg_digest s pk M' sig))).
  { intros M' sig. unfold sig_digest. rewrite <- param_fips. apply (split_digest_eq _ HP). apply msg_digest_len. }
  assert (FK : forall M' sig, fors_key s pk M' sig = fst (choose s (msg_digest s pk M' sig))).
  { intros M' sig. unfold fors_key. rewrite SD, (choose_eq s _ (msg_digest_len s pk M' sig)). reflexivity. }
  assert (FL : forall M' sig i, i < cK p -> fors_leaf s pk M' sig i =
             (fst (choose s (msg_digest s pk M' sig)), i * 2 ^ cA p + nth (N.to_nat i) (snd (choose s (msg_digest s pk M' sig))) 0)).
  { intros M' sig i Hi. unfold fors_leaf. rewrite SD, (choose_eq s _ (msg_digest_len s pk M' sig)). cbn [fst snd].
    rewrite Ea, Ek. fold p. pose proof (md_bits p HP _ (msg_digest_len s pk M' sig)) as B. pose proof (pf_a _ HP).
    rewrite base_2b_digits by lia. reflexivity. }
  assert (TU : forall x, times_used s pk hist x = nlen (same qs x)).
  { intros x. unfold times_used, same, qs. induction hist as [|[M' sig] h IH]; [reflexivity|]. cbn [filter map].
    rewrite FK. destruct (fst (choose s (msg_digest s pk M' sig))) as [tr kp] eqn:E. destruct x as [x y]. cbn [fst snd].
    destruct (nn_dec (tr, kp) (x, y)) as [En|En].
    - apply (f_equal fst) in En as E1. apply (f_equal snd) in En as E2. cbn [fst snd] in E1, E2. subst.
      rewrite !N.eqb_refl. cbn [andb]. rewrite !nlen_cons. f_equal. exact IH.
    - destruct ((tr =? x) && (kp =? y)) eqn:Eb; [|exact IH]. exfalso. apply En. apply andb_prop in Eb. f_equal; lia. }
  assert (RW : reuse s pk hist = weight (cK p) qs).
  { unfold reuse, weight. rewrite Ek. fold p. unfold qs at 2. rewrite map_map. f_equal. apply map_ext. intros [M' sig].
    rewrite TU, FK. reflexivity. }
  assert (LL : nlen (nodup bytes_dec L) <= 2 ^ (8 * cM p - cK p * cA p - cH p) * reuse s pk hist).
  { apply N.le_trans with (nlen L).
    - unfold nlen. assert (G : (length (nodup bytes_dec L) <= length L)%nat); [|lia].
      apply NoDup_incl_length; [apply NoDup_nodup|]. intros x. apply nodup_In.
    - unfold L. rewrite nlen_cover by assumption. rewrite RW.
      replace (cH p - cHP p + cHP p) with (cH p) by lia. rewrite <- Hm. apply N.le_refl. }
  exists (nodup bytes_dec L). split; [apply NoDup_nodup|]. split; [exact LL|]. split.
  - intros gamma Hg.
    assert (R : reuse s pk hist <= nlen hist * gamma ^ (cK p - 1)).
    { unfold reuse. apply fold_sum_map. intros [M' sig] I. rewrite Ek. apply N.pow_le_mono_l. apply Hg. exact I. }
    replace (8 * cM p) with (8 * cM p - cK p * cA p - cH p + (cK p * cA p + cH p)) by lia.
    rewrite (N.pow_add_r 2 (_ - _)).
    set (X := 2 ^ (8 * cM p - cK p * cA p - cH p)) in *. set (Y := 2 ^ (cK p * cA p + cH p)).
    set (Z := nlen hist * gamma ^ (cK p - 1)) in *. clearbody X Y Z.
    rewrite <- N.mul_assoc, (N.mul_comm Y), N.mul_assoc. apply N.mul_le_mono_r.
    apply N.le_trans with (1 := LL). apply N.mul_le_mono_l. exact R.
  - intros M' sig Hc. apply nodup_In. unfold L. apply In_cover; try assumption.
    + pose proof (pf_k _ HP). lia.
    + rewrite msg_digest_len. exact Hm.
    + intros i Hi. destruct (Hc i Hi) as (M2 & sig2 & I & E). rewrite !FL in E by exact Hi.
      exists (choose s (msg_digest s pk M2 sig2)). split; [|split].
      * unfold qs. apply in_map_iff. exists (M2, sig2). split; [reflexivity|exact I].
      * apply (f_equal fst) in E. exact E.
      * apply (f_equal snd) in E. cbn [snd] in E. apply N.add_cancel_l in E. exact E.
Qed.

Lemma prop_forgery_needs_endangered_digest :
  forall (T : Target) (P : Prims) (s : set_name) (pk : SlhPublicKey) (sk : SlhPrivateKey) (hist : list (bytes * bytes)),
    key_pair s pk sk -> issued_by s sk hist ->
    let tb := table2 s in
    (** a set of digests fixed by the history, and its size *)
    exists danger : list bytes,
      NoDup danger /\
      nlen danger <= 2 ^ (8 * t_m tb - t_k tb * t_a tb - t_h tb) * reuse s pk hist /\
      (forall g, (forall M' sig, In (M', sig) hist -> times_used s pk hist (fors_key s pk M' sig) <= g) ->
         nlen danger * 2 ^ (t_k tb * t_a tb + t_h tb) <= 2 ^ (8 * t_m tb) * (nlen hist * g ^ (t_k tb - 1))) /\
      (forall (M' sig : bytes) (t : list event), accepting_run s pk M' sig t ->
       let owner := trace (keygen_with_seeds (param_set s) (sk_seed sk) (sk_prf sk) (sk_pk_seed sk)) ++
                    trace (sign_with_randomizer s (block s sig 0) M' sk) in
         (** an accepted signature was issued, *)
         In (M', sig) hist \/
         (** or it exhibits a second preimage, *)
         second_preimage s t owner \/
         (** or a value that lies earlier on a hash chain than the one value issued signatures show, *)
         (exists l i b c w, l < t_d tb /\ i < 2 * seed_bytes s + 3 /\ 1 <= c /\ b + c <= 15 /\
            let (tr, kp) := sig_position s pk M' sig l in
            let v := block s sig (chain_block s l i) in
            In (EHash KF (pk_seed pk) (set_hash_address (chain_address l tr kp i) b) [v]) t /\
            result (chain (HASHERS (param_set s)) v b c (pk_seed pk) (chain_address l tr kp i)) = Val w /\
            forall M2 sig2, In (M2, sig2) hist -> sig_position s pk M2 sig2 l = (tr, kp) ->
              block s sig2 (chain_block s l i) = w) \/
         (** or a secret value that no issued signature reveals, *)
         (exists i, i < t_k tb /\
            block s sig (fors_block s i) = fors_secret s sk (fors_leaf s pk M' sig i) /\
            forall M2 sig2 i2, In (M2, sig2) hist -> i2 < t_k tb ->
              fors_leaf s pk M2 sig2 i2 <> fors_leaf s pk M' sig i) \/
         (** or a pair of randomizer and message not signed before, whose digest is in the set *)
         ((forall M2 sig2, In (M2, sig2) hist -> (M2, block s sig2 0) <> (M', block s sig 0)) /\
          In (msg_digest s pk M' sig) danger)).
Proof.
  intros T P s pk sk hist K I tb.
  destruct (prop_few_time_reuse_bound T P s pk hist) as (danger & D1 & D2 & D3 & D4).
  exists danger. split; [exact D1|]. split; [exact D2|]. split; [exact D3|].
  intros M' sig t A. cbv zeta.
  destruct (prop_unforgeability_reduction T P s pk sk hist K I) as [_ G].
  specialize (G M' sig t A). cbv zeta in G. destruct G as [G|[G|[G|[G|[G1 G2]]]]]; auto.
  do 4 right. split; [exact G1|]. apply D4. exact G2.
Qed.
