(** C70: exact numbers of hash computations. *)
From Verif Require Import Spec.Fips205 Spec.Fips205Hash.
From Verif Require Import Model.Api Proof.Facts Proof.HashP Proof.Fun Proof.WotsP Proof.XmssP Proof.SlhP Proof.SerP Proof.ApiP
  Proof.SpecFun Proof.SpecP Proof.HelpersP Proof.Honest Proof.PosP Proof.CallsP Spec.Vocab Proof.Summary Proof.TopCorrect
  Proof.TopFraming Proof.TopTrace Proof.TopPath Proof.Low Proof.LowSign Proof.Forge Proof.TopForge Spec.VocabForge Spec.VocabBind Proof.TopBind Spec.VocabPublic Proof.TopLeak
  Proof.TopPair Proof.TopSer Proof.TopFips Spec.VocabWork.
Import ListNotations.
Open Scope list_scope.
Open Scope N_scope.

Lemma len_flat_map_sum {A B} (f : A -> list B) l : nlen (flat_map f l) = total (map (fun x => nlen (f x)) l).
Proof. induction l as [|x l IH]; cbn [flat_map map total fold_right]; [reflexivity|]. rewrite nlen_app, IH. reflexivity. Qed.
Lemma total_app a b : total (a ++ b) = total a + total b.
Proof. induction a as [|x a IH]; cbn [app total fold_right]; [reflexivity|]. fold (total a) (total (a ++ b)). rewrite IH. lia. Qed.
Lemma total_ext {A} (f g : A -> N) l : (forall x, In x l -> f x = g x) -> total (map f l) = total (map g l).
Proof. intros E. f_equal. apply map_ext_in. exact E. Qed.
Lemma total_add {A} (f g : A -> N) l : total (map (fun x => f x + g x) l) = total (map f l) + total (map g l).
Proof.
  induction l as [|x l IH]; [reflexivity|]. cbn [map total fold_right].
  change (fold_right N.add 0 ?l) with (total l). rewrite IH. lia.
Qed.
Lemma total_const {A} c (l : list A) : total (map (fun _ => c) l) = nlen l * c.
Proof.
  induction l as [|x l IH]; [reflexivity|]. cbn [map total fold_right].
  change (fold_right N.add 0 ?l) with (total l). rewrite IH, nlen_cons. lia.
Qed.
Lemma total_bound l b : Forall (fun d => d <= b) l -> total l <= b * nlen l.
Proof.
  induction 1 as [|d l Hd _ IH]; [cbn; lia|]. cbn [total fold_right].
  change (fold_right N.add 0 ?l) with (total l). rewrite nlen_cons. lia.
Qed.
Lemma total_compl l : Forall (fun d => d <= 15) l -> total l + total (map (fun d => 15 - d) l) = 15 * nlen l.
Proof.
  induction 1 as [|d l Hd _ IH]; [reflexivity|]. cbn [map total fold_right].
  change (fold_right N.add 0 ?l) with (total l). rewrite nlen_cons. lia.
Qed.

Section Count.
Context (p : Params) (hf : HashFns) (ps ss : bytes).

Definition sumd (m : bytes) : N := total (wdigits p m).
Definition sumc (m : bytes) : N := total (map (fun d => 15 - d) (wdigits p m)).

Lemma wdigits_le m : Forall (fun d => d <= 15) (wdigits p m).
Proof.
  eapply Forall_impl; [|unfold wdigits; apply Forall_app; split; apply (digits_lt _ 4)].
  cbv beta. intros d Hd. change (2 ^ 4) with 16 in Hd. lia.
Qed.
Lemma sumd_sumc m : sumd m + sumc m = 15 * cLEN p.
Proof. unfold sumd, sumc. rewrite total_compl by apply wdigits_le. rewrite nlen_wdigits. reflexivity. Qed.

Lemma over_digits (f : N -> N) m : total (map (fun i => f (wdig p m i)) (nrange (cLEN p))) = total (map f (wdigits p m)).
Proof.
  f_equal. rewrite <- (list_eta (wdigits p m) 0 (cLEN p) (nlen_wdigits p m)). rewrite map_map. reflexivity.
Qed.

Lemma xlen_wpkC l t kp sig m : nlen (wpkC p hf ps l t kp sig m) = sumc m + 1.
Proof.
  unfold wpkC. rewrite nlen_app. change (nlen [_]) with 1. f_equal. rewrite len_flat_map_sum. unfold sumc.
  rewrite <- (over_digits (fun d => 15 - d)). apply total_ext. intros i _. rewrite len_chainC. lia.
Qed.
Lemma xlen_xpkC l t idx sg m : nlen (xpkC p hf ps l t idx sg m) = sumc m + 1 + cHP p.
Proof. unfold xpkC. rewrite nlen_app, len_climbC, xlen_wpkC. lia. Qed.

Lemma xlen_vrootC dg sg :
  nlen (vrootC p hf ps dg sg) = cK p * (cA p + 1) + 1 +
    total (map (fun j => sumc (hval p hf ps (dg_tree p dg) (dg_leaf p dg) (fun j => nth j (ht_sig sg) (mkXmssSig [] []))
       (fpk p hf ps (dg_tree p dg) (dg_leaf p dg) (fors_sig sg) (dg_md p dg)) j) + 1 + cHP p) (seq 0 (N.to_nat (cD p)))).
Proof.
  unfold vrootC. rewrite nlen_app, len_fpkC. f_equal. rewrite len_flat_map_sum. apply total_ext. intros j _.
  unfold hvalC. apply xlen_xpkC.
Qed.

Lemma xlen_xsigC l t idx m :
  nlen (xsigC p hf ps ss l t idx m) = siblings_cost (cHP p) (16 * cLEN p + 1) + cLEN p + sumd m.
Proof.
  unfold xsigC. rewrite nlen_app.
  rewrite (sum_siblings _ _ _ _ (16 * cLEN p + 1)) by (intros; apply len_wleafC).
  fold (siblings_cost (cHP p) (16 * cLEN p + 1)). rewrite <- N.add_assoc. f_equal.
  unfold wsigC. rewrite len_flat_map_sum.
  rewrite (total_ext _ (fun i => 1 + wdig p m i)) by (intros i _; unfold wvalC; rewrite nlen_cons, len_chainC; lia).
  rewrite total_add, total_const, nlen_nrange. rewrite N.mul_1_r. f_equal.
  rewrite (over_digits (fun d => d)), map_id. reflexivity.
Qed.
Lemma xlen_fsigC t kp md : nlen (fsigC p hf ps ss t kp md) = cK p * (1 + siblings_cost (cA p) 2).
Proof.
  unfold fsigC. rewrite (len_flat_map_eq _ (1 + siblings_cost (cA p) 2)); [rewrite nlen_nrange; reflexivity|].
  intros i _. rewrite nlen_cons. rewrite (sum_siblings _ _ _ _ 2) by reflexivity. unfold siblings_cost. lia.
Qed.

Lemma total_cut (f : nat -> N) k : total (map (fun j => if (S j <? k)%nat then f j else 0) (seq 0 k)) = total (map f (seq 0 (k - 1))).
Proof.
  destruct k as [|k]; [reflexivity|]. rewrite seq_S, map_app, total_app. cbn [map total fold_right].
  replace (S (0 + k) <? S k)%nat with false by (symmetry; apply Nat.ltb_ge; lia). rewrite !N.add_0_r.
  replace (S k - 1)%nat with k by lia. apply total_ext. intros j Hj. apply in_seq in Hj.
  replace (S j <? S k)%nat with true by (symmetry; apply Nat.ltb_lt; lia). reflexivity.
Qed.

Lemma xlen_sig_tailC dg :
  let v j := hmsg p hf ps ss (dg_tree p dg) (dg_leaf p dg) (fpk_honest p hf ps ss dg) j in
  nlen (sig_tailC p hf ps ss dg) =
  cK p * (1 + siblings_cost (cA p) 2) + (cK p * (cA p + 1) + 1) +
  total (map (fun j => siblings_cost (cHP p) (16 * cLEN p + 1) + cLEN p + sumd (v j)) (seq 0 (N.to_nat (cD p)))) +
  total (map (fun j => sumc (v j) + 1 + cHP p) (seq 0 (N.to_nat (cD p) - 1))).
Proof.
  cbv zeta. unfold sig_tailC. rewrite !nlen_app, len_fpkC, xlen_fsigC. rewrite <- !N.add_assoc. do 3 f_equal.
  unfold hsigC. rewrite len_flat_map_sum. rewrite <- total_cut, <- total_add. apply total_ext. intros j _.
  unfold hlayerC, hsigC_at. rewrite nlen_app, xlen_xsigC. destruct (S j <? N.to_nat (cD p))%nat.
  - unfold hrootC_at. rewrite xlen_xpkC. lia.
  - rewrite nlen_nil. lia.
Qed.
End Count.

Lemma nlen_signed {P : Prims} s pk M sig j : nlen sig = cSIG_LEN (param_set s) -> (j < N.to_nat (cD (param_set s)))%nat ->
  nlen (signed_value s pk M sig j) = cN (param_set s).
Proof.
  intros L Hj. rewrite signed_hval by (assumption || lia). pose proof (HASHERS_len _ (param_PF s)) as HL.
  unfold ahval. apply (nlen_hval _ _ HL). apply (len_T _ _ _ HL).
Qed.

Lemma steps_d {P : Prims} s v : nlen v = cN (param_set s) -> steps_signing s v = sumd (param_set s) v.
Proof. intros L. unfold steps_signing. rewrite <- param_fips, (wots_digits_eq _ (param_PF s)) by exact L. reflexivity. Qed.
Lemma steps_c {P : Prims} s v : nlen v = cN (param_set s) -> steps_verifying s v = sumc (param_set s) v.
Proof. intros L. unfold steps_verifying. rewrite <- param_fips, (wots_digits_eq _ (param_PF s)) by exact L. reflexivity. Qed.

Lemma verify_cost {P : Prims} s pk sig mp : nlen sig = cSIG_LEN (param_set s) ->
  hash_count (verify_calls (param_set s) (hf_of (param_set s)) pk (dec_sig (param_set s) sig) mp)
  = verification_cost s pk (concat mp) sig.
Proof.
  intros L. unfold verify_calls. cbv zeta. change (EHmsg ?a ?b ?c ?d :: ?Z) with ([EHmsg a b c d] ++ Z).
  rewrite hash_count_app. change (hash_count [_]) with 1. rewrite hash_count_allH by apply allH_vrootC.
  rewrite vdigest_eq, xlen_vrootC. unfold verification_cost. cbv zeta.
  rewrite <- (param_k s), <- (param_a s), <- (param_d s), <- (param_hp s). rewrite <- !N.add_assoc. do 4 f_equal.
  apply map_ext_in. intros j Hj. apply in_seq in Hj. f_equal. symmetry.
  rewrite steps_c by (apply nlen_signed; [exact L|lia]). apply (f_equal (fun v => sumc (param_set s) v + 1)).
  apply (signed_hval s pk (concat mp) sig L). lia.
Qed.

Lemma prop_exact_costs :
  forall (T : Target) (P : Prims) (s : set_name),
    (** verification *)
    (forall pk m sig ctx, nlen sig = sig_size s -> nlen ctx <= 255 ->
       hash_count (trace (verify (param_set s) pk m sig ctx)) = verification_cost s pk (Fips205.pure_M' m ctx) sig) /\
    (forall pk m sig ctx ph, nlen sig = sig_size s -> nlen ctx <= 255 ->
       hash_count (trace (hash_verify (param_set s) pk m sig ctx (ph_arg ph))) =
       verification_cost s pk (Fips205.hash_M' (fst (PH_fn ph m)) (snd (PH_fn ph m)) ctx) sig) /\
    (forall pk m sig, nlen sig = sig_size s ->
       hash_count (trace (raw_verify (param_set s) pk m sig)) = verification_cost s pk m sig) /\
    (** signing *)
    (forall sk M' sig tr, signing_run s sk M' sig tr ->
       hash_count tr = signing_cost s (get_public_key sk) M' sig) /\
    (** it depends on the message, the key and the randomness only through the value signed in the top layer *)
    (forall sk M' sig tr, signing_run s sk M' sig tr ->
       let top := signed_value s (get_public_key sk) M' sig (N.to_nat (t_d (table2 s)) - 1) in
       hash_count tr = signing_cost_base s + steps_signing s top /\ steps_signing s top <= 15 * chains s).
Proof.
  intros T P s. pose proof (param_PF s) as HP.
  split; [|split; [|split]].
  - intros pk m sig ctx L Hc. rewrite <- param_sig in L. rewrite <- hash_count_calls.
    rewrite (proj2 (runs_verify _ HP pk m sig ctx Hc L)), verify_cost by exact L. rewrite pure_pieces_M'. reflexivity.
  - intros pk m sig ctx ph L Hc. rewrite <- param_sig in L. rewrite <- hash_count_calls.
    rewrite (proj2 (runs_hash_verify _ HP pk m sig ctx (ph_arg ph) Hc L)), verify_cost by exact L.
    rewrite hash_pieces_M'. reflexivity.
  - intros pk m sig L. rewrite <- param_sig in L. rewrite <- hash_count_calls.
    rewrite (proj2 (runs_raw_verify _ HP pk m sig L)), verify_cost by exact L. rewrite concat1. reflexivity.
  - assert (S1 : forall sk M' sig tr, signing_run s sk M' sig tr ->
       nlen sig = cSIG_LEN (param_set s) /\ hash_count tr = signing_cost s (get_public_key sk) M' sig).
    { intros sk M' sig tr R. destruct (signing_shape _ _ _ _ _ R) as (r & g & mp & hedged & b & Em & Es & W & Cl & _).
      assert (L : nlen sig = cSIG_LEN (param_set s)).
      { rewrite Es. unfold sign_bytes. apply nlen_enc_sig; [exact HP|]. apply wf_n_sign_val. exact HP. }
      split; [exact L|].
      rewrite <- hash_count_calls, Cl, hash_count_app.
      replace (hash_count (if hedged then [ERng (cN (param_set s))] else [])) with 0 by (destruct hedged; reflexivity).
      unfold sign_calls. cbv zeta. change (?a :: ?b :: ?Z) with ([a; b] ++ Z). rewrite hash_count_app.
      rewrite (hash_count_allH (sig_tailC _ _ _ _ _)) by apply allH_sig_tailC. change (hash_count [_; _]) with 2.
      rewrite xlen_sig_tailC. unfold signing_cost. cbv zeta. unfold chains. rewrite <- param_len.
      rewrite <- (param_k s), <- (param_a s), <- (param_d s), <- (param_hp s).
      assert (V : forall j, (j < N.to_nat (cD (param_set s)))%nat ->
        signed_value s (get_public_key sk) M' sig j =
        hmsg (param_set s) (hf_of (param_set s)) (sk_pk_seed sk) (sk_seed sk)
          (dg_tree (param_set s) (sign_digest (hf_of (param_set s)) sk b M')) (dg_leaf (param_set s) (sign_digest (hf_of (param_set s)) sk b M'))
          (fpk_honest (param_set s) (hf_of (param_set s)) (sk_pk_seed sk) (sk_seed sk) (sign_digest (hf_of (param_set s)) sk b M')) j).
      { intros j Hj. rewrite Es. rewrite (view_signed s sk b M' j) by lia. reflexivity. }
      rewrite Em.
      match goal with |- _ + (2 + (?a + ?b + ?c + ?d)) = 2 + _ + _ + ?c' + ?d' =>
        assert (E1 : c = c'); [|assert (E2 : d = d'); [|rewrite E1, E2; set (X := total _); set (Y := total _); clearbody X Y; lia]] end.
      - apply total_ext. intros j Hj. apply in_seq in Hj.
        rewrite steps_d by (apply nlen_signed; [exact L|lia]). rewrite V by lia. lia.
      - apply total_ext. intros j Hj. apply in_seq in Hj.
        rewrite steps_c by (apply nlen_signed; [exact L|lia]). rewrite V by lia. lia. }
    split; [intros sk M' sig tr R; exact (proj2 (S1 _ _ _ _ R))|].
    intros sk M' sig tr R top. destruct (S1 _ _ _ _ R) as [L E]. rewrite E. unfold signing_cost, signing_cost_base. cbv zeta.
    pose proof (pf_d _ HP) as Hd.
    set (v := signed_value s (get_public_key sk) M' sig) in *.
    assert (Lv : forall j, (j < N.to_nat (t_d (table2 s)))%nat -> nlen (v j) = cN (param_set s))
      by (intros j Hj; apply nlen_signed; [exact L|rewrite param_d; exact Hj]).
    assert (Ch : chains s = cLEN (param_set s)) by (unfold chains; symmetry; apply param_len).
    rewrite param_d in Hd. set (d := N.to_nat (t_d (table2 s))) in *.
    assert (D1 : (1 <= d)%nat) by (unfold d; lia).
    split.
    + rewrite <- !N.add_assoc. do 3 f_equal.
      replace (seq 0 d) with (seq 0 (d - 1) ++ [(d - 1)%nat])
        by (replace d with (S (d - 1)) at 3 by lia; rewrite seq_S; reflexivity).
      rewrite map_app, total_app. cbn [map total fold_right]. change (fold_right N.add 0 ?l) with (total l).
      fold top. rewrite N.add_0_r.
      set (SC := siblings_cost _ _). 
      rewrite total_add, total_const.
      assert (Q : total (map (fun j => steps_signing s (v j)) (seq 0 (d - 1))) +
                  total (map (fun j => steps_verifying s (v j) + 1 + t_h' (table2 s)) (seq 0 (d - 1)))
                  = (t_d (table2 s) - 1) * (15 * chains s + 1 + t_h' (table2 s))).
      { rewrite <- total_add. rewrite (total_ext _ (fun _ => 15 * chains s + 1 + t_h' (table2 s))).
        - rewrite total_const. unfold nlen at 1. rewrite seq_length. f_equal. unfold d. lia.
        - intros j Hj. apply in_seq in Hj. rewrite steps_d, steps_c by (apply Lv; lia). rewrite Ch.
          pose proof (sumd_sumc (param_set s) (v j)). lia. }
      assert (Nd : nlen (seq 0 (d - 1)) = t_d (table2 s) - 1) by (unfold nlen; rewrite seq_length; unfold d; lia).
      rewrite Nd, (N.add_assoc (15 * chains s) 1). revert Q. set (U := total _). set (V := total (map _ _)). set (X := (t_d (table2 s) - 1) * (15 * _ + _ + _)).
      generalize (steps_signing s top). clearbody U V X. clearbody SC. clear - Hd.
      replace (t_d (table2 s) * (SC + chains s)) with ((t_d (table2 s) - 1) * (SC + chains s) + (SC + chains s)) by nia.
      generalize ((t_d (table2 s) - 1) * (SC + chains s)). intros. lia.
    + rewrite steps_d by (apply Lv; lia). rewrite Ch. pose proof (sumd_sumc (param_set s) top). lia.
Qed.
