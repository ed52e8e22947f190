(** C20, C36: the signature encoding and digit extraction. *)
From Coq Require Import String.
From Verif Require Import Spec.Fips205 Spec.Fips205Hash.
From Verif Require Import Model.Api Proof.Facts Proof.HelpersP Proof.SpecP Proof.HashP Proof.Fun Proof.XmssP Proof.SlhP
  Proof.SerP Proof.ApiP Spec.Vocab Proof.Summary.
Import ListNotations.
Open Scope list_scope.
Open Scope N_scope.

Lemma param_k s : cK (param_set s) = t_k (table2 s). Proof. destruct s; reflexivity. Qed.
Lemma param_a s : cA (param_set s) = t_a (table2 s). Proof. destruct s; reflexivity. Qed.
Lemma param_d s : cD (param_set s) = t_d (table2 s). Proof. destruct s; reflexivity. Qed.
Lemma param_hp s : cHP (param_set s) = t_h' (table2 s). Proof. destruct s; reflexivity. Qed.
Lemma param_h s : cH (param_set s) = t_h (table2 s). Proof. destruct s; reflexivity. Qed.
Lemma param_m s : cM (param_set s) = t_m (table2 s). Proof. destruct s; reflexivity. Qed.
Lemma param_len s : cLEN (param_set s) = 2 * t_n (table2 s) + 3. Proof. destruct s; reflexivity. Qed.

Lemma typed_sig s sg : sig_typed s sg <-> wf_sig_n (param_set s) sg.
Proof.
  unfold sig_typed, wf_sig_n, wf_sig, blocks, wf_xmss, nb.
  rewrite param_k, param_a, param_d, param_hp, param_len, param_n. cbv zeta.
  unfold seed_bytes. set (n := t_n (table2 s)).
  assert (FA : forall (l : list (list bytes)) A,
             Forall (fun x => nlen x = A /\ Forall (fun y => nlen y = n) x) l <->
             Forall (fun x => nlen x = A) l /\ Forall (Forall (fun y => nlen y = n)) l).
  { intros l A. rewrite !Forall_forall. split; [intros Hx; split; intros x Hi; apply (Hx x Hi)|].
    intros [H1 H2] x Hi. split; [apply H1|apply H2]; exact Hi. }
  rewrite FA.
  assert (FX : Forall (fun x => (nlen (sig_wots x) = 2 * n + 3 /\ Forall (fun y => nlen y = n) (sig_wots x)) /\
                        nlen (xmss_auth x) = t_h' (table2 s) /\ Forall (fun y => nlen y = n) (xmss_auth x)) (ht_sig sg)
          <-> Forall (fun x => nlen (sig_wots x) = 2 * n + 3 /\ nlen (xmss_auth x) = t_h' (table2 s)) (ht_sig sg) /\
              Forall (fun x => Forall (fun y => nlen y = n) (sig_wots x) /\
                               Forall (fun y => nlen y = n) (xmss_auth x)) (ht_sig sg)).
  { rewrite !Forall_forall. split; [intros Hx; split; intros x Hi; destruct (Hx x Hi) as [[? ?] [? ?]]; auto|].
    intros [H1 H2] x Hi. destruct (H1 x Hi), (H2 x Hi). auto. }
  rewrite FX. tauto.
Qed.

Lemma nth_error_map_nrange {A} (f : N -> A) k i :
  i < k -> nth_error (map f (nrange k)) (N.to_nat i) = Some (f i).
Proof.
  intros Hi. rewrite <- (nth_map_nrange f k i (f 0) Hi). apply nth_error_nth'.
  rewrite map_length. unfold nrange. rewrite length_nseq. lia.
Qed.

Lemma prop_signature_encoding_bijection :
  forall (T : Target) (s : set_name),
    let p := param_set s in
    let t := table2 s in
    let len := 2 * t_n t + 3 in
    let fors := 1 + t_a t in
    let ht := 1 + t_k t * fors in
    let layer := len + t_h' t in
    (forall bs, nlen bs = sig_size s ->
       exists sg, result (deserialize p bs) = Val sg /\ sig_typed s sg /\ result (serialize p sg) = Val bs) /\
    (forall sg, sig_typed s sg ->
       exists bs, result (serialize p sg) = Val bs /\ nlen bs = sig_size s /\ result (deserialize p bs) = Val sg) /\
    (forall bs1 bs2, nlen bs1 = sig_size s -> nlen bs2 = sig_size s ->
       result (deserialize p bs1) = result (deserialize p bs2) -> bs1 = bs2) /\
    (forall bs sg, nlen bs = sig_size s -> result (deserialize p bs) = Val sg ->
       randomness sg = block s bs 0 /\
       (forall i, i < t_k t ->
          nth_error (private_key_value (fors_sig sg)) (N.to_nat i) = Some (block s bs (1 + i * fors)) /\
          exists auth, nth_error (fors_auth (fors_sig sg)) (N.to_nat i) = Some auth /\
            forall j, j < t_a t -> nth_error auth (N.to_nat j) = Some (block s bs (1 + i * fors + 1 + j))) /\
       (forall l, l < t_d t ->
          exists x, nth_error (ht_sig sg) (N.to_nat l) = Some x /\
            (forall i, i < len -> nth_error (sig_wots x) (N.to_nat i) = Some (block s bs (ht + l * layer + i))) /\
            (forall j, j < t_h' t ->
               nth_error (xmss_auth x) (N.to_nat j) = Some (block s bs (ht + l * layer + len + j))))).
Proof.
  intros T s. cbv zeta. pose proof (param_PF s) as HP. rewrite <- param_sig.
  assert (D : forall bs, nlen bs = cSIG_LEN (param_set s) ->
                result (deserialize (param_set s) bs) = Val (dec_sig (param_set s) bs))
    by (intros bs L; apply (proj1 (runs_deserialize _ HP bs L))).
  split; [|split; [|split]].
  - intros bs L. rewrite (D bs L). eexists. split; [reflexivity|].
    pose proof (wf_dec_sig _ HP bs L) as W. split; [apply typed_sig; exact W|].
    rewrite (proj1 (runs_serialize _ HP _ W)). rewrite enc_dec by assumption. reflexivity.
  - intros sg W. apply typed_sig in W. exists (enc_sig (param_set s) sg).
    split; [apply (proj1 (runs_serialize _ HP _ W))|].
    assert (L : nlen (enc_sig (param_set s) sg) = cSIG_LEN (param_set s)) by (apply nlen_enc_sig; assumption).
    split; [exact L|]. rewrite (D _ L), dec_enc by exact W. reflexivity.
  - intros b1 b2 L1 L2 E. rewrite (D b1 L1), (D b2 L2) in E.
    assert (E' : dec_sig (param_set s) b1 = dec_sig (param_set s) b2) by congruence.
    rewrite <- (enc_dec _ HP b1 L1), <- (enc_dec _ HP b2 L2), E'. reflexivity.
  - intros bs sg L E. rewrite (D bs L) in E.
    assert (E' : sg = dec_sig (param_set s) bs) by congruence. subst sg.
    unfold dec_sig. cbn [randomness fors_sig private_key_value fors_auth ht_sig].
    unfold ho, hb, fb. rewrite param_k, param_a, param_d, param_hp, param_len, param_n.
    split; [reflexivity|]. split.
    + intros i Hi. split; [rewrite nth_error_map_nrange by exact Hi; reflexivity|].
      eexists. split; [apply nth_error_map_nrange; exact Hi|]. intros j Hj.
      rewrite nth_error_map_nrange by exact Hj. reflexivity.
    + intros l Hl. eexists. split; [apply nth_error_map_nrange; exact Hl|]. cbn [sig_wots xmss_auth].
      split; intros i Hi; rewrite nth_error_map_nrange by exact Hi; reflexivity.
Qed.

(** *** C36 *)
Lemma digits_value x b cnt :
  cnt * b <= 8 * nlen x ->
  fold_left (fun v d => v * 2 ^ b + d) (digits x b cnt) 0 = of_be x / 2 ^ (8 * nlen x - cnt * b).
Proof.
  induction cnt as [|cnt IH] using N.peano_ind; intros Hx.
  - change (digits x b 0) with (@nil N). cbn [fold_left]. rewrite N.mul_0_l, N.sub_0_r.
    symmetry. apply N.div_small. rewrite N.pow_mul_r. exact (of_be_lt x).
  - rewrite <- N.add_1_r in *. unfold digits. rewrite nrange_snoc, map_app, fold_left_app. cbn [map fold_left].
    fold (digits x b cnt). rewrite IH by lia. unfold digit.
    replace (8 * nlen x - cnt * b) with ((8 * nlen x - (cnt + 1) * b) + b) by lia.
    rewrite N.pow_add_r, <- N.div_div by apply pow2_nz.
    rewrite N.mul_comm. symmetry. apply N.div_mod, pow2_nz.
Qed.

Lemma prop_digits_are_positional :
  forall (T : Target) (x : bytes) (b cnt : N) (buf : list N),
    1 <= b <= 15 -> cnt * b <= 8 * nlen x -> nlen buf = cnt ->
    cnt * b + 7 < 2 ^ 32 -> cnt < 2 ^ usize_bits -> nlen x < 2 ^ usize_bits ->
    exists ds,
      result (base_2b x b cnt buf) = Val ds /\ nlen ds = cnt /\
      Forall (fun d => d < 2 ^ b) ds /\
      fold_left (fun v d => v * 2 ^ b + d) ds 0 = of_be x / 2 ^ (8 * nlen x - cnt * b) /\
      (forall i, i < cnt ->
         nth_error ds (N.to_nat i) = Some ((of_be x / 2 ^ (8 * nlen x - (i + 1) * b)) mod 2 ^ b)) /\
      ds = Fips205.base_2b x b cnt.
Proof.
  intros T x b cnt buf Hb Hx Hbuf H32 Hc Hl. exists (digits x b cnt).
  change (2 ^ 32) with 4294967296 in H32.
  split; [apply (proj1 (runs_base_2b_gen x b cnt buf Hb Hbuf Hx H32 Hc Hl))|].
  split; [unfold digits; rewrite nlen_map, nlen_nrange; reflexivity|].
  split. { unfold digits. rewrite Forall_forall. intros d Hd. apply in_map_iff in Hd.
           destruct Hd as [i [<- _]]. apply N.mod_lt, pow2_nz. }
  split; [apply digits_value; exact Hx|].
  split; [intros i Hi; unfold digits; rewrite nth_error_map_nrange by exact Hi; reflexivity|].
  symmetry. apply base_2b_digits; lia.
Qed.
