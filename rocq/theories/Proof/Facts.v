(** Numeric facts shared by the twelve parameter sets. *)
From Verif Require Export Model.Params.

Record PF (p : Params) : Prop := {
  pf_n : cN p = 16 \/ cN p = 24 \/ cN p = 32;
  pf_h : cH p = cD p * cHP p;
  pf_d : 7 <= cD p <= 22;
  pf_hp : 3 <= cHP p <= 9;
  pf_a : 6 <= cA p <= 14;
  pf_k : 14 <= cK p <= 35;
  pf_tree : cH p - cHP p <= 64;
  pf_m : cM p = (cK p * cA p + 7) / 8 + (cH p - cHP p + 7) / 8 + (cHP p + 7) / 8;
  pf_m_lt : cM p <= 49;
  pf_pk : cPK_LEN p = 2 * cN p;
  pf_sig : cSIG_LEN p = (1 + cK p * (1 + cA p) + cH p + cD p * cLEN p) * cN p;
  pf_sig_lt : cSIG_LEN p < 65536;
  pf_cat1 : cfam p = Sha2Cat1 -> cN p = 16;
  pf_cat35 : cfam p = Sha2Cat35 -> cN p = 24 \/ cN p = 32 }.

Lemma valid_PF p : valid p -> PF p.
Proof.
  unfold valid, all_params. cbn [In].
  intros H. repeat (destruct H as [<-|H]); [..|contradiction H];
    (constructor; vm_compute;
     [solve [auto]|reflexivity|split; discriminate|split; discriminate|split; discriminate
     |split; discriminate|discriminate|reflexivity|discriminate|reflexivity|reflexivity
     |reflexivity|try discriminate; reflexivity|intros E; try discriminate E; auto]).
Qed.

Lemma PF_len p : PF p -> 35 <= cLEN p <= 67.
Proof. intros H. unfold cLEN. destruct (pf_n p H) as [E|[E|E]]; rewrite E; lia. Qed.

Lemma PF_n_range p : PF p -> 16 <= cN p <= 32.
Proof. intros H. destruct (pf_n p H) as [E|[E|E]]; rewrite E; lia. Qed.

(** h/d = h' *)
Lemma PF_hd p : PF p -> cH p / cD p = cHP p.
Proof.
  intros H. rewrite (pf_h p H). destruct (pf_d p H). rewrite N.mul_comm. apply N.div_mul. lia.
Qed.

(** ceil(h / 8d) = ceil(h' / 8) *)
Lemma PF_hd8 p : PF p -> (cH p + 8 * cD p - 1) / (8 * cD p) = (cHP p + 7) / 8.
Proof.
  intros H. destruct (pf_d p H) as [Hd _]. destruct (pf_hp p H) as [Hl Hu]. rewrite (pf_h p H).
  assert (E : cHP p <= 8 \/ cHP p = 9) by lia.
  destruct E as [E|E].
  - assert (X1 : 1 * 1 <= cD p * cHP p) by (apply N.mul_le_mono; lia).
    assert (X2 : cD p * cHP p <= cD p * 8) by (apply N.mul_le_mono_l; lia).
    rewrite <- (N.div_unique (cHP p + 7) 8 1 (cHP p - 1)) by lia. symmetry.
    apply (N.div_unique _ _ _ (cD p * cHP p - 1)); lia.
  - rewrite E. change ((9 + 7) / 8) with 2. symmetry. apply (N.div_unique _ _ _ (cD p - 1)); lia.
Qed.
