(** Bytes, byte strings and the list operations shared by model and specification.
    No Rust function is modelled in this file; it fixes the value representation:
    [u8] is [byte], [&[u8]] and [[u8; n]] are [list byte], unsigned integers are [N]. *)
From Coq Require Export List NArith ZArith Lia Bool.
From Coq Require Export ZifyBool ZifyNat ZifyN.
From Coq.Strings Require Byte.
Export ListNotations.
Open Scope N_scope.
Open Scope list_scope.

Ltac Zify.zify_post_hook ::= Z.div_mod_to_equations.

Arguments N.add : simpl never.
Arguments N.mul : simpl never.
Arguments N.sub : simpl never.
Arguments N.div : simpl never.
Arguments N.modulo : simpl never.
Arguments N.pow : simpl never.
Arguments N.shiftl : simpl never.
Arguments N.shiftr : simpl never.
Arguments N.land : simpl never.
Arguments N.lxor : simpl never.
Arguments N.ltb : simpl never.
Arguments N.leb : simpl never.
Arguments N.eqb : simpl never.
Arguments N.to_nat : simpl never.
Arguments N.of_nat : simpl never.

Notation byte := Coq.Init.Byte.byte.
Notation bytes := (list Coq.Init.Byte.byte).
Notation x00 := Coq.Init.Byte.x00.

(** value of a byte, and the low eight bits of a number as a byte *)
Definition b2n (b : byte) : N := Byte.to_N b.
Definition n2b (x : N) : byte :=
  match Byte.of_N (x mod 256) with Some b => b | None => Coq.Init.Byte.x00 end.

Definition byte_eqb (a b : byte) : bool := Byte.eqb a b.

Fixpoint bytes_eqb (a b : bytes) : bool :=
  match a, b with
  | [], [] => true
  | x :: a', y :: b' => byte_eqb x y && bytes_eqb a' b'
  | _, _ => false
  end.

Definition byte_xor (a b : byte) : byte := n2b (N.lxor (b2n a) (b2n b)).

(** length as a number *)
Definition nlen {A} (l : list A) : N := N.of_nat (length l).

(** [k] copies of a value, [k] a number *)
Definition nrepeat {A} (x : A) (k : N) : list A := repeat x (N.to_nat k).

(** the numbers lo, lo+1, ..., of which there are [k] *)
Fixpoint nseq (lo : N) (k : nat) : list N :=
  match k with O => [] | S k' => lo :: nseq (lo + 1) k' end.

(** 0, 1, ..., k-1 *)
Definition nrange (k : N) : list N := nseq 0 (N.to_nat k).

(** bytes [lo .. hi) of a string *)
Definition sub_bytes {A} (l : list A) (lo hi : N) : list A :=
  firstn (N.to_nat (hi - lo)) (skipn (N.to_nat lo) l).

(** big-endian encoding in [k] bytes, and its inverse *)
Fixpoint be_bytes (k : nat) (x : N) : bytes :=
  match k with
  | O => []
  | S k' => be_bytes k' (x / 256) ++ [n2b x]
  end.

Definition of_be (l : bytes) : N := fold_left (fun acc b => acc * 256 + b2n b) l 0.

(** ** Lemmas *)

Lemma b2n_lt b : b2n b < 256.
Proof. unfold b2n. pose proof (Byte.to_N_bounded b). lia. Qed.

Lemma n2b_b2n b : n2b (b2n b) = b.
Proof.
  unfold n2b, b2n. rewrite N.mod_small by (pose proof (Byte.to_N_bounded b); lia).
  rewrite Byte.of_to_N. reflexivity.
Qed.

Lemma b2n_n2b x : b2n (n2b x) = x mod 256.
Proof.
  unfold n2b, b2n. destruct (Byte.of_N (x mod 256)) eqn:E.
  - apply Byte.to_of_N in E. exact E.
  - apply Byte.of_N_None_iff in E. assert (x mod 256 < 256) by (apply N.mod_lt; lia). lia.
Qed.

Lemma b2n_inj a b : b2n a = b2n b -> a = b.
Proof. intros H. rewrite <- (n2b_b2n a), <- (n2b_b2n b), H. reflexivity. Qed.

Lemma n2b_mod x : n2b (x mod 256) = n2b x.
Proof. unfold n2b. rewrite N.mod_mod by lia. reflexivity. Qed.

Lemma byte_eqb_eq a b : byte_eqb a b = true <-> a = b.
Proof.
  split.
  - apply Byte.byte_dec_bl.
  - apply Byte.byte_dec_lb.
Qed.

Lemma byte_eqb_refl a : byte_eqb a a = true.
Proof. apply byte_eqb_eq. reflexivity. Qed.

Lemma bytes_eqb_eq a b : bytes_eqb a b = true <-> a = b.
Proof.
  revert b; induction a as [|x a IH]; intros [|y b]; cbn [bytes_eqb]; try (split; congruence).
  rewrite andb_true_iff, byte_eqb_eq, IH. split.
  - intros [-> ->]; reflexivity.
  - intros H; inversion H; auto.
Qed.

Lemma bytes_eqb_refl a : bytes_eqb a a = true.
Proof. apply bytes_eqb_eq. reflexivity. Qed.

Lemma bytes_eqb_neq a b : bytes_eqb a b = false <-> a <> b.
Proof.
  rewrite <- not_true_iff_false, bytes_eqb_eq. tauto.
Qed.

Lemma bytes_dec (a b : bytes) : {a = b} + {a <> b}.
Proof.
  destruct (bytes_eqb a b) eqn:E; [left|right].
  - apply bytes_eqb_eq; exact E.
  - apply bytes_eqb_neq; exact E.
Qed.

Lemma nlen_nil {A} : nlen (@nil A) = 0.
Proof. reflexivity. Qed.

Lemma nlen_cons {A} (x : A) l : nlen (x :: l) = nlen l + 1.
Proof. unfold nlen; cbn [length]; lia. Qed.

Lemma nlen_app {A} (a b : list A) : nlen (a ++ b) = nlen a + nlen b.
Proof. unfold nlen; rewrite app_length; lia. Qed.

Lemma nlen_map {A B} (f : A -> B) l : nlen (map f l) = nlen l.
Proof. unfold nlen; rewrite map_length; reflexivity. Qed.

Lemma nlen_nrepeat {A} (x : A) k : nlen (nrepeat x k) = k.
Proof. unfold nlen, nrepeat. rewrite repeat_length. lia. Qed.

Lemma length_nseq lo k : length (nseq lo k) = k.
Proof. revert lo; induction k as [|k IH]; intros lo; cbn; congruence. Qed.

Lemma nlen_nrange k : nlen (nrange k) = k.
Proof. unfold nlen, nrange; rewrite length_nseq; lia. Qed.

Lemma In_nseq x lo k : In x (nseq lo k) <-> lo <= x < lo + N.of_nat k.
Proof.
  revert lo; induction k as [|k IH]; intros lo; cbn [nseq In].
  - lia.
  - rewrite IH. lia.
Qed.

Lemma In_nrange x k : In x (nrange k) <-> x < k.
Proof. unfold nrange; rewrite In_nseq; lia. Qed.

Lemma nseq_snoc lo k : nseq lo (S k) = nseq lo k ++ [lo + N.of_nat k].
Proof.
  revert lo; induction k as [|k IH]; intros lo.
  - cbn. f_equal. lia.
  - change (nseq lo (S (S k))) with (lo :: nseq (lo + 1) (S k)).
    rewrite IH. cbn. do 3 f_equal. lia.
Qed.

Lemma nrange_snoc k : nrange (k + 1) = nrange k ++ [k].
Proof.
  unfold nrange. replace (N.to_nat (k + 1)) with (S (N.to_nat k)) by lia.
  rewrite nseq_snoc. do 2 f_equal. lia.
Qed.

Lemma nth_error_nseq lo k i : (i < k)%nat -> nth_error (nseq lo k) i = Some (lo + N.of_nat i).
Proof.
  revert lo i; induction k as [|k IH]; intros lo i H; [lia|].
  destruct i as [|i]; cbn [nseq nth_error].
  - f_equal; lia.
  - rewrite IH by lia. f_equal; lia.
Qed.

Lemma nseq_app lo a b : nseq lo (a + b) = nseq lo a ++ nseq (lo + N.of_nat a) b.
Proof.
  revert lo; induction a as [|a IH]; intros lo; cbn [nseq app Nat.add].
  - f_equal; lia.
  - rewrite IH. do 3 f_equal. lia.
Qed.

Lemma length_be_bytes k x : length (be_bytes k x) = k.
Proof.
  revert x; induction k as [|k IH]; intros x; cbn [be_bytes]; [reflexivity|].
  rewrite app_length, IH. cbn; lia.
Qed.

Lemma of_be_nil : of_be [] = 0.
Proof. reflexivity. Qed.

Lemma of_be_snoc l b : of_be (l ++ [b]) = of_be l * 256 + b2n b.
Proof. unfold of_be. rewrite fold_left_app. reflexivity. Qed.

Lemma of_be_lt l : of_be l < 256 ^ nlen l.
Proof.
  induction l as [|b l IH] using rev_ind.
  - cbn; lia.
  - rewrite of_be_snoc, nlen_app, N.pow_add_r. cbn [nlen length].
    replace (256 ^ nlen [b]) with 256 by reflexivity.
    pose proof (b2n_lt b). nia.
Qed.

Lemma of_be_be_bytes k x : of_be (be_bytes k x) = x mod 256 ^ N.of_nat k.
Proof.
  revert x; induction k as [|k IH]; intros x.
  - cbn [be_bytes]. rewrite of_be_nil. cbn. rewrite N.mod_1_r. reflexivity.
  - cbn [be_bytes]. rewrite of_be_snoc, IH, b2n_n2b.
    replace (N.of_nat (S k)) with (N.succ (N.of_nat k)) by lia.
    rewrite N.pow_succ_r by lia.
    rewrite N.mod_mul_r by (try apply N.pow_nonzero; lia). lia.
Qed.

Lemma be_bytes_of_be l : be_bytes (length l) (of_be l) = l.
Proof.
  induction l as [|b l IH] using rev_ind; [reflexivity|].
  rewrite app_length, Nat.add_1_r. cbn [be_bytes]. rewrite of_be_snoc.
  pose proof (b2n_lt b).
  replace ((of_be l * 256 + b2n b) / 256) with (of_be l) by lia.
  rewrite IH. f_equal. f_equal.
  rewrite <- n2b_mod. replace ((of_be l * 256 + b2n b) mod 256) with (b2n b) by lia.
  apply n2b_b2n.
Qed.

Lemma be_bytes_inj k x y :
  x < 256 ^ N.of_nat k -> y < 256 ^ N.of_nat k -> be_bytes k x = be_bytes k y -> x = y.
Proof.
  intros Hx Hy H. apply (f_equal of_be) in H. rewrite !of_be_be_bytes in H.
  rewrite !N.mod_small in H by assumption. exact H.
Qed.

Lemma of_be_inj a b : length a = length b -> of_be a = of_be b -> a = b.
Proof.
  intros Hl H. rewrite <- (be_bytes_of_be a), <- (be_bytes_of_be b), Hl, H. reflexivity.
Qed.

Lemma be_bytes_mod k x : be_bytes k (x mod 256 ^ N.of_nat k) = be_bytes k x.
Proof.
  apply of_be_inj; [rewrite !length_be_bytes; reflexivity|].
  rewrite !of_be_be_bytes, N.mod_mod; [reflexivity|]. apply N.pow_nonzero; lia.
Qed.

Lemma be_bytes_app k j x :
  be_bytes (k + j) x = be_bytes k (x / 256 ^ N.of_nat j) ++ be_bytes j x.
Proof.
  revert x; induction j as [|j IH]; intros x.
  - rewrite Nat.add_0_r. cbn [be_bytes]. rewrite app_nil_r. cbn. rewrite N.div_1_r. reflexivity.
  - rewrite Nat.add_succ_r. cbn [be_bytes]. rewrite IH, <- app_assoc.
    do 2 f_equal. rewrite N.div_div by (try apply N.pow_nonzero; lia).
    f_equal. replace (N.of_nat (S j)) with (N.succ (N.of_nat j)) by lia.
    rewrite N.pow_succ_r by lia. reflexivity.
Qed.

Lemma of_be_app a b : of_be (a ++ b) = of_be a * 256 ^ nlen b + of_be b.
Proof.
  induction b as [|x b IH] using rev_ind.
  - rewrite app_nil_r, of_be_nil, nlen_nil, N.pow_0_r. lia.
  - rewrite app_assoc, !of_be_snoc, IH, nlen_app, N.pow_add_r.
    replace (256 ^ nlen [x]) with 256 by reflexivity. lia.
Qed.

Lemma of_be_repeat_zero k l : of_be (repeat Coq.Init.Byte.x00 k ++ l) = of_be l.
Proof.
  rewrite of_be_app. replace (of_be (repeat Coq.Init.Byte.x00 k)) with 0; [rewrite N.mul_0_l; reflexivity|].
  induction k as [|k IH]; [reflexivity|].
  replace (repeat Coq.Init.Byte.x00 (S k)) with (repeat Coq.Init.Byte.x00 k ++ [Coq.Init.Byte.x00]) by (rewrite <- repeat_cons; reflexivity).
  rewrite of_be_snoc, <- IH. reflexivity.
Qed.

Lemma sub_bytes_all {A} (l : list A) : sub_bytes l 0 (nlen l) = l.
Proof.
  unfold sub_bytes, nlen. replace (N.to_nat (N.of_nat (length l) - 0)) with (length l) by lia.
  apply firstn_all.
Qed.

Lemma nlen_sub_bytes {A} (l : list A) lo hi :
  lo <= hi -> hi <= nlen l -> nlen (sub_bytes l lo hi) = hi - lo.
Proof.
  unfold sub_bytes, nlen. intros H1 H2. rewrite firstn_length, skipn_length. lia.
Qed.

Lemma firstn_skipn_comm' {A} (l : list A) a b :
  firstn a (skipn b l) = skipn b (firstn (b + a) l).
Proof. rewrite <- firstn_skipn_comm. reflexivity. Qed.

Lemma sub_bytes_app_l {A} (a b : list A) hi :
  hi <= nlen a -> sub_bytes (a ++ b) 0 hi = sub_bytes a 0 hi.
Proof.
  unfold sub_bytes, nlen. intros H. rewrite !N.sub_0_r. cbn [skipn].
  replace (N.to_nat 0) with O by lia. cbn [skipn].
  rewrite firstn_app. replace (N.to_nat hi - length a)%nat with O by lia.
  cbn [firstn]. apply app_nil_r.
Qed.

Lemma sub_bytes_app_r {A} (a b : list A) lo hi :
  nlen a <= lo -> sub_bytes (a ++ b) lo hi = sub_bytes b (lo - nlen a) (hi - nlen a).
Proof.
  unfold sub_bytes, nlen. intros H. rewrite skipn_app.
  rewrite skipn_all2 by lia. cbn [app]. f_equal; [lia|]. f_equal. lia.
Qed.

Lemma sub_bytes_prefix {A} (a b : list A) : sub_bytes (a ++ b) 0 (nlen a) = a.
Proof. rewrite sub_bytes_app_l by lia. apply sub_bytes_all. Qed.

Lemma skipn_skipn {A} (l : list A) a b : skipn a (skipn b l) = skipn (a + b) l.
Proof.
  revert l; induction b as [|b IH]; intros l.
  - rewrite Nat.add_0_r. reflexivity.
  - rewrite Nat.add_succ_r. destruct l as [|x l]; cbn [skipn]; [apply skipn_nil|apply IH].
Qed.

Lemma sub_bytes_split {A} (l : list A) lo mid hi :
  lo <= mid -> mid <= hi -> sub_bytes l lo mid ++ sub_bytes l mid hi = sub_bytes l lo hi.
Proof.
  unfold sub_bytes. intros H1 H2.
  replace (N.to_nat mid) with (N.to_nat (mid - lo) + N.to_nat lo)%nat by lia.
  rewrite <- skipn_skipn.
  replace (N.to_nat (hi - lo)) with (N.to_nat (mid - lo) + N.to_nat (hi - mid))%nat by lia.
  generalize (skipn (N.to_nat lo) l) as r. intros r.
  generalize (N.to_nat (mid - lo)) as a, (N.to_nat (hi - mid)) as b. clear.
  intros a b. revert r; induction a as [|a IH]; intros r; cbn [firstn skipn app Nat.add]; [reflexivity|].
  destruct r as [|x r]; cbn [firstn skipn app].
  - rewrite firstn_nil. reflexivity.
  - rewrite IH. reflexivity.
Qed.

Lemma Forall_nth_error {A} (P : A -> Prop) l i x :
  Forall P l -> nth_error l i = Some x -> P x.
Proof.
  intros H E. rewrite Forall_forall in H. apply H. eapply nth_error_In; eauto.
Qed.
