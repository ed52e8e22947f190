(** Counting the message digests that select given leaves. *)
From Verif Require Import Bytes.

(** *** numbers as digits of a bits, most significant first *)
Section Digits.
Context (a : N).

Fixpoint dgs (k : nat) (x : N) : list N :=
  match k with O => [] | S k' => dgs k' (x / 2 ^ a) ++ [x mod 2 ^ a] end.
Definition val (js : list N) : N := fold_left (fun acc j => acc * 2 ^ a + j) js 0.

Lemma val_snoc js j : val (js ++ [j]) = val js * 2 ^ a + j.
Proof. unfold val. rewrite fold_left_app. reflexivity. Qed.

Lemma pow_nz e : 2 ^ e <> 0. Proof. apply N.pow_nonzero. discriminate. Qed.

Lemma length_dgs k : forall x, length (dgs k x) = k.
Proof. induction k as [|k IH]; intros x; cbn [dgs]; [reflexivity|]. rewrite app_length, IH. cbn. lia. Qed.

Lemma dgs_lt k : forall x, Forall (fun j => j < 2 ^ a) (dgs k x).
Proof.
  induction k as [|k IH]; intros x; cbn [dgs]; [constructor|]. apply Forall_app. split; [apply IH|].
  constructor; [|constructor]. apply N.mod_lt, pow_nz.
Qed.

Lemma pow_S k : 2 ^ (N.of_nat (S k) * a) = 2 ^ a * 2 ^ (N.of_nat k * a).
Proof. rewrite <- N.pow_add_r. f_equal. lia. Qed.

Lemma val_dgs k : forall x, x < 2 ^ (N.of_nat k * a) -> val (dgs k x) = x.
Proof.
  induction k as [|k IH]; intros x Hx.
  - change (N.of_nat 0) with 0 in Hx. rewrite N.mul_0_l, N.pow_0_r in Hx. cbn. lia.
  - cbn [dgs]. rewrite val_snoc, IH.
    + pose proof (N.div_mod x (2 ^ a) (pow_nz a)). lia.
    + rewrite pow_S in Hx. apply N.div_lt_upper_bound; [apply pow_nz|exact Hx].
Qed.

Lemma val_lt js : Forall (fun j => j < 2 ^ a) js -> val js < 2 ^ (N.of_nat (length js) * a).
Proof.
  induction js as [|j js IH] using rev_ind; intros Hj.
  { cbn. apply N.neq_0_lt_0, pow_nz. }
  apply Forall_app in Hj. destruct Hj as [H1 H2]. inversion H2 as [|? ? Hl _]; subst.
  rewrite app_length, val_snoc. cbn [length]. rewrite Nat.add_1_r, pow_S. specialize (IH H1).
  set (A := 2 ^ a) in *. set (B := 2 ^ (N.of_nat (length js) * a)) in *. clearbody A B. nia.
Qed.

Lemma dgs_val js : Forall (fun j => j < 2 ^ a) js -> dgs (length js) (val js) = js.
Proof.
  induction js as [|j js IH] using rev_ind; intros Hj; [reflexivity|].
  apply Forall_app in Hj. destruct Hj as [H1 H2]. inversion H2 as [|? ? Hl _]; subst.
  rewrite app_length, val_snoc. cbn [length]. rewrite Nat.add_1_r. cbn [dgs].
  rewrite N.add_comm, N.div_add, N.mod_add by apply pow_nz.
  rewrite N.div_small, N.add_0_l, N.mod_small by exact Hl. rewrite IH by exact H1. reflexivity.
Qed.

Lemma dgs_map k : forall x, dgs k x = map (fun i => x / 2 ^ ((N.of_nat k - (i + 1)) * a) mod 2 ^ a) (nrange (N.of_nat k)).
Proof.
  induction k as [|k IH]; intros x; [reflexivity|]. cbn [dgs]. rewrite IH.
  replace (N.of_nat (S k)) with (N.of_nat k + 1) by lia. rewrite nrange_snoc, map_app. cbn [map]. f_equal.
  - apply map_ext_in. intros i Hi. apply In_nrange in Hi. rewrite N.div_div by apply pow_nz.
    rewrite <- N.pow_add_r. do 3 f_equal. nia.
  - rewrite N.sub_diag, N.mul_0_l, N.pow_0_r, N.div_1_r. reflexivity.
Qed.
End Digits.

(** *** lists *)
Lemma NoDup_nseq k : forall lo, NoDup (nseq lo k).
Proof.
  induction k as [|k IH]; intros lo; cbn [nseq]; constructor; [|apply IH]. rewrite In_nseq. lia.
Qed.
Lemma NoDup_nrange k : NoDup (nrange k).
Proof. apply NoDup_nseq. Qed.

Lemma NoDup_map_in {A B} (g : A -> B) l :
  (forall x y, In x l -> In y l -> g x = g y -> x = y) -> NoDup l -> NoDup (map g l).
Proof.
  induction l as [|x l IH]; intros Hi Hn; cbn [map]; [constructor|].
  inversion Hn as [|? ? Hx Hl]; subst. constructor.
  - intros I. apply in_map_iff in I. destruct I as [y [E I]]. apply Hi in E; [|right; exact I|left; reflexivity].
    subst y. contradiction.
  - apply IH; [|exact Hl]. intros y z Iy Iz. apply Hi; right; assumption.
Qed.

Lemma NoDup_app_disj {A} (l r : list A) : NoDup l -> NoDup r -> (forall x, In x l -> In x r -> False) -> NoDup (l ++ r).
Proof.
  induction l as [|x l IH]; intros Hl Hr Hd; [exact Hr|]. inversion Hl as [|? ? N1 N2]; subst. cbn [app]. constructor.
  - intros I. apply in_app_or in I. destruct I as [I|I]; [contradiction|]. exact (Hd x (or_introl eq_refl) I).
  - apply IH; [exact N2|exact Hr|]. intros y Iy. apply Hd. right. exact Iy.
Qed.

Lemma NoDup_prod {A B} (l : list A) (r : list B) : NoDup l -> NoDup r -> NoDup (list_prod l r).
Proof.
  induction l as [|x l IH]; intros Hl Hr; cbn [list_prod]; [constructor|].
  inversion Hl as [|? ? Hx Hn]; subst. apply NoDup_app_disj; [|exact (IH Hn Hr)|].
  - apply NoDup_map_in; [|exact Hr]. intros y z _ _ E. apply (f_equal snd) in E. exact E.
  - intros [y1 y2] I1 I2. apply in_map_iff in I1. destruct I1 as [z [E _]]. apply (f_equal fst) in E. cbn in E. subst y1.
    apply in_prod_iff in I2. tauto.
Qed.

(** *** the digests with given digits, tree index and leaf index *)
Section Pre.
Context (k a e2 e3 c1 c2 c3 : N) (B1 : k * a <= 8 * c1) (B2 : e2 <= 8 * c2) (B3 : e3 <= 8 * c3).

Definition sel (d : bytes) : N * N * list N :=
  (of_be (sub_bytes d c1 (c1 + c2)) mod 2 ^ e2, of_be (sub_bytes d (c1 + c2) (c1 + c2 + c3)) mod 2 ^ e3,
   dgs a (N.to_nat k) (of_be (sub_bytes d 0 c1) / 2 ^ (8 * c1 - k * a))).

Definition sel_ok (c : N * N * list N) : Prop :=
  let '(tr, lf, js) := c in tr < 2 ^ e2 /\ lf < 2 ^ e3 /\ nlen js = k /\ Forall (fun j => j < 2 ^ a) js.

Definition put3 (c : N * N * list N) (w : N * N * N) : bytes :=
  let '(tr, lf, js) := c in let '(x, y, z) := w in
  be_bytes (N.to_nat c1) (val a js * 2 ^ (8 * c1 - k * a) + x) ++
  be_bytes (N.to_nat c2) (y * 2 ^ e2 + tr) ++ be_bytes (N.to_nat c3) (z * 2 ^ e3 + lf).

Definition pre (c : N * N * list N) : list bytes :=
  map (put3 c) (list_prod (list_prod (nrange (2 ^ (8 * c1 - k * a))) (nrange (2 ^ (8 * c2 - e2))))
                          (nrange (2 ^ (8 * c3 - e3)))).

Lemma pow256 c : 256 ^ N.of_nat (N.to_nat c) = 2 ^ (8 * c).
Proof. rewrite N2Nat.id. change 256 with (2 ^ 8). rewrite <- N.pow_mul_r. reflexivity. Qed.

Lemma of_put c x : x < 2 ^ (8 * c) -> of_be (be_bytes (N.to_nat c) x) = x.
Proof. intros Hx. rewrite of_be_be_bytes, pow256. apply N.mod_small. exact Hx. Qed.

Lemma nlen_put c x : nlen (be_bytes (N.to_nat c) x) = c.
Proof. unfold nlen. rewrite length_be_bytes. lia. Qed.

Lemma bound_mul u v e f : u < 2 ^ (f - e) -> v < 2 ^ e -> e <= f -> u * 2 ^ e + v < 2 ^ f.
Proof.
  intros Hu Hv Hf. replace f with ((f - e) + e) by lia. rewrite N.pow_add_r.
  set (A := 2 ^ e) in *. set (C := 2 ^ (f - e)) in *. clearbody A C. nia.
Qed.

Lemma cut1 A B C : nlen A = c1 -> sub_bytes (A ++ B ++ C : bytes) 0 c1 = A.
Proof. intros <-. apply sub_bytes_prefix. Qed.
Lemma cut2 A B C : nlen A = c1 -> nlen B = c2 -> sub_bytes (A ++ B ++ C : bytes) c1 (c1 + c2) = B.
Proof.
  intros HA HB. rewrite sub_bytes_app_r by lia. rewrite HA.
  replace (c1 - c1) with 0 by lia. replace (c1 + c2 - c1) with (nlen B) by lia. apply sub_bytes_prefix.
Qed.
Lemma cut3 A B C : nlen A = c1 -> nlen B = c2 -> nlen C = c3 ->
  sub_bytes (A ++ B ++ C : bytes) (c1 + c2) (c1 + c2 + c3) = C.
Proof.
  intros HA HB HC. rewrite app_assoc, sub_bytes_app_r by (rewrite nlen_app; lia). rewrite nlen_app.
  replace (c1 + c2 - (nlen A + nlen B)) with 0 by lia.
  replace (c1 + c2 + c3 - (nlen A + nlen B)) with (nlen C) by lia. apply sub_bytes_all.
Qed.

Lemma val_bound c : sel_ok c -> val a (snd c) < 2 ^ (8 * c1 - (8 * c1 - k * a)).
Proof.
  destruct c as [[tr lf] js]. intros (_ & _ & L & F). cbn [snd].
  replace (8 * c1 - (8 * c1 - k * a)) with (N.of_nat (length js) * a) by (unfold nlen in L; rewrite L; lia).
  apply val_lt. exact F.
Qed.

Lemma sel_put c w : sel_ok c ->
  fst (fst w) < 2 ^ (8 * c1 - k * a) -> snd (fst w) < 2 ^ (8 * c2 - e2) -> snd w < 2 ^ (8 * c3 - e3) ->
  nlen (put3 c w) = c1 + c2 + c3 /\ sel (put3 c w) = c /\
  of_be (sub_bytes (put3 c w) 0 c1) mod 2 ^ (8 * c1 - k * a) = fst (fst w) /\
  of_be (sub_bytes (put3 c w) c1 (c1 + c2)) / 2 ^ e2 = snd (fst w) /\
  of_be (sub_bytes (put3 c w) (c1 + c2) (c1 + c2 + c3)) / 2 ^ e3 = snd w.
Proof.
  intros Hc. pose proof (val_bound c Hc) as Hv. destruct c as [[tr lf] js], w as [[x y] z].
  destruct Hc as (H1 & H2 & H3 & H4). cbn [fst snd] in *. intros Hx Hy Hz.
  unfold sel, put3. cbv beta iota.
  rewrite cut1 by apply nlen_put. rewrite cut2 by apply nlen_put. rewrite cut3 by apply nlen_put.
  rewrite !of_put by (apply bound_mul; assumption || lia).
  rewrite !nlen_app, !nlen_put.
  rewrite !(N.add_comm (_ * _)), !N.div_add, !N.mod_add by apply pow_nz.
  rewrite !N.div_small, !N.mod_small, !N.add_0_l by assumption.
  replace (N.to_nat k) with (length js) by (unfold nlen in H3; lia). rewrite dgs_val by exact H4.
  repeat split. lia.
Qed.

Lemma sel_ok_sel d : nlen d = c1 + c2 + c3 -> sel_ok (sel d).
Proof.
  intros _. unfold sel, sel_ok. split; [apply N.mod_lt, pow_nz|]. split; [apply N.mod_lt, pow_nz|].
  split; [unfold nlen; rewrite length_dgs; lia|apply dgs_lt].
Qed.

Lemma put_sel d : nlen d = c1 + c2 + c3 ->
  put3 (sel d) (of_be (sub_bytes d 0 c1) mod 2 ^ (8 * c1 - k * a), of_be (sub_bytes d c1 (c1 + c2)) / 2 ^ e2,
                of_be (sub_bytes d (c1 + c2) (c1 + c2 + c3)) / 2 ^ e3) = d.
Proof.
  intros L. unfold put3, sel.
  set (A := sub_bytes d 0 c1). set (B := sub_bytes d c1 (c1 + c2)). set (C := sub_bytes d (c1 + c2) (c1 + c2 + c3)).
  assert (LA : nlen A = c1) by (unfold A; rewrite nlen_sub_bytes; lia).
  assert (LB : nlen B = c2) by (unfold B; rewrite nlen_sub_bytes; lia).
  assert (LC : nlen C = c3) by (unfold C; rewrite nlen_sub_bytes; lia).
  assert (P : forall X c, nlen X = c -> of_be X < 2 ^ (8 * c)).
  { intros X c <-. pose proof (of_be_lt X) as Hx. change 256 with (2 ^ 8) in Hx. rewrite <- N.pow_mul_r in Hx. exact Hx. }
  rewrite val_dgs.
  2:{ rewrite N2Nat.id. apply N.div_lt_upper_bound; [apply pow_nz|]. rewrite <- N.pow_add_r.
      replace (8 * c1 - k * a + k * a) with (8 * c1) by lia. apply P. exact LA. }
  rewrite !(N.mul_comm (_ / _)). rewrite <- !N.div_mod by apply pow_nz.
  replace (N.to_nat c1) with (length A) by (unfold nlen in LA; lia).
  replace (N.to_nat c2) with (length B) by (unfold nlen in LB; lia).
  replace (N.to_nat c3) with (length C) by (unfold nlen in LC; lia).
  rewrite !be_bytes_of_be. unfold A, B, C. rewrite app_assoc, !sub_bytes_split by lia. rewrite <- L. apply sub_bytes_all.
Qed.

Lemma In_pre c d : sel_ok c -> (In d (pre c) <-> nlen d = c1 + c2 + c3 /\ sel d = c).
Proof.
  intros Hc. unfold pre. rewrite in_map_iff. split.
  - intros [[[x y] z] [<- I]]. rewrite !in_prod_iff, !In_nrange in I. destruct I as [[Hx Hy] Hz].
    destruct (sel_put c (x, y, z) Hc Hx Hy Hz) as (L & S & _). split; assumption.
  - intros [L <-]. eexists. split; [apply put_sel; exact L|]. rewrite !in_prod_iff, !In_nrange.
    assert (P : forall X c e, nlen X = c -> e <= 8 * c -> of_be X / 2 ^ e < 2 ^ (8 * c - e)).
    { intros X c' e <- He. pose proof (of_be_lt X) as Hx. change 256 with (2 ^ 8) in Hx. rewrite <- N.pow_mul_r in Hx.
      apply N.div_lt_upper_bound; [apply pow_nz|]. rewrite <- N.pow_add_r.
      replace (e + (8 * nlen X - e)) with (8 * nlen X) by lia. exact Hx. }
    split; [split|]; [apply N.mod_lt, pow_nz|apply P; [rewrite nlen_sub_bytes; lia|exact B2]|
                      apply P; [rewrite nlen_sub_bytes; lia|exact B3]].
Qed.

Lemma NoDup_pre c : sel_ok c -> NoDup (pre c).
Proof.
  intros Hc. apply NoDup_map_in.
  - intros [[x y] z] [[x' y'] z'] I I' E. rewrite !in_prod_iff, !In_nrange in I, I'.
    destruct I as [[Hx Hy] Hz], I' as [[Hx' Hy'] Hz'].
    destruct (sel_put c (x, y, z) Hc Hx Hy Hz) as (_ & _ & E1 & E2 & E3).
    destruct (sel_put c (x', y', z') Hc Hx' Hy' Hz') as (_ & _ & E1' & E2' & E3').
    rewrite E in E1, E2, E3. cbn [fst snd] in *. congruence.
  - repeat apply NoDup_prod; apply NoDup_nrange.
Qed.

Lemma nlen_pre c : nlen (pre c) = 2 ^ (8 * (c1 + c2 + c3) - k * a - (e2 + e3)).
Proof.
  unfold pre. rewrite nlen_map. unfold nlen. rewrite !prod_length, !Nat2N.inj_mul.
  change (N.of_nat (length ?l)) with (nlen l). rewrite !nlen_nrange, <- !N.pow_add_r. f_equal. lia.
Qed.

(** *** the digests all of whose leaves are selected by some element of qs *)
Definition hit (qs : list (N * N * list N)) (c : N * N * list N) : Prop :=
  forall i, i < k -> exists q, In q qs /\ fst q = fst c /\ nth (N.to_nat i) (snd q) 0 = nth (N.to_nat i) (snd c) 0.

Fixpoint prods {A} (ls : list (list A)) : list (list A) :=
  match ls with [] => [[]] | l :: r => flat_map (fun x => map (cons x) (prods r)) l end.

Lemma In_prods {A} (ls : list (list A)) v d : length v = length ls ->
  (forall i, (i < length ls)%nat -> In (nth i v d) (nth i ls [])) -> In v (prods ls).
Proof.
  revert v. induction ls as [|l ls IH]; intros [|x v] L Hi; try discriminate; [left; reflexivity|].
  cbn [prods]. apply in_flat_map. exists x. split; [exact (Hi O ltac:(cbn; lia))|].
  apply in_map. apply IH; [cbn in L; lia|]. intros i Hl. exact (Hi (S i) ltac:(cbn; lia)).
Qed.

Lemma nlen_flat_const {A B} (g : A -> list B) b l : (forall x, In x l -> nlen (g x) = b) -> nlen (flat_map g l) = nlen l * b.
Proof.
  induction l as [|x l IH]; intros Hg; [reflexivity|]. cbn [flat_map]. rewrite nlen_app, nlen_cons.
  rewrite Hg by (left; reflexivity). rewrite IH by (intros y Iy; apply Hg; right; exact Iy). lia.
Qed.

Lemma nlen_prods {A} (ls : list (list A)) b : (forall l, In l ls -> nlen l = b) -> nlen (prods ls) = b ^ nlen ls.
Proof.
  induction ls as [|l ls IH]; intros Hl; [reflexivity|]. cbn [prods].
  rewrite (nlen_flat_const _ (nlen (prods ls))) by (intros x _; apply nlen_map).
  rewrite Hl by (left; reflexivity). rewrite IH by (intros y Iy; apply Hl; right; exact Iy).
  rewrite nlen_cons, N.add_1_r, N.pow_succ_r'. reflexivity.
Qed.

Definition nn_dec (x y : N * N) : {x = y} + {x <> y}.
Proof. decide equality; apply N.eq_dec. Defined.

Definition same (qs : list (N * N * list N)) (x : N * N) : list (N * N * list N) :=
  filter (fun q => if nn_dec (fst q) x then true else false) qs.

Definition cands (qs : list (N * N * list N)) (q : N * N * list N) : list (N * N * list N) :=
  map (fun js => (fst q, hd 0 (snd q) :: js))
      (prods (map (fun i => map (fun r => nth (N.to_nat (i + 1)) (snd r) 0) (same qs (fst q))) (nrange (k - 1)))).

Definition cover (qs : list (N * N * list N)) : list bytes := flat_map (fun q => flat_map pre (cands qs q)) qs.

Lemma nlen_cands qs q : nlen (cands qs q) = nlen (same qs (fst q)) ^ (k - 1).
Proof.
  unfold cands. rewrite nlen_map. rewrite (nlen_prods _ (nlen (same qs (fst q)))).
  - rewrite nlen_map, nlen_nrange. reflexivity.
  - intros l I. apply in_map_iff in I. destruct I as [i [<- _]]. apply nlen_map.
Qed.

Definition weight (qs : list (N * N * list N)) : N :=
  fold_right N.add 0 (map (fun q => nlen (same qs (fst q)) ^ (k - 1)) qs).

Lemma nlen_cover qs : nlen (cover qs) = 2 ^ (8 * (c1 + c2 + c3) - k * a - (e2 + e3)) * weight qs.
Proof.
  unfold cover, weight. set (qs0 := qs) at 1 3. clearbody qs0.
  induction qs as [|q qs IH]; cbn [flat_map map fold_right]; [rewrite N.mul_0_r; reflexivity|].
  rewrite nlen_app, IH.
  rewrite (nlen_flat_const _ (2 ^ (8 * (c1 + c2 + c3) - k * a - (e2 + e3)))) by (intros x _; apply nlen_pre).
  rewrite nlen_cands. lia.
Qed.

Lemma In_cover qs d : 1 <= k -> nlen d = c1 + c2 + c3 -> hit qs (sel d) -> In d (cover qs).
Proof.
  intros Hk L Hh. pose proof (sel_ok_sel d L) as Ok. set (c := sel d) in *.
  assert (Ec : c = sel d) by reflexivity. clearbody c.
  destruct (Hh 0 ltac:(lia)) as [q0 (I0 & F0 & N0)].
  unfold cover. apply in_flat_map. exists q0. split; [exact I0|]. apply in_flat_map. exists c. split.
  2:{ apply (In_pre c d Ok). split; [exact L|symmetry; exact Ec]. }
  destruct c as [x js]. cbn [fst snd] in *.
  assert (Lj : nlen js = k) by (destruct x; apply Ok).
  destruct js as [|j js]; [rewrite nlen_nil in Lj; lia|]. rewrite nlen_cons in Lj.
  unfold cands. apply in_map_iff. exists js. split.
  - rewrite F0. f_equal. f_equal. change (N.to_nat 0) with O in N0. cbn [nth] in N0.
    destruct (snd q0); exact N0.
  - apply In_prods with (d := 0).
    + rewrite map_length. unfold nrange. rewrite length_nseq. unfold nlen in Lj. lia.
    + rewrite map_length. unfold nrange. rewrite length_nseq. intros i Hi.
      rewrite nth_indep with (d' := map (fun r => nth (N.to_nat (0 + 1)) (snd r) 0) (same qs (fst q0)))
        by (rewrite map_length, length_nseq; exact Hi).
      rewrite (map_nth (fun i => map (fun r => nth (N.to_nat (i + 1)) (snd r) 0) (same qs (fst q0)))).
      rewrite (nth_error_nth (nseq 0 (N.to_nat (k - 1))) i 0 (x := 0 + N.of_nat i)) by (apply nth_error_nseq; exact Hi).
      destruct (Hh (N.of_nat i + 1) ltac:(lia)) as [q (I & F & Nq)].
      replace (N.to_nat (0 + N.of_nat i + 1)) with (S i) by lia.
      replace (N.to_nat (N.of_nat i + 1)) with (S i) in Nq by lia. cbn [nth snd] in Nq. rewrite <- Nq.
      apply (in_map (fun r => nth (S i) (snd r) 0)). unfold same. apply filter_In. split; [exact I|].
      destruct (nn_dec (fst q) (fst q0)) as [|Ne]; [reflexivity|]. exfalso. apply Ne. cbn [fst] in F, F0; congruence.
Qed.
End Pre.
