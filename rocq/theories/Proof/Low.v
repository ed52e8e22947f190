(** Relational reasoning about leakage: [low R m1 m2] says that the two computations leak the same
    and end the same way, with results related by [R]. *)
From Verif Require Import Machine Model.Api Spec.VocabLeak Spec.VocabPublic Proof.Runs Proof.HelpersP.

Definition low {A} (R : A -> A -> Prop) (m1 m2 : M A) : Prop :=
  leakage (trace m1) = leakage (trace m2) /\
  match result m1, result m2 with
  | Val a, Val b => R a b
  | Err e, Err e' => e = e'
  | Panic q, Panic q' => q = q'
  | _, _ => False
  end.

Lemma low_refl {A} (m : M A) : low eq m m.
Proof. split; [reflexivity|]. destruct (result m); reflexivity. Qed.

Lemma low_eq {A} (m1 m2 : M A) : m1 = m2 -> low eq m1 m2.
Proof. intros ->. apply low_refl. Qed.

Lemma low_weaken {A} (R R' : A -> A -> Prop) m1 m2 :
  low R m1 m2 -> (forall a b, R a b -> R' a b) -> low R' m1 m2.
Proof.
  intros [L V] K. split; [exact L|].
  destruct (result m1), (result m2); try exact V. apply K. exact V.
Qed.

Lemma low_ret {A} (R : A -> A -> Prop) a b : R a b -> low R (ret a) (ret b).
Proof. intros K. split; [reflexivity|exact K]. Qed.

Lemma low_panic {A} (R : A -> A -> Prop) q : low R (panic q) (panic q).
Proof. split; reflexivity. Qed.

Lemma low_err {A} (R : A -> A -> Prop) q : low R (err q) (err q).
Proof. split; reflexivity. Qed.

Lemma leakage_app a b : leakage (a ++ b) = leakage a ++ leakage b.
Proof. apply map_app. Qed.

Lemma low_bind {A B} (R : A -> A -> Prop) (R' : B -> B -> Prop) m1 m2 k1 k2 :
  low R m1 m2 -> (forall a b, R a b -> low R' (k1 a) (k2 b)) -> low R' (bind m1 k1) (bind m2 k2).
Proof.
  intros L0 K. destruct L0 as [L V]. destruct m1 as [t1 [a|e|q]], m2 as [t2 [b|e'|q']]; unfold low in *; cbn [trace result fst snd bind] in *; try contradiction.
  - destruct (K a b V) as [L2 V2]. destruct (k1 a) as [u1 o1], (k2 b) as [u2 o2]. cbn [trace result fst snd] in *.
    rewrite !leakage_app, L, L2. split; [reflexivity|exact V2].
  - split; [exact L|exact V].
  - split; [exact L|exact V].
Qed.

Lemma low_tick {A} (R : A -> A -> Prop) e1 e2 k1 k2 :
  observe e1 = observe e2 -> low R (k1 tt) (k2 tt) -> low R (bind (tick e1) k1) (bind (tick e2) k2).
Proof.
  intros E K. apply (low_bind (fun _ _ => True)).
  - split; [cbn; rewrite E; reflexivity|exact I].
  - intros [] [] _. exact K.
Qed.

Lemma low_branch {A} (R : A -> A -> Prop) b k1 k2 :
  low R (k1 b) (k2 b) -> low R (bind (branch b) k1) (bind (branch b) k2).
Proof.
  intros K. apply (low_bind (fun x y => x = b /\ y = b)).
  - split; [reflexivity|]. cbn. auto.
  - intros x y [-> ->]. exact K.
Qed.

(** comparisons that find their first difference, if any, at the same place *)
Lemma agreeing_refl a : agreeing a a = nlen a.
Proof.
  induction a as [|x a IH]; [reflexivity|]. cbn [agreeing]. rewrite byte_eqb_refl, IH, nlen_cons. lia.
Qed.
Lemma low_same_bytes a1 : forall b1 a2 b2, nlen b1 = nlen a1 -> nlen a2 = nlen a1 -> nlen b2 = nlen a1 ->
  agreeing a1 b1 = agreeing a2 b2 -> low eq (same_bytes a1 b1) (same_bytes a2 b2).
Proof.
  induction a1 as [|x1 a1 IH]; intros [|y1 b1] [|x2 a2] [|y2 b2] L1 L2 L3 E;
    try (exfalso; unfold nlen in *; cbn [length] in *; lia).
  - apply low_ret. reflexivity.
  - cbn [same_bytes agreeing] in *.
    assert (K : byte_eqb x1 y1 = byte_eqb x2 y2).
    { destruct (byte_eqb x1 y1), (byte_eqb x2 y2); try reflexivity; exfalso; lia. }
    rewrite K in *. apply low_branch. destruct (byte_eqb x2 y2); [|apply low_ret; reflexivity].
    apply IH; [unfold nlen in *; cbn [length] in *; lia..|]. lia.
Qed.

(** two computations that leak differently, once they have done the same *)
Definition apart {B} (m1 m2 : M B) : Prop := leakage (trace m1) <> leakage (trace m2).

Lemma apart_bind {A B} (R : A -> A -> Prop) (m1 m2 : M A) (k1 k2 : A -> M B) a b :
  low R m1 m2 -> result m1 = Val a -> result m2 = Val b -> apart (k1 a) (k2 b) -> apart (bind m1 k1) (bind m2 k2).
Proof.
  intros [L V] E1 E2 K. destruct m1 as [t1 o1], m2 as [t2 o2]. cbn [result snd] in E1, E2. subst o1 o2.
  unfold apart, bind in *. cbn [trace result fst snd] in *.
  destruct (k1 a) as [u1 w1], (k2 b) as [u2 w2]. cbn [trace fst snd] in *.
  rewrite !leakage_app, L. intros E. apply app_inv_head in E. exact (K E).
Qed.

Lemma apart_same_bytes {B} (k1 k2 : bool -> M B) a1 : forall b1 a2 b2, nlen b1 = nlen a1 -> nlen a2 = nlen a1 -> nlen b2 = nlen a1 ->
  agreeing a1 b1 <> agreeing a2 b2 ->
  apart (same <- same_bytes a1 b1 ;; bad <- branch (negb same) ;; k1 bad)
        (same <- same_bytes a2 b2 ;; bad <- branch (negb same) ;; k2 bad).
Proof.
  induction a1 as [|x1 a1 IH]; intros [|y1 b1] [|x2 a2] [|y2 b2] L1 L2 L3 D;
    try (exfalso; unfold nlen in *; cbn [length] in *; lia).
  cbn [same_bytes agreeing] in *. rewrite !bind_assoc.
  destruct (byte_eqb x1 y1), (byte_eqb x2 y2); cycle 3.
  - exfalso. apply D. reflexivity.
  - eapply (apart_bind eq); [apply low_refl|reflexivity|reflexivity|].
      apply IH; [unfold nlen in *; cbn [length] in *; lia..|]. intros E. apply D. rewrite E. reflexivity.
  - intros E. unfold branch, tick, bind, ret, trace, leakage in E. cbn in E.
      destruct (same_bytes a1 b1) as [? [?|?|?]]; cbn in E; try destruct (k1 _); try destruct (k2 _); discriminate.
  - intros E. unfold branch, tick, bind, ret, trace, leakage in E. cbn in E.
      destruct (same_bytes a2 b2) as [? [?|?|?]]; cbn in E; try destruct (k1 _); try destruct (k2 _); discriminate.
Qed.

(** the same program on both sides *)
Lemma low_same {A B} (R : B -> B -> Prop) (m : M A) k1 k2 :
  (forall a, low R (k1 a) (k2 a)) -> low R (bind m k1) (bind m k2).
Proof. intros K. apply (low_bind eq); [apply low_refl|]. intros a b ->. apply K. Qed.

(** results known exactly *)
Lemma low_runs {A} (R : A -> A -> Prop) m1 m2 a b :
  low R m1 m2 -> result m1 = Val a -> result m2 = Val b -> low (fun x y => x = a /\ y = b) m1 m2.
Proof. intros [L V] E1 E2. split; [exact L|]. rewrite E1, E2. auto. Qed.

Lemma low_and {A} (R R' : A -> A -> Prop) m1 m2 : low R m1 m2 -> low R' m1 m2 -> low (fun a b => R a b /\ R' a b) m1 m2.
Proof.
  intros [L V] [_ V']. split; [exact L|]. destruct (result m1), (result m2); try exact V. auto.
Qed.

(** slices *)
Lemma low_slice {A} (l1 l2 : list A) lo hi : nlen l1 = nlen l2 ->
  low (fun a b => nlen a = nlen b) (slice l1 lo hi) (slice l2 lo hi).
Proof.
  intros E. unfold slice. apply low_tick; [cbn; rewrite E; reflexivity|]. rewrite E.
  destruct ((lo <=? hi) && (hi <=? nlen l2))%bool eqn:C; [|apply low_panic]. apply low_ret.
  apply andb_true_iff in C. destruct C as [C1 C2]. apply N.leb_le in C1, C2.
  rewrite !nlen_sub_bytes by (try assumption; rewrite E; assumption). reflexivity.
Qed.

Lemma low_copy {A} (d1 d2 s1 s2 : list A) : nlen d1 = nlen d2 -> nlen s1 = nlen s2 ->
  low (fun a b => nlen a = nlen b) (copy_from_slice d1 s1) (copy_from_slice d2 s2).
Proof.
  intros E1 E2. unfold copy_from_slice. rewrite E1, E2. destruct (_ =? _); [|apply low_panic].
  apply low_ret. exact E2.
Qed.

Lemma nlen_splice_low {A} (l1 l2 s1 s2 : list A) lo : nlen l1 = nlen l2 -> nlen s1 = nlen s2 ->
  nlen (splice l1 lo s1) = nlen (splice l2 lo s2).
Proof.
  unfold nlen, splice. intros E1 E2. rewrite !app_length, !firstn_length, !skipn_length. lia.
Qed.

Lemma low_copy_into {A} (l1 l2 s1 s2 : list A) lo hi : nlen l1 = nlen l2 -> nlen s1 = nlen s2 ->
  low (fun a b => nlen a = nlen b) (copy_into l1 lo hi s1) (copy_into l2 lo hi s2).
Proof.
  intros E1 E2. unfold copy_into. eapply low_bind; [apply low_slice; exact E1|]. intros d1 d2 Ed.
  eapply low_bind; [apply low_copy; [exact Ed|exact E2]|]. intros x y Exy.
  apply low_ret. apply nlen_splice_low; assumption.
Qed.

(** arrays of byte strings *)
Definition lens (l : list bytes) : list N := map nlen l.
Lemma lens_nlen l1 l2 : lens l1 = lens l2 -> nlen l1 = nlen l2.
Proof. intros E. apply (f_equal (@nlen N)) in E. unfold lens in E. rewrite !nlen_map in E. exact E. Qed.

Lemma low_upd (l1 l2 : list bytes) i v1 v2 : lens l1 = lens l2 -> nlen v1 = nlen v2 ->
  low (fun a b => lens a = lens b) (upd l1 i v1) (upd l2 i v2).
Proof.
  intros E1 E2. pose proof (lens_nlen _ _ E1) as E3. unfold upd. apply low_tick; [cbn; rewrite E3; reflexivity|].
  rewrite E3. destruct (i <? nlen l2); [|apply low_panic]. apply low_ret. unfold lens, upd_list in *.
  rewrite !map_app. cbn [map]. rewrite <- !firstn_map, <- !skipn_map, E1, E2. reflexivity.
Qed.

Lemma low_upd_any {A} (l1 l2 : list A) i v1 v2 : nlen l1 = nlen l2 ->
  low (fun a b => nlen a = nlen b) (upd l1 i v1) (upd l2 i v2).
Proof.
  intros E. unfold upd. apply low_tick; [cbn; rewrite E; reflexivity|].
  rewrite E. destruct (i <? nlen l2); [|apply low_panic]. apply low_ret. unfold nlen, upd_list in *.
  rewrite !app_length. cbn [length]. rewrite !firstn_length, !skipn_length. lia.
Qed.

Lemma low_index (l1 l2 : list bytes) i : lens l1 = lens l2 ->
  low (fun a b => nlen a = nlen b) (index l1 i) (index l2 i).
Proof.
  intros E. pose proof (lens_nlen _ _ E) as E3. unfold index. apply low_tick; [cbn; rewrite E3; reflexivity|].
  assert (K : option_map nlen (nth_error l1 (N.to_nat i)) = option_map nlen (nth_error l2 (N.to_nat i))).
  { rewrite <- !nth_error_map. unfold lens in E. rewrite E. reflexivity. }
  destruct (nth_error l1 _), (nth_error l2 _); cbn in K; try discriminate; [|apply low_panic].
  apply low_ret. congruence.
Qed.

(** loops *)
Lemma low_for_n {S} (R : N -> S -> S -> Prop) b1 b2 n : forall lo s1 s2,
  (forall i a b, lo <= i < lo + N.of_nat n -> R i a b -> low (R (i + 1)) (b1 i a) (b2 i b)) ->
  R lo s1 s2 -> low (R (lo + N.of_nat n)) (for_n n lo b1 s1) (for_n n lo b2 s2).
Proof.
  induction n as [|n IH]; intros lo s1 s2 K E; cbn [for_n].
  - rewrite N.add_0_r. apply low_ret. exact E.
  - eapply low_bind; [apply K; [lia|exact E]|]. intros a b E'.
    replace (lo + N.of_nat (Datatypes.S n)) with (lo + 1 + N.of_nat n) by lia.
    apply IH; [|exact E']. intros i x y Hi. apply K. lia.
Qed.

Lemma low_for_range_i {S} (R : N -> S -> S -> Prop) b1 b2 lo hi s1 s2 : lo <= hi ->
  (forall i a b, lo <= i < hi -> R i a b -> low (R (i + 1)) (b1 i a) (b2 i b)) ->
  R lo s1 s2 -> low (R hi) (for_range lo hi b1 s1) (for_range lo hi b2 s2).
Proof.
  intros Hle K E. unfold for_range. apply low_tick; [reflexivity|].
  replace hi with (lo + N.of_nat (N.to_nat (hi - lo))) at 1 by lia.
  apply low_for_n; [|exact E]. intros i a b Hi. apply K. lia.
Qed.

Lemma low_for_range {S} (R : S -> S -> Prop) b1 b2 lo hi s1 s2 :
  (forall i a b, lo <= i < hi -> R a b -> low R (b1 i a) (b2 i b)) ->
  R s1 s2 -> low R (for_range lo hi b1 s1) (for_range lo hi b2 s2).
Proof.
  intros K E. unfold for_range. apply low_tick; [reflexivity|].
  apply (low_for_n (fun _ => R)); [|exact E]. intros i a b Hi. apply K. lia.
Qed.

Lemma low_for_list {X S} (RX : X -> X -> Prop) (R : S -> S -> Prop) b1 b2 l1 l2 s1 s2 :
  Forall2 RX l1 l2 -> (forall x y a b, RX x y -> R a b -> low R (b1 x a) (b2 y b)) ->
  R s1 s2 -> low R (for_list l1 b1 s1) (for_list l2 b2 s2).
Proof.
  intros F K E. unfold for_list.
  assert (L : nlen l1 = nlen l2) by (clear - F; induction F; [reflexivity|rewrite !nlen_cons; congruence]).
  apply low_tick; [cbn; rewrite L; reflexivity|]. revert s1 s2 E. clear L.
  induction F as [|x y l1 l2 Hxy F IH]; intros s1 s2 E; cbn [for_list_body]; [apply low_ret; exact E|].
  eapply low_bind; [apply K; [exact Hxy|exact E]|]. intros a b E'. apply IH. exact E'.
Qed.

Lemma low_map_mut {X S} (b1 b2 : X -> S -> M (X * S)) (R : S -> S -> Prop) l1 l2 s1 s2 :
  nlen l1 = nlen l2 -> (forall x y a b, R a b -> low (fun u v => R (snd u) (snd v)) (b1 x a) (b2 y b)) ->
  R s1 s2 ->
  low (fun u v => nlen (fst u) = nlen (fst v) /\ R (snd u) (snd v)) (map_mut l1 b1 s1) (map_mut l2 b2 s2).
Proof.
  intros L K E. unfold map_mut. apply low_tick; [cbn; rewrite L; reflexivity|].
  revert l2 L s1 s2 E. induction l1 as [|x l1 IH]; intros [|y l2] L s1 s2 E; try discriminate; cbn [map_mut_body].
  - apply low_ret. split; [reflexivity|exact E].
  - eapply low_bind; [apply K; exact E|]. intros [x' a] [y' b] E'.
    assert (L' : nlen l1 = nlen l2) by (rewrite !nlen_cons in L; lia).
    eapply low_bind; [apply IH; [exact L'|exact E']|]. intros [r1 a'] [r2 b'] [E1 E2].
    apply low_ret. cbn [fst snd] in *. rewrite !nlen_cons, E1. split; [reflexivity|exact E2].
Qed.
