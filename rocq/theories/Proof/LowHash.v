(** Leakage of the hash functions: it depends on the lengths of the inputs and on the address. *)
From Verif Require Import Machine Model.Api Spec.VocabLeak Proof.Runs Proof.HelpersP Proof.Low.

Notation same_len := (fun a b : bytes => nlen a = nlen b).

Section LowHash.
(** the two runs may even use different hash functions *)
Context {T : Target} {P1 P2 : Prims}.

Lemma low_absorb l1 l2 h1 h2 : nlen l1 = nlen l2 -> low (fun _ _ => True) (absorb_all h1 l1) (absorb_all h2 l2).
Proof.
  intros E. unfold absorb_all. apply (low_for_list (fun _ _ => True)); [|intros; apply low_ret; exact I|exact I].
  revert l2 E. induction l1 as [|x l1 IH]; intros [|y l2] E; try discriminate; constructor; [exact I|].
  apply IH. rewrite !nlen_cons in E. lia.
Qed.

Lemma low_shake l1 l2 k : nlen l1 = nlen l2 -> low same_len (shake_shake256 (P := P1) l1 k) (shake_shake256 (P := P2) l2 k).
Proof.
  intros E. unfold shake_shake256. eapply low_bind; [apply low_absorb; exact E|]. intros a b _.
  apply low_ret. rewrite !shake256_len. reflexivity.
Qed.
Lemma low_sha256 l1 l2 k : nlen l1 = nlen l2 -> low same_len (sha2_256 (P := P1) l1 k) (sha2_256 (P := P2) l2 k).
Proof.
  intros E. unfold sha2_256. eapply low_bind; [apply low_absorb; exact E|]. intros a b _.
  apply low_slice. rewrite !sha256_len. reflexivity.
Qed.
Lemma low_sha512 l1 l2 k : nlen l1 = nlen l2 -> low same_len (sha2_512 (P := P1) l1 k) (sha2_512 (P := P2) l2 k).
Proof.
  intros E. unfold sha2_512. eapply low_bind; [apply low_absorb; exact E|]. intros a b _.
  apply low_slice. rewrite !sha512_len. reflexivity.
Qed.

Lemma low_with_pieces f1 f2 m1 m2 : nlen f1 = nlen f2 -> nlen m1 = nlen m2 ->
  low (fun a b : list bytes => nlen a = nlen b) (with_pieces f1 m1) (with_pieces f2 m2).
Proof.
  intros E E'. unfold with_pieces. rewrite E, E'. apply low_same. intros e. apply low_copy_into; [|exact E'].
  rewrite !nlen_app, E. reflexivity.
Qed.

Lemma nlen_zip_xor pad k : nlen (zip_xor pad k) = nlen pad.
Proof. revert k. induction pad as [|x pad IH]; intros [|y k]; cbn [zip_xor]; rewrite ?nlen_cons, ?IH; reflexivity. Qed.

Lemma low_hmac bl hash1 hash2 k1 k2 a1 a2 m1 m2 k :
  (forall x, nlen (hash1 x) = k) -> (forall x, nlen (hash2 x) = k) -> nlen k1 = nlen k2 -> nlen m1 = nlen m2 ->
  low same_len (hmac bl hash1 k1 a1 m1) (hmac bl hash2 k2 a2 m2).
Proof.
  intros Hh Hh' E Em. unfold hmac. apply low_tick; [rewrite E; reflexivity|]. cbv zeta.
  eapply low_bind; [apply low_absorb; exact Em|]. intros i1 i2 _.
  eapply low_bind; [apply (low_map_mut _ _ (fun _ _ => True)); [rewrite !nlen_zip_xor; reflexivity| |exact I]|].
  { intros. apply low_ret. exact I. }
  intros [p1 []] [p2 []] _. apply low_ret. rewrite Hh, Hh'. reflexivity.
Qed.

Lemma low_while {S} (R : S -> S -> Prop) c1 c2 b1 b2 fuel : forall s1 s2,
  (forall a b, R a b -> c1 a = c2 b) -> (forall a b, R a b -> low R (b1 a) (b2 b)) ->
  R s1 s2 -> low R (while fuel c1 b1 s1) (while fuel c2 b2 s2).
Proof.
  induction fuel as [|fuel IH]; intros s1 s2 C K E; cbn [while]; [apply low_panic|].
  rewrite (C _ _ E). apply low_branch. destruct (c2 s2); [|apply low_ret; exact E].
  eapply low_bind; [apply K; exact E|]. intros a b E'. apply IH; assumption.
Qed.

Lemma low_sha2_h_msg bl (hash1 hash2 : list bytes -> N -> M bytes) cm k1 k2 ps1 ps2 pr1 pr2 m1 m2 :
  (forall l1 l2 k, nlen l1 = nlen l2 -> low same_len (hash1 l1 k) (hash2 l2 k)) -> nlen m1 = nlen m2 ->
  low same_len (sha2_h_msg bl hash1 cm k1 ps1 pr1 m1) (sha2_h_msg bl hash2 cm k2 ps2 pr2 m2).
Proof.
  intros Hh Em. unfold sha2_h_msg. eapply low_bind; [apply low_with_pieces; [reflexivity|exact Em]|]. intros i1 i2 Ei.
  eapply low_bind; [apply Hh; exact Ei|]. intros d1 d2 Ed. cbv zeta.
  set (R := fun u v : bytes * N * N => nlen (fst (fst u)) = nlen (fst (fst v)) /\ snd (fst u) = snd (fst v) /\ snd u = snd v).
  apply (low_bind R).
  - apply (low_while R); [| |split; [|split]; reflexivity].
    + intros [[x1 s1] c1] [[x2 s2] c2] (A & B & C). cbn [fst snd] in *. subst. reflexivity.
    + intros [[x1 s1] c1] [[x2 s2] c2] (A & B & C). cbn [fst snd] in *. subst s2 c2.
      eapply low_bind; [apply Hh; reflexivity|]. intros t1 t2 Et. apply low_same; intros lf. apply low_same; intros e.
      eapply low_bind; [apply low_slice; exact Et|]. intros u1 u2 Eu.
      eapply low_bind; [apply low_copy_into; [exact A|exact Eu]|]. intros v1 v2 Ev.
      apply low_same; intros s'. apply low_same; intros c'. apply low_ret. split; [exact Ev|split; reflexivity].
  - intros [[x1 s1] c1] [[x2 s2] c2] (A & _). apply low_ret. exact A.
Qed.

Record HLow (hs1 hs2 : Hashers) := {
  low_f : forall ps1 ps2 a x1 x2, nlen ps1 = nlen ps2 -> nlen x1 = nlen x2 ->
    low same_len (call_f hs1 ps1 a x1) (call_f hs2 ps2 a x2);
  low_h : forall ps1 ps2 a x1 x2 y1 y2, nlen ps1 = nlen ps2 -> nlen x1 = nlen x2 -> nlen y1 = nlen y2 ->
    low same_len (call_h hs1 ps1 a x1 y1) (call_h hs2 ps2 a x2 y2);
  low_tl : forall ps1 ps2 a l1 l2, nlen ps1 = nlen ps2 -> lens l1 = lens l2 ->
    low same_len (call_t_l hs1 ps1 a l1) (call_t_l hs2 ps2 a l2);
  low_tlen : forall ps1 ps2 a l1 l2, nlen ps1 = nlen ps2 -> lens l1 = lens l2 ->
    low same_len (call_t_len hs1 ps1 a l1) (call_t_len hs2 ps2 a l2);
  low_prf : forall ps1 ps2 a x1 x2, nlen ps1 = nlen ps2 -> nlen x1 = nlen x2 ->
    low same_len (call_prf hs1 ps1 x1 a) (call_prf hs2 ps2 x2 a);
  low_prf_msg : forall k1 k2 o1 o2 m1 m2, nlen k1 = nlen k2 -> nlen o1 = nlen o2 -> lens m1 = lens m2 ->
    low same_len (call_prf_msg hs1 k1 o1 m1) (call_prf_msg hs2 k2 o2 m2);
  low_h_msg : forall k1 k2 ps1 ps2 pr1 pr2 m1 m2, nlen k1 = nlen k2 -> nlen ps1 = nlen ps2 -> nlen pr1 = nlen pr2 ->
    lens m1 = lens m2 -> low same_len (call_h_msg hs1 k1 ps1 pr1 m1) (call_h_msg hs2 k2 ps2 pr2 m2) }.

Ltac lh := repeat first
  [ apply low_shake; reflexivity | apply low_sha256; reflexivity | apply low_sha512; reflexivity
  | apply low_ret; rewrite ?shake256_len; reflexivity
  | progress cbv zeta
  | apply low_same; intros ].

Ltac tick_lens := apply low_tick; [cbn [observe map]; congruence|].

Lemma low_shake_tl n ps1 ps2 a l1 l2 : lens l1 = lens l2 -> low same_len (shake_t_l (P := P1) n ps1 a l1) (shake_t_l (P := P2) n ps2 a l2).
Proof.
  intros E. unfold shake_t_l. lh. eapply low_bind; [apply low_absorb; apply lens_nlen; exact E|].
  intros x y _. apply low_ret. rewrite !shake256_len. reflexivity.
Qed.
Lemma low_cat1_tl n ps1 ps2 a l1 l2 : lens l1 = lens l2 -> low same_len (cat1_t_l (P := P1) n ps1 a l1) (cat1_t_l (P := P2) n ps2 a l2).
Proof.
  intros E. unfold cat1_t_l. lh. eapply low_bind; [apply low_absorb; apply lens_nlen; exact E|].
  intros x y _. eapply low_bind; [apply low_slice; rewrite !sha256_len; reflexivity|]. intros u v K.
  apply low_copy; [reflexivity|exact K].
Qed.
Lemma low_cat35_tl n ps1 ps2 a l1 l2 : lens l1 = lens l2 -> low same_len (cat35_t_l (P := P1) n ps1 a l1) (cat35_t_l (P := P2) n ps2 a l2).
Proof.
  intros E. unfold cat35_t_l. lh. eapply low_bind; [apply low_absorb; apply lens_nlen; exact E|].
  intros x y _. eapply low_bind; [apply low_slice; rewrite !sha512_len; reflexivity|]. intros u v K.
  apply low_copy; [reflexivity|exact K].
Qed.

Theorem HASHERS_low p : HLow (HASHERS (P := P1) p) (HASHERS (P := P2) p).
Proof.
  unfold HASHERS. destruct (cfam p); constructor; intros.
  all: unfold call_f, call_h, call_t_l, call_t_len, call_prf, call_prf_msg, call_h_msg, lens in *; tick_lens;
    cbn [f h t_l t_len prf prf_msg h_msg].
  all: try (unfold cat1_f, cat1_h, cat1_prf, cat35_f, cat35_h, cat35_prf, shake_f, shake_h, shake_prf; lh; fail).
  all: try (apply low_shake_tl; assumption).
  all: try (apply low_cat1_tl; assumption).
  all: try (apply low_cat35_tl; assumption).
  all: match goal with E : map nlen ?a = map nlen ?b |- _ => pose proof (lens_nlen a b E) as Em end.
  - unfold shake_prf_msg. eapply low_bind; [apply low_with_pieces; [reflexivity|exact Em]|].
    intros a b E. apply low_shake. exact E.
  - unfold shake_h_msg. eapply low_bind; [apply low_with_pieces; [reflexivity|exact Em]|].
    intros a b E. apply low_shake. exact E.
  - unfold cat1_prf_msg. eapply low_bind; [apply (low_hmac _ _ _ _ _ _ _ _ _ 32); [apply sha256_len|apply sha256_len|assumption|exact Em]|].
    intros a b E. eapply low_bind; [apply low_slice; exact E|]. intros u v K. apply low_copy; [reflexivity|exact K].
  - apply low_sha2_h_msg; [apply low_sha256|exact Em].
  - unfold cat35_prf_msg. eapply low_bind; [apply (low_hmac _ _ _ _ _ _ _ _ _ 64); [apply sha512_len|apply sha512_len|assumption|exact Em]|].
    intros a b E. eapply low_bind; [apply low_slice; exact E|]. intros u v K. apply low_copy; [reflexivity|exact K].
  - apply low_sha2_h_msg; [apply low_sha512|exact Em].
Qed.
End LowHash.
