(** Python programs with several threads. *)
From Coq Require Import String Permutation.
From Verif Require Import Spec.Fips205 Spec.Fips205Hash.
From Verif Require Import Model.Api Model.Ffi Model.PyObj Spec.Vocab Spec.VocabFfi Spec.VocabPy Spec.VocabConc Spec.VocabThreads
  Spec.VocabPyThreads Proof.Facts Proof.ForsP Proof.Summary Proof.TopFfi Proof.TopC Proof.TopThreads Proof.TopPyObj.
Import ListNotations.
Open Scope list_scope.
Open Scope N_scope.

(** ** lists *)
Lemma list_ext {A} (a b : list A) : (forall k, nth_error a k = nth_error b k) -> a = b.
Proof.
  revert b. induction a as [|x a IH]; intros b E.
  - specialize (E 0%nat). destruct b; [reflexivity|discriminate E].
  - destruct b as [|y b]; [specialize (E 0%nat); discriminate E|].
    pose proof (E 0%nat) as E0. cbn in E0. apply some_inj in E0. subst y. f_equal. apply IH. intros k. exact (E (S k)).
Qed.

Lemma nth_upd {A} (l : list A) i v k : i < nlen l ->
  nth_error (upd_list l i v) (N.to_nat k) = if k =? i then Some v else nth_error l (N.to_nat k).
Proof.
  intros L. unfold upd_list, nlen in *. assert (Li : (N.to_nat i < length l)%nat) by lia.
  assert (Lf : length (firstn (N.to_nat i) l) = N.to_nat i) by (rewrite firstn_length; lia).
  destruct (N.eqb_spec k i) as [->|D].
  - rewrite nth_error_app2 by lia. rewrite Lf, Nat.sub_diag. reflexivity.
  - destruct (N.lt_ge_cases k i) as [D2|D2].
    + rewrite nth_error_app1 by lia. rewrite <- (firstn_skipn (N.to_nat i) l) at 2. rewrite nth_error_app1 by lia. reflexivity.
    + rewrite nth_error_app2 by lia. rewrite Lf.
      destruct (N.to_nat k - N.to_nat i)%nat as [|d] eqn:Ed; [lia|]. cbn [nth_error].
      rewrite <- (firstn_skipn (N.to_nat i + 1) l) at 2. rewrite nth_error_app2 by (rewrite firstn_length; lia).
      rewrite firstn_length. f_equal. lia.
Qed.

Lemma heap_ext (A B : heap) : nlen A = nlen B -> (forall x, x < nlen A -> content A x = content B x) -> A = B.
Proof.
  intros L E. apply list_ext. intros k.
  destruct (Nat.lt_ge_cases k (length A)) as [D|D].
  - specialize (E (N.of_nat k)). unfold content in E. rewrite Nat2N.id in E. apply E. unfold nlen. lia.
  - unfold nlen in L. rewrite (proj2 (nth_error_None A k)) by lia. rewrite (proj2 (nth_error_None B k)) by lia. reflexivity.
Qed.

Lemma content_ext A B x : length_of A x = length_of B x -> (forall k, byte_of A x k = byte_of B x k) -> content A x = content B x.
Proof.
  unfold length_of, byte_of. destruct (content A x) as [a|], (content B x) as [b|]; cbn [option_map]; intros L E;
    try discriminate L; [|reflexivity].
  f_equal. apply list_ext. intros k. specialize (E (N.of_nat k)). rewrite Nat2N.id in E. exact E.
Qed.

Lemma content_front (A B : heap) x : x < nlen A -> content (A ++ B) x = content A x.
Proof. intros L. unfold content. apply nth_error_app1. unfold nlen in L. lia. Qed.
Lemma content_back (A B : heap) x : nlen A <= x -> content (A ++ B) x = nth_error B (N.to_nat (x - nlen A)).
Proof. intros L. unfold content. unfold nlen in *. rewrite nth_error_app2 by lia. f_equal. lia. Qed.

Lemma content_set H x k v y :
  content (set_byte H x k v) y =
  if y =? x then option_map (fun bs => if k <? nlen bs then upd_list bs k v else bs) (content H x) else content H y.
Proof.
  unfold set_byte. destruct (content H x) as [bs|] eqn:E; cbn [option_map].
  - pose proof (content_bound _ _ _ E) as L. destruct (k <? nlen bs).
    + unfold content. rewrite nth_upd by exact L. destruct (y =? x); reflexivity.
    + destruct (N.eqb_spec y x) as [->|_]; [exact E|reflexivity].
  - destruct (N.eqb_spec y x) as [->|_]; [exact E|reflexivity].
Qed.

Lemma nlen_set H x k v : nlen (set_byte H x k v) = nlen H.
Proof.
  unfold set_byte. destruct (content H x) as [bs|] eqn:E; [|reflexivity].
  destruct (k <? nlen bs); [|reflexivity]. apply nlen_upd_list. exact (content_bound _ _ _ E).
Qed.

Lemma length_set H x k v y : length_of (set_byte H x k v) y = length_of H y.
Proof.
  unfold length_of. rewrite content_set. destruct (N.eqb_spec y x) as [->|_]; [|reflexivity].
  destruct (content H x) as [bs|]; [|reflexivity]. cbn [option_map]. destruct (N.ltb_spec k (nlen bs)); [|reflexivity].
  f_equal. apply nlen_upd_list. assumption.
Qed.

Lemma byte_set_other H x k v y j : y <> x \/ j <> k -> byte_of (set_byte H x k v) y j = byte_of H y j.
Proof.
  intros D. unfold byte_of. rewrite content_set. destruct (N.eqb_spec y x) as [->|_]; [|reflexivity].
  destruct (content H x) as [bs|]; [|reflexivity]. cbn [option_map]. destruct (N.ltb_spec k (nlen bs)) as [L|L]; [|reflexivity].
  rewrite nth_upd by exact L. destruct (N.eqb_spec j k) as [->|_]; [|reflexivity]. destruct D as [D|D]; destruct (D eq_refl).
Qed.

Lemma byte_set_same H x k v w : byte_of H x k = Some w -> byte_of (set_byte H x k v) x k = Some v.
Proof.
  intros E. unfold byte_of in *. rewrite content_set, N.eqb_refl. destruct (content H x) as [bs|]; [|discriminate E].
  cbn [option_map]. assert (L : k < nlen bs).
  { unfold nlen. assert (X : nth_error bs (N.to_nat k) <> None) by congruence. apply nth_error_Some in X. lia. }
  rewrite (proj2 (N.ltb_lt _ _) L), nth_upd by exact L. rewrite N.eqb_refl. reflexivity.
Qed.

Section Calls.
Context {T : Target} {P : Prims} {W : Wide}.

(** ** an action depends only on the objects it is given and on the answers it gets *)
Lemma len_agree V S v : (forall x, In x (refs v) -> content S x = content V x) -> py_len S v = py_len V v.
Proof. intros E. destruct v as [x|s|l c]; cbn [py_len refs] in *; [rewrite (E x (or_introl eq_refl))|..]; reflexivity. Qed.

Lemma struct_agree V S v n : (forall x, In x (refs v) -> content S x = content V x) -> struct_arg S v n = struct_arg V v n.
Proof. intros E. destruct v as [x|s|l c]; cbn [struct_arg refs] in *; [rewrite (E x (or_introl eq_refl))|..]; reflexivity. Qed.

Lemma struct_front H new v n : (forall x, In x (refs v) -> content H x <> None) -> struct_arg (H ++ new) v n = struct_arg H v n.
Proof.
  intros E. apply struct_agree. intros x I. apply content_front.
  destruct (content H x) as [b|] eqn:Q; [exact (content_bound _ _ _ Q)|]. destruct (E x I Q).
Qed.

Lemma slice_message b len m : from_raw_parts (Some b) len = RSlice m -> c_message b len m.
Proof.
  unfold from_raw_parts. destruct ((len <? 0)%Z) eqn:L1; [intros X; discriminate X|].
  destruct ((Z.of_N (2 ^ usize_bits) <=? len)%Z) eqn:L2; [intros X; discriminate X|]. cbn [orb].
  destruct (Z.to_N len <=? nlen b) eqn:L3; [|intros X; discriminate X]. intros X.
  apply Z.ltb_ge in L1. apply Z.leb_gt in L2. apply N.leb_le in L3.
  split; [exact L1|]. split; [congruence|]. split; [exact L3|].
  set (Y := 2 ^ usize_bits) in *. clearbody Y. lia.
Qed.

Lemma sign_out l b len key o l1 code out : nlen key = 64 ->
  ffi_sign replay l (Some b) len (Some key) (Some o) = (l1, FReturn code out) ->
  exists o', out = Some o' /\ (o' = o \/ nlen o' = 17088).
Proof.
  intros Lk E. destruct (from_raw_parts (Some b) len) as [m| |] eqn:F.
  - destruct (sign_cases _ _ _ _ _ _ _ _ _ _ (slice_message _ _ _ F) Lk E) as [[_ ->]|(_ & sig & -> & Ls & _)]; eauto.
  - unfold ffi_sign in E. rewrite F in E. apply pair_equal_spec in E. destruct E as [_ E]. discriminate E.
  - unfold ffi_sign in E. rewrite F in E. apply pair_equal_spec in E. destruct E as [_ E]. discriminate E.
Qed.

Lemma struct_length H v n key : struct_arg H v n = Some (Some key) -> nlen key = n.
Proof.
  assert (Wh : forall b, (if n <=? nlen b then Some (sub_bytes b 0 n) else None) = Some key -> nlen key = n).
  { intros b. destruct (n <=? nlen b) eqn:L; [|intros X; discriminate X]. intros X. apply N.leb_le in L.
    apply some_inj in X. subst key. rewrite nlen_sub_bytes by lia. lia. }
  destruct v as [x|s|l c]; cbn [struct_arg].
  - destruct (content H x) as [b|]; [|intros X; discriminate X]. cbn [option_map]. intros X. apply some_inj in X. exact (Wh _ X).
  - destruct (wide s) as [b|]; [|intros X; discriminate X]. cbn [option_map]. intros X. apply some_inj in X. exact (Wh _ X).
  - intros X. discriminate X.
Qed.

Lemma py_local l rest V S op l1 V' r :
  nlen S = nlen V -> (forall x, In x (uses op) -> content S x = content V x /\ content V x <> None) ->
  py_step replay l V op = (l1, V', r) -> came_back r ->
  exists new, V' = V ++ new /\ py_step replay (l ++ rest) S op = (l1 ++ rest, S ++ new, r) /\
    map (@nlen byte) new = map (@nlen byte) (creates op) /\
    forall x, In x (handed r) -> In x (uses op) \/ nlen V <= x < nlen V + nlen (creates op).
Proof.
  intros Ln Ag E Cb.
  assert (Same : forall r0, py_step replay l V op = (l, V, r0) -> py_step replay (l ++ rest) S op = (l ++ rest, S, r0) ->
     creates op = [] -> (forall x, In x (handed r0) -> In x (uses op)) ->
     exists new, V' = V ++ new /\ py_step replay (l ++ rest) S op = (l1 ++ rest, S ++ new, r) /\
       map (@nlen byte) new = map (@nlen byte) (creates op) /\
       forall x, In x (handed r) -> In x (uses op) \/ nlen V <= x < nlen V + nlen (creates op)).
  { intros r0 E1 E2 Cr Hd. rewrite E in E1. apply triple_inv in E1. destruct E1 as (-> & -> & ->).
    exists []. rewrite Cr, !app_nil_r. split; [reflexivity|]. split; [exact E2|]. split; [reflexivity|]. intros x I. left. exact (Hd x I). }
  destruct op as [bs|v|v|k|k| |k m|k m sg]; cbn [py_step] in E |- *.
  - (* new *) unfold alloc in *. apply triple_inv in E. destruct E as (<- & <- & <-). exists [bs]. rewrite Ln.
    split; [reflexivity|]. split; [reflexivity|]. split; [reflexivity|].
    intros x [<-|[]]. right. change (nlen (creates (PNew bs))) with 1. lia.
  - (* public *) apply (Same (py_public V v)).
    + reflexivity.
    + cbn [py_step]. unfold py_public. rewrite (len_agree V S v) by (intros x I; exact (proj1 (Ag x I))). reflexivity.
    + reflexivity.
    + unfold py_public. intros x. destruct (py_len V v) as [n|]; [destruct (n =? PY_PK_LEN)|]; cbn [handed data_of uses]; auto; intros [].
  - (* private *) apply (Same (py_private V v)).
    + reflexivity.
    + cbn [py_step]. unfold py_private. rewrite (len_agree V S v) by (intros x I; exact (proj1 (Ag x I))). reflexivity.
    + reflexivity.
    + unfold py_private. intros x. destruct (py_len V v) as [n|]; [destruct (n =? PY_SK_LEN)|]; cbn [handed data_of uses]; auto; intros [].
  - (* bytes *) unfold py_bytes, alloc in *.
    destruct k as [[i|s|n [c|]]|[i|s|n [c|]]]; apply triple_inv in E; destruct E as (<- & <- & <-).
    3, 7: exists [c]; rewrite Ln; split; [reflexivity|]; split; [reflexivity|]; split; [reflexivity|];
      intros x [<-|[]]; right; cbn [creates]; change (nlen [c]) with 1; lia.
    all: exists []; rewrite !app_nil_r; split; [reflexivity|]; split; [reflexivity|]; split; [reflexivity|]; intros x I; left; exact I.
  - (* repr *) apply (Same (py_repr V k)).
    + reflexivity.
    + cbn [py_step]. unfold py_repr. destruct k as [v|v]; destruct v as [x|s|n c]; cbn [uses data_of refs] in Ag; try reflexivity;
        rewrite (proj1 (Ag x (or_introl eq_refl))); reflexivity.
    + reflexivity.
    + unfold py_repr. intros x. destruct k as [[y|s|n c]|[y|s|n c]]; [destruct (content V y)| | |destruct (content V y)| |]; intros [].
  - (* keygen *) unfold py_obj_keygen, alloc in *. cbv zeta in *.
    assert (Z1 : forall H : heap, content ((H ++ [nrepeat x00 PY_PK_LEN]) ++ [nrepeat x00 PY_SK_LEN]) (nlen H) = Some (nrepeat x00 PY_PK_LEN))
      by (intros H; apply content_old, content_last).
    assert (Z2 : forall H : heap, content ((H ++ [nrepeat x00 PY_PK_LEN]) ++ [nrepeat x00 PY_SK_LEN]) (nlen (H ++ [nrepeat x00 PY_PK_LEN]))
                 = Some (nrepeat x00 PY_SK_LEN)) by (intros H; apply content_last).
    rewrite Z1, Z2 in E |- *.
    destruct (ffi_keygen replay l (Some (nrepeat x00 PY_PK_LEN)) (Some (nrepeat x00 PY_SK_LEN))) as [l2 [code outs| |]] eqn:K.
    2, 3: apply triple_inv in E; destruct E as (_ & _ & <-); destruct Cb as [[v Cb]|Cb]; discriminate Cb.
    rewrite (keygen_ext _ rest _ _ _ _ _ K).
    assert (Os : exists pb sb, outs = (Some pb, Some sb) /\ nlen pb = 32 /\ nlen sb = 64).
    { destruct (keygen_cases _ _ _ _ _ _ _ K) as [[_ ->]|(_ & _ & _ & skb & Lk & _ & ->)].
      - exists (nrepeat x00 PY_PK_LEN), (nrepeat x00 PY_SK_LEN). split; [reflexivity|]. rewrite !nlen_nrepeat. split; reflexivity.
      - exists (sub_bytes skb 32 64), skb. split; [reflexivity|]. split; [rewrite nlen_sub_bytes by lia; reflexivity|exact Lk]. }
    destruct Os as (pb & sb & -> & Lp & Ls). rewrite write_pair in E. rewrite write_pair.
    assert (Cp : forall H : heap, content (H ++ [pb; sb]) (nlen H) = Some pb).
    { intros H. change [pb; sb] with ([pb] ++ [sb]). rewrite app_assoc. apply content_old, content_last. }
    assert (Cs : forall H : heap, content (H ++ [pb; sb]) (nlen (H ++ [nrepeat x00 PY_PK_LEN])) = Some sb).
    { intros H. change [pb; sb] with ([pb] ++ [sb]). rewrite app_assoc.
      replace (nlen (H ++ [nrepeat x00 PY_PK_LEN])) with (nlen (H ++ [pb])) by (rewrite !nlen_snoc; reflexivity). apply content_last. }
    unfold py_public, py_private in *. cbn [py_len] in E |- *. rewrite Cp, Cs in E |- *. cbn [option_map] in E |- *.
    rewrite Lp, Ls in E |- *. change (32 =? PY_PK_LEN) with true in *. change (64 =? PY_SK_LEN) with true in *. cbv iota in E |- *.
    apply triple_inv in E. destruct E as (<- & <- & <-). exists [pb; sb]. split; [reflexivity|]. split; [|split].
    + rewrite Ln. replace (nlen (S ++ [nrepeat x00 PY_PK_LEN])) with (nlen (V ++ [nrepeat x00 PY_PK_LEN])) by (rewrite !nlen_snoc, Ln; reflexivity).
      reflexivity.
    + cbn [map creates]. rewrite Lp, Ls, !nlen_nrepeat. reflexivity.
    + intros x I. destruct (negb (code =? ERR_OK)); [destruct I|]. cbn [handed refs data_of app In] in I.
      change (nlen (creates PKeygen)) with 2. rewrite nlen_snoc in I. destruct I as [<-|[<-|[]]]; right; lia.
  - (* sign *) unfold py_obj_sign in *.
    destruct k as [d|d].
    { apply triple_inv in E. destruct E as (<- & <- & <-). exists []. rewrite !app_nil_r. repeat split; auto. intros x []. }
    destruct m as [i|s|n c].
    2, 3: apply triple_inv in E; destruct E as (<- & <- & <-); exists []; rewrite !app_nil_r; repeat split; auto; intros x [].
    cbn [uses data_of] in Ag.
    assert (Ai : content S i = content V i /\ content V i <> None) by (apply Ag, in_or_app; right; left; reflexivity).
    destruct Ai as [Ai Ni]. rewrite Ai. destruct (content V i) as [m|]; [clear Ni|destruct (Ni eq_refl)]. unfold alloc in *. cbv zeta in *.
    assert (Ad : forall x, In x (refs d) -> content S x = content V x /\ content V x <> None) by (intros x I; apply Ag, in_or_app; left; exact I).
    rewrite (struct_front V) in E by (intros x I; exact (proj2 (Ad x I))).
    rewrite (struct_front S) by (intros x I; rewrite (proj1 (Ad x I)); exact (proj2 (Ad x I))).
    rewrite (struct_agree V S) by (intros x I; exact (proj1 (Ad x I))).
    destruct (struct_arg V d PY_SK_LEN) as [[key|]|] eqn:Sa.
    2: apply triple_inv in E; destruct E as (_ & _ & <-); destruct Cb as [[v Cb]|Cb]; discriminate Cb.
    2: { apply triple_inv in E. destruct E as (<- & <- & <-). exists [nrepeat x00 PY_SIG_LEN]. split; [reflexivity|]. split; [reflexivity|].
         split; [reflexivity|intros x []]. }
    destruct (same_object d i (ctypes_int (nlen m))).
    { apply triple_inv in E. destruct E as (_ & _ & <-). destruct Cb as [[v Cb]|Cb]; discriminate Cb. }
    rewrite content_last in E. rewrite content_last.
    destruct (ffi_sign replay l (Some m) (ctypes_int (nlen m)) (Some key) (Some (nrepeat x00 PY_SIG_LEN))) as [l2 [code out| |]] eqn:K.
    2, 3: apply triple_inv in E; destruct E as (_ & _ & <-); destruct Cb as [[v Cb]|Cb]; discriminate Cb.
    rewrite (sign_ext _ rest _ _ _ _ _ _ _ K).
    destruct (sign_out _ _ _ _ _ _ _ _ (struct_length _ _ _ _ Sa) K) as (o & -> & Lo).
    assert (Lo' : nlen o = 17088) by (destruct Lo as [->|Lo]; [apply nlen_nrepeat|exact Lo]).
    cbn [write] in *. rewrite upd_last in E. rewrite upd_last.
    apply triple_inv in E. destruct E as (<- & <- & <-). exists [o]. rewrite Ln. split; [reflexivity|]. split; [reflexivity|]. split.
    + cbn [map creates]. rewrite Lo', nlen_nrepeat. reflexivity.
    + intros x I. destruct (negb (code =? ERR_OK)); [destruct I|]. destruct I as [<-|[]]. right.
      change (nlen (creates (PSign (PrivObj d) (VBytes i)))) with 1. lia.
  - (* verify *) apply (Same (py_obj_verify V k m sg)).
    + reflexivity.
    + cbn [py_step]. unfold py_obj_verify. destruct k as [d|d]; [|reflexivity].
      destruct m as [i|s|n c]; [|reflexivity..]. destruct sg as [j|s|n c]; [|reflexivity..]. cbn [uses data_of] in Ag.
      assert (Ai : content S i = content V i) by (apply Ag, in_or_app; right; left; reflexivity).
      assert (Aj : content S j = content V j) by (apply Ag, in_or_app; right; right; left; reflexivity).
      rewrite Ai, Aj. rewrite (struct_agree V S) by (intros x I; apply Ag, in_or_app; left; exact I). reflexivity.
    + reflexivity.
    + unfold py_obj_verify. intros x.
      destruct k as [d|d]; [|intros []]. destruct m as [i|s|n c]; [|intros []..]. destruct sg as [j|s|n c]; [|intros []..].
      destruct (content V i); [|intros []]. destruct (content V j); [|intros []]. destruct (negb _); [intros []|].
      destruct (struct_arg V d PY_PK_LEN) as [[key|]|]; [|intros []..]. destruct (_ || _); [intros []|].
      destruct (ffi_verify _ _ _ _) as [ret ?| |]; [|intros []..]. destruct (_ && _); intros [].
Qed.

(** ** the log *)
Section Log.
Variables (H0 : heap) (log : list py_event) (calls : py_calls).
Hypothesis C : py_concurrent H0 log calls.
Notation at_ := (py_at log).
Notation hp t := (heap_at calls H0 log t).

Lemma evolved_app H l1 l2 : evolved calls H (l1 ++ l2) = evolved calls (evolved calls H l1) l2.
Proof. revert H. induction l1 as [|e l1 IH]; intros H; [reflexivity|]. destruct e; cbn [app evolved]; apply IH. Qed.

Lemma heap_S t : hp (S t) =
  match nth_error log t with
  | Some (PyBegin i) => hp t ++ match nth_error calls i with Some (op, _) => creates op | None => [] end
  | Some (PyWrite _ x k b) => set_byte (hp t) x k b
  | _ => hp t
  end.
Proof. unfold heap_at. rewrite firstn_S, evolved_app. destruct (nth_error log t) as [[i|i n o|i x k b|i]|]; reflexivity. Qed.

Lemma grows t1 t2 : (t1 <= t2)%nat -> nlen (hp t1) <= nlen (hp t2).
Proof.
  intros L. induction t2 as [|t2 IH]; [replace t1 with 0%nat by lia; lia|].
  destruct (Nat.eq_dec t1 (S t2)) as [->|D]; [lia|]. specialize (IH ltac:(lia)).
  rewrite heap_S. destruct (nth_error log t2) as [[i|i n o|i x k b|i]|]; try exact IH.
  - rewrite nlen_app. lia.
  - rewrite nlen_set. exact IH.
Qed.

Lemma byte_frame x k t1 t2 : (t1 <= t2)%nat -> x < nlen (hp t1) ->
  (forall t i b, (t1 <= t < t2)%nat -> ~ at_ t (PyWrite i x k b)) -> byte_of (hp t2) x k = byte_of (hp t1) x k.
Proof.
  intros L Lx F. induction t2 as [|t2 IH]; [replace t1 with 0%nat by lia; reflexivity|].
  destruct (Nat.eq_dec t1 (S t2)) as [->|D]; [reflexivity|].
  rewrite <- IH by (try lia; intros t i b Lt; apply F; lia).
  pose proof (grows t1 t2 ltac:(lia)) as G. rewrite heap_S.
  destruct (nth_error log t2) as [[i|i n o|i y j b|i]|] eqn:A; try reflexivity.
  - unfold byte_of. rewrite content_front by lia. reflexivity.
  - apply byte_set_other. destruct (N.eq_dec x y) as [->|Dx]; [|left; exact Dx]. right. intros ->.
    exact (F t2 i b ltac:(lia) A).
Qed.

Lemma length_frame x t1 t2 : (t1 <= t2)%nat -> x < nlen (hp t1) -> length_of (hp t2) x = length_of (hp t1) x.
Proof.
  intros L Lx. induction t2 as [|t2 IH]; [replace t1 with 0%nat by lia; reflexivity|].
  destruct (Nat.eq_dec t1 (S t2)) as [->|D]; [reflexivity|]. rewrite <- IH by lia.
  pose proof (grows t1 t2 ltac:(lia)) as G. rewrite heap_S.
  destruct (nth_error log t2) as [[i|i n o|i y j b|i]|]; try reflexivity.
  - unfold length_of. rewrite content_front by lia. reflexivity.
  - apply length_set.
Qed.

Lemma content_frame x t1 t2 : (t1 <= t2)%nat -> x < nlen (hp t1) ->
  (forall t i k b, (t1 <= t < t2)%nat -> ~ at_ t (PyWrite i x k b)) -> content (hp t2) x = content (hp t1) x.
Proof.
  intros L Lx F. apply content_ext; [apply length_frame; assumption|]. intros k. apply byte_frame; [assumption..|].
  intros t i b Lt. exact (F t i k b Lt).
Qed.

Lemma call_of t e : at_ t e -> exists op r, nth_error calls (py_thread e) = Some (op, r).
Proof.
  intros A. destruct C as (C1 & _). specialize (C1 _ _ A). apply nth_error_Some in C1.
  destruct (nth_error calls (py_thread e)) as [[op r]|]; [eauto|contradiction].
Qed.

(** when the action of thread i runs *)
Definition lifetime (i b e : nat) : Prop :=
  at_ b (PyBegin i) /\ at_ e (PyEnd i) /\ (b < e)%nat /\
  forall t x, at_ t x -> py_thread x = i ->
    (t = b /\ x = PyBegin i) \/ (t = e /\ x = PyEnd i) \/ ((b < t < e)%nat /\ x <> PyBegin i /\ x <> PyEnd i).

Lemma life i op r : nth_error calls i = Some (op, r) -> exists b e, lifetime i b e.
Proof.
  intros E. destruct C as (_ & C2 & _). destruct (C2 _ _ _ E) as (b & e & B & N & L & F & _). exists b, e.
  refine (conj B (conj N (conj L F))).
Qed.

Lemma life_begin i b e b' : lifetime i b e -> at_ b' (PyBegin i) -> b' = b.
Proof.
  intros (_ & _ & _ & F) B. destruct (F _ _ B eq_refl) as [[X _]|[[_ X]|[_ [X _]]]]; [exact X|discriminate X|destruct (X eq_refl)].
Qed.
Lemma life_end i b e e' : lifetime i b e -> at_ e' (PyEnd i) -> e' = e.
Proof.
  intros (_ & _ & _ & F) B. destruct (F _ _ B eq_refl) as [[_ X]|[[X _]|[_ [_ X]]]]; [discriminate X|exact X|destruct (X eq_refl)].
Qed.
Lemma life_run i b e t : lifetime i b e -> py_running log i t <-> (b < t <= e)%nat.
Proof.
  intros Lf. split.
  - intros (b' & e' & B & N & L). rewrite <- (life_begin _ _ _ _ Lf B), <- (life_end _ _ _ _ Lf N). exact L.
  - intros L. exists b, e. destruct Lf as (B & N & _). auto.
Qed.
Lemma life_write i b e t x k v : lifetime i b e -> at_ t (PyWrite i x k v) -> (b < t < e)%nat.
Proof. intros (_ & _ & _ & F) A. destruct (F _ _ A eq_refl) as [[_ X]|[[_ X]|[L _]]]; [discriminate X..|exact L]. Qed.

(** x is one of the objects that thread i creates, at b *)
Definition owns (i b : nat) (x : N) : Prop :=
  exists op r, nth_error calls i = Some (op, r) /\ at_ b (PyBegin i) /\
    nlen (hp b) <= x < nlen (hp b) + nlen (creates op).

Lemma owns_end i b x : owns i b x -> x < nlen (hp (S b)).
Proof. intros (op & r & E & B & L). rewrite heap_S. unfold py_at in B. rewrite B, E, nlen_app. lia. Qed.

Lemma owns_one i b j b' x : owns i b x -> owns j b' x -> i = j /\ b = b'.
Proof.
  intros O1 O2. pose proof (owns_end _ _ _ O1) as L1. pose proof (owns_end _ _ _ O2) as L2.
  destruct O1 as (op & r & E & B & Lb). destruct O2 as (op' & r' & E' & B' & Lb').
  destruct (Nat.lt_total b b') as [D|[D|D]].
  - pose proof (grows (S b) b' D). lia.
  - subst b'. unfold py_at in *. rewrite B in B'. split; [congruence|reflexivity].
  - pose proof (grows (S b') b D). lia.
Qed.

Lemma owns_new i b x : owns i b x -> nlen H0 <= x.
Proof. intros (op & r & E & B & L). pose proof (grows 0 b ltac:(lia)) as G. change (hp 0) with H0 in G. lia. Qed.

Lemma writer_owns t i x k v : at_ t (PyWrite i x k v) -> exists b e, lifetime i b e /\ (b < t < e)%nat /\ owns i b x.
Proof.
  intros A. destruct (call_of _ _ A) as (op & r & E). cbn [py_thread] in E.
  destruct C as (_ & C2 & _). destruct (C2 _ _ _ E) as (b & e & B & N & L & F & V & V' & Vn & _ & _ & _ & Wr & _).
  assert (Lf : lifetime i b e) by exact (conj B (conj N (conj L F))).
  exists b, e. split; [exact Lf|]. split; [exact (life_write _ _ _ _ _ _ _ Lf A)|].
  exists op, r. split; [exact E|]. split; [exact B|]. rewrite <- Vn. exact (Wr _ _ _ _ A).
Qed.

Lemma covered t x : x < nlen (hp t) -> x < nlen H0 \/ exists i b, (b < t)%nat /\ owns i b x.
Proof.
  induction t as [|t IH]; intros Lx; [left; exact Lx|].
  assert (Old : x < nlen (hp t) -> x < nlen H0 \/ exists i b, (b < S t)%nat /\ owns i b x).
  { intros L. destruct (IH L) as [D|(i & b & Lb & O)]; [left; exact D|right; exists i, b; split; [lia|exact O]]. }
  rewrite heap_S in Lx. destruct (nth_error log t) as [[i|i n o|i y k b|i]|] eqn:A; try exact (Old Lx).
  - destruct (N.lt_ge_cases x (nlen (hp t))) as [D|D]; [exact (Old D)|]. right. exists i, t. split; [lia|].
    destruct (call_of _ _ A) as (op & r & E). cbn [py_thread] in E. rewrite E, nlen_app in Lx.
    exists op, r. split; [exact E|]. split; [exact A|lia].
  - rewrite nlen_set in Lx. exact (Old Lx).
Qed.

(** x is not being written any more at moment t *)
Definition settled (x : N) (t : nat) : Prop :=
  x < nlen H0 \/ exists j b e, lifetime j b e /\ owns j b x /\ (e < t)%nat.

Lemma settled_exists x t : settled x t -> x < nlen (hp t).
Proof.
  intros [L|(j & b & e & Lf & O & L)].
  - pose proof (grows 0 t ltac:(lia)) as G. change (hp 0) with H0 in G. lia.
  - pose proof (owns_end _ _ _ O). pose proof (grows (S b) t) as G. destruct Lf as (_ & _ & Lbe & _). specialize (G ltac:(lia)). lia.
Qed.

Lemma settled_quiet x t : settled x t -> forall t' i k v, (t <= t')%nat -> ~ at_ t' (PyWrite i x k v).
Proof.
  intros St t' i k v Lt A. destruct (writer_owns _ _ _ _ _ A) as (b & e & Lf & L & O).
  destruct St as [Lx|(j & b2 & e2 & Lf2 & O2 & L2)].
  - pose proof (owns_new _ _ _ O). lia.
  - destruct (owns_one _ _ _ _ _ O O2) as [-> ->]. destruct Lf2 as (B2 & N2 & _).
    pose proof (life_end _ _ _ _ Lf N2). lia.
Qed.

Lemma settled_same x t t' : settled x t -> (t <= t')%nat -> content (hp t') x = content (hp t) x.
Proof.
  intros St L. apply content_frame; [exact L|exact (settled_exists _ _ St)|].
  intros t2 i k v L2. apply (settled_quiet x t St). lia.
Qed.

(** what thread i sees of the objects it is given is what they are when it begins *)
Lemma view_begin i op r b e V : nth_error calls i = Some (op, r) -> lifetime i b e ->
  (forall x, In x (uses op) -> settled x b) ->
  (forall x, In x (uses op) -> length_of V x = length_of (hp b) x /\
     forall k, exists t, py_running log i t /\ byte_of V x k = byte_of (hp t) x k) ->
  forall x, In x (uses op) -> content V x = content (hp b) x.
Proof.
  intros E Lf Us Vw x I. destruct (Vw x I) as [Vl Vb]. apply content_ext; [exact Vl|].
  intros k. destruct (Vb k) as (t & Ru & ->). apply (life_run _ _ _ _ Lf) in Ru.
  unfold byte_of. rewrite (settled_same x b t (Us x I)) by lia. reflexivity.
Qed.

Lemma content_some_lt (H : heap) x : x < nlen H -> content H x <> None.
Proof. intros L. destruct (content_some H x L) as [b ->]. discriminate. Qed.

(** all objects that an action is given are settled when it begins *)
Lemma uses_settled b : forall i op r x, nth_error calls i = Some (op, r) -> at_ b (PyBegin i) -> In x (uses op) -> settled x b.
Proof.
  induction b as [b IH] using (well_founded_induction lt_wf). intros i op r x E B I.
  destruct C as (_ & C2 & C3). destruct (C3 _ _ _ _ _ E B I) as [L|(j & op' & r' & e' & E' & Ih & N' & L)]; [left; exact L|].
  destruct (C2 _ _ _ E') as (bj & ej & Bj & Nj & Lj & Fj & V & V' & Vn & Vw & St & Cb & _).
  assert (Lf : lifetime j bj ej) by exact (conj Bj (conj Nj (conj Lj Fj))).
  pose proof (life_end _ _ _ _ Lf N') as Ee. subst e'.
  assert (Us : forall y, In y (uses op') -> settled y bj) by (intros y Iy; exact (IH bj ltac:(lia) j op' r' y E' Bj Iy)).
  assert (Vc : forall y, In y (uses op') -> content V y = content (hp bj) y) by exact (view_begin j op' r' bj ej V E' Lf Us Vw).
  destruct (py_local (py_asked j log) [] V V op' [] V' r' eq_refl) as (new & _ & _ & _ & Hd).
  { intros y Iy. split; [reflexivity|]. rewrite (Vc y Iy). apply content_some_lt, settled_exists, Us, Iy. }
  { exact St. }
  { exact Cb. }
  destruct (Hd x Ih) as [Iu|Lx].
  - destruct (Us x Iu) as [L0|(k & b2 & e2 & Lf2 & O2 & L2)]; [left; exact L0|right]. exists k, b2, e2. split; [exact Lf2|]. split; [exact O2|lia].
  - right. exists j, bj, ej. split; [exact Lf|]. split; [|exact L]. exists op', r'. rewrite <- Vn. auto.
Qed.

Lemma nth_nlen (a b : list bytes) k : map (@nlen byte) a = map (@nlen byte) b ->
  option_map (@nlen byte) (nth_error a k) = option_map (@nlen byte) (nth_error b k).
Proof. intros E. rewrite <- !nth_error_map, E. reflexivity. Qed.

(** each action is as if alone, and its results do not change after it ended *)
Lemma py_alone i op r b e : nth_error calls i = Some (op, r) -> lifetime i b e ->
  exists new, py_step replay (py_asked i log) (hp b) op = ([], hp b ++ new, r) /\ nlen new = nlen (creates op) /\
    forall t x, (e < t)%nat -> owns i b x -> content (hp t) x = content (hp b ++ new) x.
Proof.
  intros E Lf. destruct C as (_ & C2 & _).
  destruct (C2 _ _ _ E) as (b' & e' & B & N & L & F & V & V' & Vn & Vw & St & Cb & Wr & Wl).
  pose proof (life_begin _ _ _ _ Lf B) as Q1. pose proof (life_end _ _ _ _ Lf N) as Q2. subst b' e'.
  assert (Us : forall y, In y (uses op) -> settled y b) by (intros y I; exact (uses_settled b i op r y E B I)).
  pose proof (view_begin i op r b e V E Lf Us Vw) as Vc.
  destruct (py_local (py_asked i log) [] V (hp b) op [] V' r (eq_sym Vn)) as (new & -> & St' & Ml & _).
  { intros x I. split; [symmetry; exact (Vc x I)|]. rewrite (Vc x I). apply content_some_lt, settled_exists, Us, I. }
  { exact St. }
  { exact Cb. }
  rewrite app_nil_r in St'. exists new. split; [exact St'|].
  assert (Nl : nlen new = nlen (creates op)).
  { apply (f_equal (@length _)) in Ml. rewrite !map_length in Ml. unfold nlen. rewrite Ml. reflexivity. }
  split; [exact Nl|]. intros t x Lt O.
  assert (St2 : settled x (S e)) by (right; exists i, b, e; split; [exact Lf|split; [exact O|lia]]).
  rewrite (settled_same x (S e) t St2) by lia.
  pose proof (owns_end _ _ _ O) as Lx.
  assert (Rg : nlen (hp b) <= x < nlen (hp b) + nlen (creates op)).
  { destruct O as (op2 & r2 & E2 & _ & R). rewrite E in E2. apply some_inj, pair_equal_spec in E2. destruct E2 as [<- _]. exact R. }
  assert (Hb : hp (S b) = hp b ++ creates op) by (rewrite heap_S; unfold py_at in B; rewrite B, E; reflexivity).
  apply content_ext.
  - rewrite (length_frame x (S b) (S e)) by (try lia; exact Lx). rewrite Hb. unfold length_of. rewrite !content_back by lia.
    symmetry. apply nth_nlen, Ml.
  - assert (Only : forall t2 j k v, at_ t2 (PyWrite j x k v) -> j = i).
    { intros t2 j k v A. destruct (writer_owns _ _ _ _ _ A) as (b2 & e2 & _ & _ & O2). exact (proj1 (owns_one _ _ _ _ _ O2 O)). }
    assert (Same : forall k, byte_of (hp b ++ new) x k = byte_of (V ++ new) x k).
    { intros k. unfold byte_of. rewrite !content_back by lia. rewrite Vn. reflexivity. }
    intros k. rewrite Same. destruct (byte_of (V ++ new) x k) as [v|] eqn:Q.
    + destruct (Wl x k v ltac:(lia) Q) as [(t0 & A & La)|[Nw Ib]].
      * pose proof (life_write _ _ _ _ _ _ _ Lf A) as L0. pose proof (grows (S b) t0 ltac:(lia)) as G.
        rewrite (byte_frame x k (S t0) (S e)); [|lia| |].
        -- rewrite heap_S. unfold py_at in A. rewrite A.
           assert (Q2 : exists w, byte_of (hp t0) x k = Some w).
           { assert (Lo : length_of (hp t0) x = length_of (V ++ new) x).
             { rewrite (length_frame x (S b) t0) by (try lia; exact Lx). rewrite Hb. unfold length_of. rewrite !content_back by lia.
               rewrite Vn. symmetry. apply nth_nlen, Ml. }
             unfold byte_of, length_of in *. destruct (content (V ++ new) x) as [c|]; [|discriminate Q].
             destruct (content (hp t0) x) as [c2|]; [|discriminate Lo]. cbn [option_map] in Lo. apply some_inj in Lo.
             destruct (nth_error c2 (N.to_nat k)) as [w|] eqn:Y; [exists w; reflexivity|].
             apply nth_error_None in Y. assert (X : nth_error c (N.to_nat k) <> None) by congruence. apply nth_error_Some in X.
             unfold nlen in Lo. lia. }
           destruct Q2 as [w Q2]. exact (byte_set_same _ _ _ _ _ Q2).
        -- pose proof (grows t0 (S t0) ltac:(lia)). lia.
        -- intros t2 j v2 L2 A2. pose proof (Only _ _ _ _ A2). subst j. specialize (La _ _ A2). lia.
      * rewrite (byte_frame x k (S b) (S e)); [|lia|exact Lx|].
        -- rewrite Hb. unfold byte_of in Ib |- *. rewrite content_back in Ib |- * by lia. rewrite Vn in Ib. exact Ib.
        -- intros t2 j v2 L2 A2. pose proof (Only _ _ _ _ A2). subst j. exact (Nw _ _ A2).
    + assert (Lo : length_of (hp (S e)) x = length_of (V ++ new) x).
      { rewrite (length_frame x (S b) (S e)) by (try lia; exact Lx). rewrite Hb. unfold length_of. rewrite !content_back by lia.
        rewrite Vn. symmetry. apply nth_nlen, Ml. }
      unfold byte_of, length_of in *. destruct (content (hp (S e)) x) as [c|]; [|reflexivity].
      destruct (content (V ++ new) x) as [c2|]; [|discriminate Lo]. cbn [option_map] in Lo. apply some_inj in Lo.
      apply nth_error_None in Q. apply nth_error_None. unfold nlen in Lo. lia.
Qed.

(** ** serialization in the order of the begins *)
Definition py_begins (t : nat) : list nat := flat_map (fun e => match e with PyBegin i => [i] | _ => [] end) (firstn t log).
Definition the_py_call (i : nat) : py_op * py_result py_ret := nth i calls (PKeygen, PyRaise).

Lemma py_begins_S t : py_begins (S t) = py_begins t ++ match nth_error log t with Some (PyBegin i) => [i] | _ => [] end.
Proof. unfold py_begins. rewrite firstn_S, flat_map_app. destruct (nth_error log t) as [[i|i n o|i x k b|i]|]; reflexivity. Qed.

Lemma In_py_begins i t : In i (py_begins t) <-> exists b, (b < t)%nat /\ at_ b (PyBegin i).
Proof.
  induction t as [|t IH].
  - split; [intros []|intros (b & L & _); lia].
  - rewrite py_begins_S, in_app_iff, IH. split.
    + intros [(b & L & A)|X]; [exists b; split; [lia|exact A]|].
      destruct (nth_error log t) as [[j|j n o|j x k b|j]|] eqn:A; cbn [In] in X; try contradiction.
      destruct X as [->|[]]. exists t. split; [lia|exact A].
    + intros (b & L & A). destruct (Nat.eq_dec b t) as [->|D].
      * right. unfold py_at in A. rewrite A. left. reflexivity.
      * left. exists b. split; [lia|exact A].
Qed.

Lemma py_begins_nodup t : NoDup (py_begins t).
Proof.
  induction t as [|t IH]; [constructor|]. rewrite py_begins_S.
  destruct (nth_error log t) as [[j|j n o|j x k b|j]|] eqn:A; try (rewrite app_nil_r; exact IH).
  apply NoDup_Add with (a := j) (l := py_begins t).
  - replace (py_begins t ++ [j]) with (py_begins t ++ j :: []) by reflexivity.
    pose proof (Add_app j (py_begins t) []) as X. rewrite app_nil_r in X. exact X.
  - split; [exact IH|]. intros I. apply In_py_begins in I. destruct I as (b & L & B).
    destruct (call_of _ _ A) as (op & r & E). destruct (life _ _ _ E) as (b2 & e2 & Lf).
    pose proof (life_begin _ _ _ _ Lf A). pose proof (life_begin _ _ _ _ Lf B). lia.
Qed.

Lemma py_obo_snoc l H cs l1 H1 op r l2 H2 :
  py_one_by_one l H cs l1 H1 -> py_step replay l1 H1 op = (l2, H2, r) -> py_one_by_one l H (cs ++ [(op, r)]) l2 H2.
Proof.
  induction 1 as [l H|l H op' r' l1 H1 calls' l3 H3 E _ IH]; intros X; cbn [app].
  - econstructor; [exact X|constructor].
  - econstructor; [exact E|apply IH, X].
Qed.

Lemma py_serial t : (t <= length log)%nat ->
  exists Sm,
    (forall rest, py_one_by_one (flat_map (fun i => py_asked i log) (py_begins t) ++ rest) H0 (map the_py_call (py_begins t)) rest Sm) /\
    nlen Sm = nlen (hp t) /\
    (forall x, x < nlen H0 -> content Sm x = content H0 x) /\
    (forall i op r b x new, nth_error calls i = Some (op, r) -> (b < t)%nat -> owns i b x ->
       py_step replay (py_asked i log) (hp b) op = ([], hp b ++ new, r) -> content Sm x = content (hp b ++ new) x).
Proof.
  induction t as [|t IH]; intros Lt.
  - exists H0. split; [intros rest; constructor|]. split; [reflexivity|]. split; [reflexivity|]. intros i op r b x new _ L. lia.
  - destruct IH as (Sm & O1 & Ln & I1 & I2); [lia|].
    destruct (nth_error log t) as [ev|] eqn:A; [|apply nth_error_None in A; lia].
    destruct (call_of _ _ A) as (op & r & E).
    assert (Keep : py_begins (S t) = py_begins t -> nlen (hp (S t)) = nlen (hp t) -> (forall i, ~ at_ t (PyBegin i)) ->
      exists Sm,
        (forall rest, py_one_by_one (flat_map (fun i => py_asked i log) (py_begins (S t)) ++ rest) H0 (map the_py_call (py_begins (S t))) rest Sm) /\
        nlen Sm = nlen (hp (S t)) /\
        (forall x, x < nlen H0 -> content Sm x = content H0 x) /\
        (forall i op r b x new, nth_error calls i = Some (op, r) -> (b < S t)%nat -> owns i b x ->
           py_step replay (py_asked i log) (hp b) op = ([], hp b ++ new, r) -> content Sm x = content (hp b ++ new) x)).
    { intros Q1 Q2 Q3. rewrite Q1, Q2. exists Sm. split; [exact O1|]. split; [exact Ln|]. split; [exact I1|].
      intros i op2 r2 b x new E2 Lb O Sp. destruct (Nat.eq_dec b t) as [->|D].
      - destruct O as (? & ? & _ & B & _). destruct (Q3 i B).
      - exact (I2 i op2 r2 b x new E2 ltac:(lia) O Sp). }
    destruct ev as [j|j n o|j y k v|j]; cbn [py_thread] in *.
    2: { apply Keep; [rewrite py_begins_S, A; apply app_nil_r|rewrite heap_S, A; reflexivity|intros i B; unfold py_at in B; congruence]. }
    2: { apply Keep; [rewrite py_begins_S, A; apply app_nil_r|rewrite heap_S, A; apply nlen_set|intros i B; unfold py_at in B; congruence]. }
    2: { apply Keep; [rewrite py_begins_S, A; apply app_nil_r|rewrite heap_S, A; reflexivity|intros i B; unfold py_at in B; congruence]. }
    clear Keep. destruct (life _ _ _ E) as (b & e & Lf). pose proof (life_begin _ _ _ _ Lf A) as Eb. subst b.
    destruct (py_alone j op r t e E Lf) as (new & Sp & Nl & _).
    assert (Cb : came_back r).
    { destruct C as (_ & C2 & _). destruct (C2 _ _ _ E) as (b' & e' & _ & _ & _ & _ & V & V' & _ & _ & _ & Cb & _). exact Cb. }
    assert (Ag : forall x, In x (uses op) -> content Sm x = content (hp t) x /\ content (hp t) x <> None).
    { intros x I. pose proof (uses_settled t j op r x E A I) as St. split; [|apply content_some_lt, settled_exists, St].
      destruct St as [L|(i & b2 & e2 & Lf2 & O2 & L2)].
      - rewrite (I1 x L). symmetry. apply (settled_same x 0 t); [left; exact L|lia].
      - destruct O2 as (op2 & r2 & E2 & R2). destruct (py_alone i op2 r2 b2 e2 E2 Lf2) as (new2 & Sp2 & _ & Fx).
        assert (O2 : owns i b2 x) by (exists op2, r2; auto).
        destruct Lf2 as (_ & _ & Lbe & _).
        rewrite (I2 i op2 r2 b2 x new2 E2 ltac:(lia) O2 Sp2). symmetry. apply Fx; [exact L2|exact O2]. }
    assert (Step : forall rest, py_step replay (py_asked j log ++ rest) Sm op = (rest, Sm ++ new, r)).
    { intros rest. destruct (py_local (py_asked j log) rest (hp t) Sm op [] _ r Ln Ag Sp Cb) as (new2 & En & S2 & _).
      apply app_inv_head in En. subst new2. exact S2. }
    exists (Sm ++ new). split; [|split; [|split]].
    + intros rest. rewrite py_begins_S, A, flat_map_app, map_app. cbn [flat_map map]. rewrite app_nil_r, <- app_assoc.
      replace (the_py_call j) with (op, r) by (unfold the_py_call; symmetry; apply nth_error_nth; exact E).
      apply (py_obo_snoc _ _ _ (py_asked j log ++ rest) Sm); [apply O1|apply Step].
    + rewrite heap_S, A, E, !nlen_app. lia.
    + intros x L. rewrite content_front; [exact (I1 x L)|]. pose proof (grows 0 t ltac:(lia)) as G. change (hp 0) with H0 in G. lia.
    + intros i op2 r2 b x new2 E2 Lb O Sp2. destruct (Nat.eq_dec b t) as [->|D].
      * destruct O as (op3 & r3 & E3 & B3 & R3). unfold py_at in B3. rewrite A in B3.
        assert (j = i) by congruence. subst i. assert (Q : (op2, r2) = (op, r)) by congruence. apply pair_equal_spec in Q. destruct Q as [-> ->].
        rewrite Sp in Sp2. apply triple_inv in Sp2. destruct Sp2 as (_ & Q & _). apply app_inv_head in Q. subst new2.
        rewrite !content_back by lia. rewrite Ln. reflexivity.
      * rewrite content_front.
        -- exact (I2 i op2 r2 b x new2 E2 ltac:(lia) O Sp2).
        -- pose proof (owns_end _ _ _ O). pose proof (grows (S b) t ltac:(lia)). lia.
Qed.

Lemma py_begins_perm : Permutation (py_begins (length log)) (seq 0 (length calls)).
Proof.
  apply NoDup_Permutation; [apply py_begins_nodup|apply seq_NoDup|]. intros i. rewrite In_py_begins, in_seq. split.
  - intros (b & _ & B). destruct C as (C1 & _). specialize (C1 _ _ B). cbn [py_thread] in C1. lia.
  - intros [_ L]. assert (X : nth_error calls i <> None) by (apply nth_error_Some; lia).
    destruct (nth_error calls i) as [[op r]|] eqn:E; [|contradiction].
    destruct (life _ _ _ E) as (b & e & B & _). exists b. split; [|exact B].
    apply nth_error_Some. unfold py_at in B. congruence.
Qed.

Lemma py_begins_order i j e b : at_ e (PyEnd i) -> at_ b (PyBegin j) -> (e < b)%nat -> precedes (py_begins (length log)) i j.
Proof.
  intros N B L. exists (py_begins b), (flat_map (fun e => match e with PyBegin i => [i] | _ => [] end) (skipn b log)).
  destruct (call_of _ _ N) as (op & r & X). cbn [py_thread] in X. destruct (life _ _ _ X) as (bg & en & Lf).
  pose proof (life_end _ _ _ _ Lf N) as Ee. subst en. destruct Lf as (B2 & _ & L2 & _). split; [|split].
  - unfold py_begins. rewrite firstn_all, <- flat_map_app, firstn_skipn. reflexivity.
  - apply In_py_begins. exists bg. split; [lia|exact B2].
  - apply in_flat_map. exists (PyBegin j). split; [|left; reflexivity].
    unfold py_at in B. apply nth_error_split in B. destruct B as (l1 & l2 & -> & Lb). rewrite <- Lb.
    rewrite skipn_app, skipn_all, Nat.sub_diag. cbn [skipn app]. left. reflexivity.
Qed.

Lemma heap_end : hp (length log) = evolved calls H0 log.
Proof. unfold heap_at. rewrite firstn_all. reflexivity. Qed.

Lemma py_serial_end : exists Sm,
  py_one_by_one (flat_map (fun i => py_asked i log) (py_begins (length log))) H0 (map the_py_call (py_begins (length log))) [] Sm /\
  Sm = evolved calls H0 log.
Proof.
  destruct (py_serial (length log) ltac:(lia)) as (Sm & O1 & Ln & I1 & I2). exists Sm. split.
  - specialize (O1 []). rewrite app_nil_r in O1. exact O1.
  - rewrite <- heap_end. apply heap_ext; [exact Ln|]. intros x Lx. rewrite Ln in Lx.
    destruct (covered _ _ Lx) as [L|(i & b & Lb & O)].
    + rewrite (I1 x L). symmetry. apply (settled_same x 0); [left; exact L|lia].
    + pose proof O as (op & r & E & B & _). destruct (life _ _ _ E) as (b' & e & Lf). pose proof (life_begin _ _ _ _ Lf B) as Eb. subst b'.
      destruct (py_alone i op r b e E Lf) as (new & Sp & _ & Fx). rewrite (I2 i op r b x new E Lb O Sp). symmetry. apply Fx; [|exact O].
      destruct Lf as (_ & N & _). apply nth_error_Some. unfold py_at in N. congruence.
Qed.
End Log.
End Calls.

Lemma prop_python_threads_serializable :
  forall (T : Target) (P : Prims) (W : Wide) (H0 : heap) (log : list py_event) (calls : py_calls),
    py_concurrent H0 log calls ->
    exists order : list nat,
      Permutation order (seq 0 (length calls)) /\
      (forall i j e b, py_at log e (PyEnd i) -> py_at log b (PyBegin j) -> (e < b)%nat -> precedes order i j) /\
      py_one_by_one (flat_map (fun i => py_asked i log) order) H0 (map (fun i => nth i calls (PKeygen, PyRaise)) order)
        [] (evolved calls H0 log).
Proof.
  intros T P W H0 log calls C. exists (py_begins log (length log)).
  split; [exact (py_begins_perm _ _ _ C)|]. split; [intros i j e b; exact (py_begins_order _ _ _ C i j e b)|].
  destruct (py_serial_end _ _ _ C) as (Sm & O & ->). exact O.
Qed.

Lemma prop_python_threads_as_if_alone :
  forall (T : Target) (P : Prims) (W : Wide) (H0 : heap) (log : list py_event) (calls : py_calls),
    py_concurrent H0 log calls ->
    (forall t x, x < nlen H0 -> content (heap_at calls H0 log t) x = content H0 x) /\
    forall i op r b e, nth_error calls i = Some (op, r) -> py_at log b (PyBegin i) -> py_at log e (PyEnd i) ->
      let H := heap_at calls H0 log b in
      exists new, py_step replay (py_asked i log) H op = ([], H ++ new, r) /\
        forall t k, (e < t)%nat -> k < nlen new ->
          content (heap_at calls H0 log t) (nlen H + k) = nth_error new (N.to_nat k).
Proof.
  intros T P W H0 log calls C. split.
  - intros t x L. apply (settled_same _ _ _ C x 0 t); [left; exact L|lia].
  - intros i op r b e E B N. destruct (life _ _ _ C _ _ _ E) as (b' & e' & Lf).
    pose proof (life_begin _ _ _ _ _ Lf B) as Q1. pose proof (life_end _ _ _ _ _ Lf N) as Q2. subst b' e'.
    destruct (py_alone _ _ _ C i op r b e E Lf) as (new & Sp & Nl & Fx). exists new. split; [exact Sp|].
    intros t k Lt Lk. rewrite (Fx t).
    + rewrite content_back by lia. f_equal. lia.
    + exact Lt.
    + exists op, r. split; [exact E|]. split; [exact B|lia].
Qed.
