(** Python programs: objects, histories. *)
From Coq Require Import String.
From Verif Require Import Spec.Fips205 Spec.Fips205Hash.
From Verif Require Import Model.Py Model.PyObj Spec.Vocab Spec.VocabFfi Spec.VocabPy Proof.Summary Proof.TopFips Proof.TopFfi Proof.TopC Proof.TopPy.
Import ListNotations.
Open Scope list_scope.
Open Scope N_scope.

(** ** the heap *)
Lemma content_old H new i b : content H i = Some b -> content (H ++ new) i = Some b.
Proof. unfold content. intros E. rewrite nth_error_app1; [exact E|]. apply nth_error_Some. rewrite E. discriminate. Qed.

Lemma content_last H b : content (H ++ [b]) (nlen H) = Some b.
Proof.
  unfold content, nlen. rewrite Nat2N.id, nth_error_app2 by lia. rewrite Nat.sub_diag. reflexivity.
Qed.

Lemma content_some H i : i < nlen H -> exists b, content H i = Some b.
Proof.
  intros L. unfold content. destruct (nth_error H (N.to_nat i)) as [b|] eqn:E; [exists b; reflexivity|].
  apply nth_error_None in E. unfold nlen in L. lia.
Qed.

Lemma content_bound H i b : content H i = Some b -> i < nlen H.
Proof.
  unfold content. intros E. assert (N.to_nat i < List.length H)%nat by (apply nth_error_Some; rewrite E; discriminate).
  unfold nlen. lia.
Qed.

Lemma upd_last {A} (H : list A) a b : upd_list (H ++ [a]) (nlen H) b = H ++ [b].
Proof.
  unfold upd_list, nlen. rewrite Nat2N.id, firstn_app, firstn_all, Nat.sub_diag.
  rewrite skipn_all2 by (rewrite app_length; cbn [List.length]; lia).
  change (firstn 0 [a]) with (@nil A). rewrite app_nil_r. reflexivity.
Qed.

Lemma upd_app {A} (H : list A) a k b : k < nlen H -> upd_list (H ++ [a]) k b = upd_list H k b ++ [a].
Proof.
  intros L. unfold upd_list, nlen in *. rewrite firstn_app, skipn_app.
  replace (N.to_nat k - List.length H)%nat with 0%nat by lia.
  replace (N.to_nat k + 1 - List.length H)%nat with 0%nat by lia.
  cbn [firstn skipn]. rewrite app_nil_r, <- app_assoc. reflexivity.
Qed.

Lemma nlen_snoc {A} (H : list A) a : nlen (H ++ [a]) = nlen H + 1.
Proof. rewrite nlen_app. reflexivity. Qed.

Lemma write_last H a v : exists b, write (H ++ [a]) (nlen H) v = H ++ [b].
Proof. destruct v as [b|]; cbn [write]; [exists b; apply upd_last|exists a; reflexivity]. Qed.

Lemma write_two H a b v w : exists c d, write (write ((H ++ [a]) ++ [b]) (nlen H) v) (nlen (H ++ [a])) w = H ++ [c; d].
Proof.
  assert (Q : forall c d : bytes, (H ++ [c]) ++ [d] = H ++ [c; d]) by (intros c d; rewrite <- app_assoc; reflexivity).
  destruct v as [v|]; cbn [write].
  - rewrite upd_app by (rewrite nlen_snoc; lia). rewrite upd_last.
    replace (nlen (H ++ [a])) with (nlen (H ++ [v])) by (rewrite !nlen_snoc; reflexivity).
    destruct (write_last (H ++ [v]) b w) as [d ->]. exists v, d. apply Q.
  - destruct (write_last (H ++ [a]) b w) as [d ->]. exists a, d. apply Q.
Qed.

Lemma write_pair H a b v w :
  write (write ((H ++ [a]) ++ [b]) (nlen H) (Some v)) (nlen (H ++ [a])) (Some w) = H ++ [v; w].
Proof.
  cbn [write]. rewrite upd_app by (rewrite nlen_snoc; lia). rewrite upd_last.
  replace (nlen (H ++ [a])) with (nlen (H ++ [v])) by (rewrite !nlen_snoc; reflexivity).
  rewrite upd_last, <- app_assoc. reflexivity.
Qed.

Lemma triple_inv {A B C} (a a' : A) (b b' : B) (c c' : C) : (a, b, c) = (a', b', c') -> a = a' /\ b = b' /\ c = c'.
Proof. intros E. apply pair_equal_spec in E. destruct E as [E ->]. apply pair_equal_spec in E. destruct E as [-> ->]. auto. Qed.

Section Objects.
Context {T : Target} {P : Prims} {W : Wide}.

(** no action changes a bytes object that existed before *)
Lemma step_heap os g H op g' H' r : py_step os g H op = (g', H', r) -> exists new, H' = H ++ new.
Proof.
  assert (Same : exists new : heap, H = H ++ new) by (exists []; symmetry; apply app_nil_r).
  assert (End : forall (x : rng_st os) (y : py_result py_ret), (x, H, y) = (g', H', r) -> exists new, H' = H ++ new).
  { intros x y E. apply triple_inv in E. destruct E as (_ & <- & _). exact Same. }
  assert (End2 : forall (x : rng_st os) (y : py_result py_ret) new, (x, H ++ new, y) = (g', H', r) -> exists new, H' = H ++ new).
  { intros x y new E. apply triple_inv in E. destruct E as (_ & <- & _). exists new. reflexivity. }
  destruct op; cbn [py_step].
  - unfold alloc. apply End2.
  - apply End.
  - apply End.
  - unfold py_bytes. destruct k as [[i|s|l [c|]]|[i|s|l [c|]]]; cbn [alloc]; first [apply End | apply End2].
  - apply End.
  - unfold py_obj_keygen, alloc. cbv zeta.
    destruct (ffi_keygen os g _ _) as [g1 [ret [po so]| |]].
    + destruct (write_two H (nrepeat x00 PY_PK_LEN) (nrepeat x00 PY_SK_LEN) po so) as (c & d & ->). apply End2.
    + rewrite <- app_assoc. apply End2.
    + rewrite <- app_assoc. apply End2.
  - unfold py_obj_sign. destruct k as [data|data]; [apply End|]. destruct message as [i|s|l c]; [|apply End..].
    destruct (content H i) as [m|]; [|apply End]. unfold alloc. cbv zeta.
    destruct (struct_arg _ data PY_SK_LEN) as [[key|]|]; [|apply End2..].
    destruct (same_object data i _); [apply End2|].
    destruct (ffi_sign os g _ _ _ _) as [g1 [ret out| |]]; [|apply End2..].
    destruct (write_last H (nrepeat x00 PY_SIG_LEN) out) as (c & ->). apply End2.
  - apply End.
Qed.

(** ** key objects *)
Definition well_made (H : heap) (k : py_key) : Prop :=
  match k with PubObj d => py_len H d = Some 32 | PrivObj d => py_len H d = Some 64 end.

Lemma py_len_old H new d n : py_len H d = Some n -> py_len (H ++ new) d = Some n.
Proof.
  destruct d as [i|s|l c]; cbn [py_len]; [|exact (fun e => e)..].
  destruct (content H i) as [b|] eqn:E; [|discriminate]. rewrite (content_old _ _ _ _ E). exact (fun e => e).
Qed.

Lemma well_made_old H new k : well_made H k -> well_made (H ++ new) k.
Proof. destruct k as [d|d]; cbn [well_made]; apply py_len_old. Qed.

Lemma some_inj {A} (a b : A) : Some a = Some b -> a = b.
Proof. congruence. Qed.

(** the struct argument made from an object of the right length *)
Lemma struct_of H d n : py_len H d = Some n ->
  struct_arg H d n = None \/ exists b, struct_arg H d n = Some (Some b) /\ nlen b = n.
Proof.
  destruct d as [i|s|l c]; cbn [py_len struct_arg].
  - destruct (content H i) as [b|]; [|discriminate]. cbn [option_map]. intros E. apply some_inj in E. right.
    exists (sub_bytes b 0 n). rewrite E, N.leb_refl. split; [reflexivity|]. rewrite <- E, sub_bytes_all. reflexivity.
  - intros E. apply some_inj in E. destruct (wide s) as [b|] eqn:Wb; [|left; reflexivity]. right.
    pose proof (wide_len _ _ Wb) as L. cbn [option_map]. rewrite E in L.
    exists (sub_bytes b 0 n). replace (n <=? nlen b) with true by (symmetry; apply N.leb_le; exact L).
    split; [reflexivity|]. rewrite nlen_sub_bytes; lia.
  - intros _. left. reflexivity.
Qed.

Lemma struct_bytes H i b n : content H i = Some b -> nlen b = n -> struct_arg H (VBytes i) n = Some (Some b).
Proof.
  intros E L. cbn [struct_arg]. rewrite E. cbn [option_map]. rewrite <- L, N.leb_refl, sub_bytes_all. reflexivity.
Qed.

Lemma public_made H d k : py_public H d = PyReturn (RKey k) -> k = PubObj d /\ well_made H k.
Proof.
  unfold py_public. destruct (py_len H d) as [l|] eqn:E; [|discriminate].
  destruct (l =? PY_PK_LEN) eqn:L; [|discriminate]. apply N.eqb_eq in L. intros Q.
  assert (K : k = PubObj d) by congruence. rewrite K. split; [reflexivity|]. cbn [well_made]. rewrite E, L. reflexivity.
Qed.
Lemma private_made H d k : py_private H d = PyReturn (RKey k) -> k = PrivObj d /\ well_made H k.
Proof.
  unfold py_private. destruct (py_len H d) as [l|] eqn:E; [|discriminate].
  destruct (l =? PY_SK_LEN) eqn:L; [|discriminate]. apply N.eqb_eq in L. intros Q.
  assert (K : k = PrivObj d) by congruence. rewrite K. split; [reflexivity|]. cbn [well_made]. rewrite E, L. reflexivity.
Qed.

(** ** the calls *)
Lemma apart_objects d i (m : bytes) : d <> VBytes i -> same_object d i (ctypes_int (nlen m)) = false.
Proof.
  intros D. destruct d as [j|s|l c]; cbn [same_object]; [|reflexivity..].
  destruct (j =? i) eqn:Q; [|reflexivity]. apply N.eqb_eq in Q. subst j. exfalso. apply D. reflexivity.
Qed.

Lemma verify_bytes H d i j m sg key :
  content H i = Some m -> content H j = Some sg -> nlen m < 2 ^ 31 -> nlen m < 2 ^ usize_bits -> i <> j ->
  struct_arg H d 32 = Some (Some key) -> nlen key = 32 -> d <> VBytes i ->
  py_obj_verify H (PubObj d) (VBytes i) (VBytes j) =
    if nlen sg =? 17088
    then PyReturn (RBool (Fips205.slh_verify (fips_params SHA2_128f) (fips_hash SHA2_128f) m sg [] key))
    else PyRaise.
Proof.
  intros Em Es L U D K Lk A. unfold py_obj_verify. rewrite Em, Es. change PY_SIG_LEN with 17088. change PY_PK_LEN with 32.
  destruct (nlen sg =? 17088) eqn:Ls; cbn [negb]; [|reflexivity]. apply N.eqb_eq in Ls.
  rewrite K. rewrite (apart_objects d i m A). cbn [same_object].
  replace (j =? i) with false by (symmetry; apply N.eqb_neq; intros Q; apply D; symmetry; exact Q).
  cbn [andb orb].
  pose proof (proj2 (named_ffi_verify_contract T P (ctypes_int (nlen m)) (Some key) (Some sg)) m m key sg
                (whole_message m L U) eq_refl Lk eq_refl Ls) as V.
  rewrite V. destruct (Fips205.slh_verify _ _ _ _ _ _); reflexivity.
Qed.

Definition sane (H : heap) (issued : list (bytes * bytes * bytes)) : Prop :=
  forall pkb m sigb, In (pkb, m, sigb) issued ->
    nlen pkb = 32 /\ nlen sigb = 17088 /\ nlen m < 2 ^ 31 /\ nlen m < 2 ^ usize_bits /\ verified pkb m sigb.

Lemma step_back os g H objs op : never_panics os -> (forall k, In k objs -> well_made H k) -> py_legal H objs op ->
  exists g' H' r, py_step os g H op = (g', H', r) /\ came_back r.
Proof.
  intros Np Wm Lg.
  assert (R : forall A (a : A), exists v, PyReturn a = PyReturn v) by (intros A a; exists a; reflexivity).
  destruct op; cbn [py_step py_legal] in *.
  - unfold alloc. do 3 eexists. split; [reflexivity|]. left. apply R.
  - do 3 eexists. split; [reflexivity|]. unfold py_public, came_back. destruct (py_len H data); [|right; reflexivity].
    destruct (n =? PY_PK_LEN); [left; apply R|right; reflexivity].
  - do 3 eexists. split; [reflexivity|]. unfold py_private, came_back. destruct (py_len H data); [|right; reflexivity].
    destruct (n =? PY_SK_LEN); [left; apply R|right; reflexivity].
  - unfold py_bytes, came_back.
    destruct k as [[i|s|l [c|]]|[i|s|l [c|]]]; cbn [alloc]; do 3 eexists; (split; [reflexivity|]);
      first [left; apply R | right; reflexivity].
  - do 3 eexists. split; [reflexivity|]. unfold py_repr, came_back. cbv zeta.
    destruct k as [[i|s|l c]|[i|s|l c]]; try (right; reflexivity); (destruct (content H i); [left; apply R|right; reflexivity]).
  - unfold py_obj_keygen, alloc. cbv zeta.
    set (H1 := H ++ [nrepeat x00 PY_PK_LEN]). set (H2 := H1 ++ [nrepeat x00 PY_SK_LEN]).
    destruct (named_ffi_keygen_contract T P os g (content H2 (nlen H)) (content H2 (nlen H1))) as (_ & _ & Rt).
    destruct (Rt Np) as (code & outs & E).
    destruct (ffi_keygen os g (content H2 (nlen H)) (content H2 (nlen H1))) as [g1 r]. cbn [snd] in E. rewrite E.
    destruct outs as [po so]. do 3 eexists. split; [reflexivity|].
    destruct (code =? ERR_OK); cbn [negb]; [|right; reflexivity].
    destruct (py_public _ _) as [[v|k|p s|b|s]| | |]; try (right; reflexivity).
    destruct (py_private _ _) as [[v|k2|p s|b|s]| | |]; try (right; reflexivity). left. apply R.
  - destruct Lg as (Ik & Em & Fm). specialize (Wm k Ik).
    assert (Raised : forall x : heap, exists g' H' r, (g, x, @PyRaise py_ret) = (g', H', r) /\ came_back r)
      by (intros x; do 3 eexists; split; [reflexivity|right; reflexivity]).
    unfold py_obj_sign. destruct k as [d|d]; [apply Raised|]. destruct message as [i|s|l c]; [|apply Raised..].
    destruct (content_some H i (Em i eq_refl)) as [m Ec]. rewrite Ec. destruct (Fm i m eq_refl Ec) as (L & U & D).
    unfold alloc. cbv zeta. set (H1 := H ++ [nrepeat x00 PY_SIG_LEN]).
    change PY_SK_LEN with 64. destruct (struct_of H1 d 64 (py_len_old H _ d 64 Wm)) as [-> | (key & -> & Lk)]; [apply Raised|].
    cbn [data_of] in D. rewrite (apart_objects d i m D).
    assert (Co : content H1 (nlen H) = Some (nrepeat x00 PY_SIG_LEN)) by apply content_last. rewrite Co.
    destruct (sign_returns os g m _ m key (nrepeat x00 PY_SIG_LEN) Np (whole_message m L U) Lk) as (g1 & code & out & E).
    rewrite E. do 3 eexists. split; [reflexivity|]. destruct (code =? ERR_OK); cbn [negb]; [left; apply R|right; reflexivity].
  - destruct Lg as (Ik & Em & Es & Fm & Ne). specialize (Wm k Ik).
    do 3 eexists. split; [reflexivity|].
    destruct k as [d|d]; [|right; reflexivity]. destruct message as [i|s|l c]; [|right; reflexivity..].
    destruct signature as [j|s|l c]; [|right; reflexivity..].
    destruct (content_some H i (Em i eq_refl)) as [m Ec]. destruct (content_some H j (Es j eq_refl)) as [sg Ej].
    destruct (Fm i m eq_refl Ec) as (L & U & D). cbn [data_of] in D.
    assert (Dij : i <> j) by (intros Q; apply Ne; rewrite Q; reflexivity).
    destruct (struct_of H d 32 Wm) as [Z | (key & Z & Lk)].
    + unfold py_obj_verify. rewrite Ec, Ej. change PY_PK_LEN with 32. rewrite Z.
      destruct (negb (nlen sg =? PY_SIG_LEN)); right; reflexivity.
    + rewrite (verify_bytes H d i j m sg key Ec Ej L U Dij Z Lk D).
      destruct (nlen sg =? 17088); [left; apply R|right; reflexivity].
Qed.

(** a signature handed over is verified *)
Lemma step_issue os g H objs op g' H' r :
  (forall k, In k objs -> well_made H k) -> py_legal H objs op -> py_step os g H op = (g', H', r) ->
  sane H' (new_issued H H' op r).
Proof.
  intros Wm Lg E pkb m0 sigb I.
  destruct op; try contradiction I. destruct k as [d|d]; [contradiction I|].
  destruct d as [k|s|l c]; [|contradiction I..]. destruct message as [i|s|l c]; [|contradiction I..].
  destruct r as [[v|k1|p s|b|s]| | |]; try contradiction I. destruct v as [s|s|l c]; [|contradiction I..].
  cbn [new_issued] in I. cbn [py_step] in E. cbn [py_legal] in Lg. destruct Lg as (Ik & Em & Fm).
  pose proof (Wm _ Ik) as Wk. cbn [well_made py_len] in Wk.
  destruct (content H k) as [kb|] eqn:Ek; [|contradiction I]. cbn [option_map] in Wk. apply some_inj in Wk.
  destruct (content H i) as [mb|] eqn:Ei; [|contradiction I].
  destruct (Fm i mb eq_refl Ei) as (L & U & D).
  unfold py_obj_sign in E. rewrite Ei in E. unfold alloc in E. cbv zeta in E.
  set (H1 := H ++ [nrepeat x00 PY_SIG_LEN]) in *.
  change PY_SK_LEN with 64 in E. rewrite (struct_bytes H1 k kb 64 (content_old _ _ _ _ Ek) Wk) in E.
  cbn [data_of] in D. rewrite (apart_objects (VBytes k) i mb D) in E.
  assert (Co : content H1 (nlen H) = Some (nrepeat x00 PY_SIG_LEN)) by apply content_last. rewrite Co in E.
  destruct (ffi_sign os g (Some mb) (ctypes_int (nlen mb)) (Some kb) (Some (nrepeat x00 PY_SIG_LEN))) as [g1 rr] eqn:S.
  destruct rr as [code out| |].
  2,3: apply triple_inv in E; destruct E as (_ & _ & E); discriminate E.
  apply triple_inv in E. destruct E as (_ & EH & Er).
  destruct (code =? ERR_OK) eqn:Cd; cbn [negb] in Er; [|discriminate Er]. apply N.eqb_eq in Cd.
  assert (Es : s = nlen H) by congruence. subst s.
  destruct (sign_cases os g mb _ mb kb _ g1 code out (whole_message mb L U) Wk S) as [[Bad _] | (_ & sig & Eo & Ls & V)].
  { rewrite Cd in Bad. cbn [In] in Bad. unfold ERR_OK in Bad. exfalso. lia. }
  rewrite Eo in EH. cbn [write] in EH. unfold H1 in EH. rewrite upd_last in EH. subst H'.
  rewrite content_last in I. destruct I as [I|[]].
  apply pair_equal_spec in I. destruct I as [I <-]. apply pair_equal_spec in I. destruct I as [<- <-].
  split; [rewrite nlen_sub_bytes; lia|]. split; [exact Ls|]. split; [exact L|]. split; [exact U|exact V].
Qed.

Lemma step_objs os g H op g' H' r : py_step os g H op = (g', H', r) ->
  forall k, In k (new_objs r) -> well_made H' k.
Proof.
  intros E k I.
  destruct op; cbn [py_step] in E.
  - apply triple_inv in E. destruct E as (_ & _ & <-). contradiction I.
  - apply triple_inv in E. destruct E as (_ & <- & E).
    destruct r as [[v|k1|p s|b|s]| | |]; try contradiction I.
    + destruct I as [<-|[]]. apply (public_made H data k1 E).
    + unfold py_public in E. destruct (py_len H data); [|discriminate E]. destruct (n =? PY_PK_LEN); discriminate E.
  - apply triple_inv in E. destruct E as (_ & <- & E).
    destruct r as [[v|k1|p s|b|s]| | |]; try contradiction I.
    + destruct I as [<-|[]]. apply (private_made H data k1 E).
    + unfold py_private in E. destruct (py_len H data); [|discriminate E]. destruct (n =? PY_SK_LEN); discriminate E.
  - unfold py_bytes in E.
    destruct k0 as [[i|s|l [c|]]|[i|s|l [c|]]]; cbn [alloc] in E;
      apply triple_inv in E; destruct E as (_ & _ & <-); contradiction I.
  - apply triple_inv in E. destruct E as (_ & _ & <-). unfold py_repr in I. cbv zeta in I.
    destruct k0 as [[i|s|l c]|[i|s|l c]]; try contradiction I; (destruct (content H i); contradiction I).
  - unfold py_obj_keygen, alloc in E. cbv zeta in E.
    destruct (ffi_keygen os g _ _) as [g1 [code [po so]| |]].
    2,3: apply triple_inv in E; destruct E as (_ & _ & <-); contradiction I.
    apply triple_inv in E. destruct E as (_ & EH & <-). rewrite EH in I.
    destruct (negb (code =? ERR_OK)); [contradiction I|].
    destruct (py_public H' _) as [[v|k1|p s|b|s]| | |] eqn:Q1; try contradiction I.
    destruct (py_private H' _) as [[v|k2|p s|b|s]| | |] eqn:Q2; try contradiction I.
    cbn [new_objs In] in I. destruct I as [<-|[<-|[]]].
    + apply (public_made _ _ _ Q1).
    + apply (private_made _ _ _ Q2).
  - unfold py_obj_sign in E.
    assert (No : forall (x : rng_st os) (y : heap) q, new_objs q = [] -> (x, y, q) = (g', H', r) -> well_made H' k).
    { intros x y q Z Q. apply triple_inv in Q. destruct Q as (_ & _ & <-). rewrite Z in I. contradiction I. }
    destruct k0 as [d|d]; [refine (No _ _ _ _ E); reflexivity|].
    destruct message as [i|s|l c]; [|refine (No _ _ _ _ E); reflexivity..].
    destruct (content H i); [|refine (No _ _ _ _ E); reflexivity]. unfold alloc in E. cbv zeta in E.
    destruct (struct_arg _ d PY_SK_LEN) as [[key|]|]; [|refine (No _ _ _ _ E); reflexivity..].
    destruct (same_object d i _); [refine (No _ _ _ _ E); reflexivity|].
    destruct (ffi_sign os g _ _ _ _) as [g1 [code out| |]]; [|refine (No _ _ _ _ E); reflexivity..].
    refine (No _ _ _ _ E). destruct (negb (code =? ERR_OK)); reflexivity.
  - apply triple_inv in E. destruct E as (_ & _ & <-). unfold py_obj_verify in I. exfalso.
    destruct k0 as [d|d]; [|contradiction I]. destruct message as [i|s|l c]; [|contradiction I..].
    destruct signature as [j|s|l c]; [|contradiction I..].
    destruct (content H i) as [m|]; [|contradiction I]. destruct (content H j) as [sg|]; [|contradiction I].
    destruct (negb (nlen sg =? PY_SIG_LEN)); [contradiction I|].
    destruct (struct_arg H d PY_PK_LEN) as [[key|]|]; [|contradiction I..].
    destruct (same_object d i _ || _); [contradiction I|].
    destruct (ffi_verify _ _ _ _) as [code out| |]; [|contradiction I..].
    destruct (negb (code =? ERR_OK) && negb (code =? ERR_VERIFY_ERROR)); contradiction I.
Qed.

(** a pair handed over by keygen: the private half imports and holds the public half *)
Definition good_pairs (pairs : list (bytes * bytes)) : Prop :=
  forall pkb skb, In (pkb, skb) pairs -> good_sk skb /\ pkb = sub_bytes skb 32 64.

Lemma step_pairs os g H op g' H' r : py_step os g H op = (g', H', r) -> good_pairs (new_pairs H' r).
Proof.
  intros E pkb skb I.
  assert (No : (forall a b, r <> PyReturn (RPair a b)) -> good_sk skb /\ pkb = sub_bytes skb 32 64).
  { intros N. exfalso. destruct r as [[v|k1|p s|b|s]| | |]; try contradiction I. exact (N p s eq_refl). }
  destruct op; cbn [py_step] in E.
  - apply No. apply triple_inv in E. destruct E as (_ & _ & <-). discriminate.
  - apply No. apply triple_inv in E. destruct E as (_ & _ & <-). unfold py_public.
    destruct (py_len H data); [|discriminate]. destruct (n =? PY_PK_LEN); discriminate.
  - apply No. apply triple_inv in E. destruct E as (_ & _ & <-). unfold py_private.
    destruct (py_len H data); [|discriminate]. destruct (n =? PY_SK_LEN); discriminate.
  - apply No. unfold py_bytes in E.
    destruct k as [[i|s|l [c|]]|[i|s|l [c|]]]; cbn [alloc] in E;
      apply triple_inv in E; destruct E as (_ & _ & <-); discriminate.
  - apply No. apply triple_inv in E. destruct E as (_ & _ & <-). unfold py_repr. cbv zeta.
    destruct k as [[i|s|l c]|[i|s|l c]]; try discriminate; (destruct (content H i); discriminate).
  - unfold py_obj_keygen, alloc in E. cbv zeta in E.
    set (H1 := H ++ [nrepeat x00 PY_PK_LEN]) in E. set (H2 := H1 ++ [nrepeat x00 PY_SK_LEN]) in E.
    destruct (ffi_keygen os g (content H2 (nlen H)) (content H2 (nlen H1))) as [g1 rr] eqn:K.
    destruct rr as [code [po so]| |].
    2,3: apply No; apply triple_inv in E; destruct E as (_ & _ & <-); discriminate.
    apply triple_inv in E. destruct E as (_ & EH & Er). rewrite EH in Er.
    destruct (code =? ERR_OK) eqn:Cd; cbn [negb] in Er; [|apply No; rewrite <- Er; discriminate]. apply N.eqb_eq in Cd.
    destruct (keygen_cases os g _ _ g1 code (po, so) K) as [[Bad _] | (_ & _ & _ & sb & Lb & Gd & Eo)].
    { rewrite Cd in Bad. cbn [In] in Bad. unfold ERR_OK in Bad. exfalso. lia. }
    apply pair_equal_spec in Eo. destruct Eo as [-> ->]. unfold H2, H1 in EH. rewrite write_pair in EH.
    assert (D1 : content H' (nlen H) = Some (sub_bytes sb 32 64)).
    { rewrite <- EH. change [sub_bytes sb 32 64; sb] with ([sub_bytes sb 32 64] ++ [sb]). rewrite app_assoc. apply content_old, content_last. }
    assert (D2 : content H' (nlen H1) = Some sb).
    { rewrite <- EH. change [sub_bytes sb 32 64; sb] with ([sub_bytes sb 32 64] ++ [sb]).
      unfold H1. rewrite app_assoc, nlen_snoc, <- (nlen_snoc H (sub_bytes sb 32 64)). apply content_last. }
    destruct (py_public H' _) as [[v|k1|p s|b|s]| | |] eqn:Q1; try (apply No; rewrite <- Er; discriminate).
    destruct (py_private H' _) as [[v|k2|p s|b|s]| | |] eqn:Q2; try (apply No; rewrite <- Er; discriminate).
    destruct (public_made _ _ _ Q1) as [-> _]. destruct (private_made _ _ _ Q2) as [-> _].
    rewrite <- Er in I. cbn [new_pairs] in I. rewrite D1, D2 in I. destruct I as [I|[]].
    apply pair_equal_spec in I. destruct I as [<- <-]. split; [exact Gd|reflexivity].
  - apply No. unfold py_obj_sign in E.
    assert (No2 : forall (x : rng_st os) (y : heap) q, (forall a b, q <> PyReturn (RPair a b)) -> (x, y, q) = (g', H', r) ->
              forall a b, r <> PyReturn (RPair a b)).
    { intros x y q Z Q. apply triple_inv in Q. destruct Q as (_ & _ & <-). exact Z. }
    destruct k as [d|d]; [refine (No2 _ _ _ _ E); discriminate|].
    destruct message as [i|s|l c]; [|refine (No2 _ _ _ _ E); discriminate..].
    destruct (content H i); [|refine (No2 _ _ _ _ E); discriminate]. unfold alloc in E. cbv zeta in E.
    destruct (struct_arg _ d PY_SK_LEN) as [[key|]|]; [|refine (No2 _ _ _ _ E); discriminate..].
    destruct (same_object d i _); [refine (No2 _ _ _ _ E); discriminate|].
    destruct (ffi_sign os g _ _ _ _) as [g1 [code out| |]]; [|refine (No2 _ _ _ _ E); discriminate..].
    refine (No2 _ _ _ _ E). destruct (negb (code =? ERR_OK)); discriminate.
  - apply No. apply triple_inv in E. destruct E as (_ & _ & <-). unfold py_obj_verify.
    destruct k as [d|d]; [|discriminate]. destruct message as [i|s|l c]; [|discriminate..].
    destruct signature as [j|s|l c]; [|discriminate..].
    destruct (content H i) as [m|]; [|discriminate]. destruct (content H j) as [sg|]; [|discriminate].
    destruct (negb (nlen sg =? PY_SIG_LEN)); [discriminate|].
    destruct (struct_arg H d PY_PK_LEN) as [[key|]|]; [|discriminate..].
    destruct (same_object d i _ || _); [discriminate|].
    destruct (ffi_verify _ _ _ _) as [code out| |]; [|discriminate..].
    destruct (negb (code =? ERR_OK) && negb (code =? ERR_VERIFY_ERROR)); discriminate.
Qed.

Lemma history_inv os g0 H0 g H objs pairs issued : py_history os g0 H0 g H objs pairs issued ->
  (exists new, H = H0 ++ new) /\ (forall k, In k objs -> well_made H k) /\ good_pairs pairs /\ sane H issued.
Proof.
  intros Hi. induction Hi as [|g H objs pairs issued op g' H' r Hi IH Lg E Cb].
  - split; [exists []; symmetry; apply app_nil_r|]. split; [intros k []|]. split; [intros a b []|intros a b c []].
  - destruct IH as ((new & En) & Wm & Gp & Sn). destruct (step_heap os g H op g' H' r E) as [new' En'].
    split; [exists (new ++ new'); rewrite En', En, app_assoc; reflexivity|]. split; [|split].
    + intros k I. apply in_app_iff in I. destruct I as [I|I].
      * exact (step_objs os g H op g' H' r E k I).
      * rewrite En'. apply well_made_old, Wm, I.
    + intros pkb skb I. apply in_app_iff in I. destruct I as [I|I].
      * exact (step_pairs os g H op g' H' r E pkb skb I).
      * exact (Gp pkb skb I).
    + intros pkb m sigb I. apply in_app_iff in I. destruct I as [I|I].
      * exact (step_issue os g H objs op g' H' r Wm Lg E pkb m sigb I).
      * exact (Sn pkb m sigb I).
Qed.
End Objects.

Lemma prop_python_object_calls :
  forall (T : Target) (P : Prims) (W : Wide) (os : Rng) (g : rng_st os) (H : heap),
    let ps := fips_params SHA2_128f in
    let hs := fips_hash SHA2_128f in
    (forall v, py_step os g H (PPublic v) = (g, H, if match py_len H v with Some l => l =? 32 | None => false end
                                                   then PyReturn (RKey (PubObj v)) else PyRaise)) /\
    (forall v, py_step os g H (PPrivate v) = (g, H, if match py_len H v with Some l => l =? 64 | None => false end
                                                    then PyReturn (RKey (PrivObj v)) else PyRaise)) /\
    (forall a b c g1 g2 g3, gives os g 16 a g1 -> gives os g1 16 b g2 -> gives os g2 16 c g3 ->
       exists PK SK, Fips205.slh_keygen_internal ps hs a b c = (SK, PK) /\
         py_step os g H PKeygen =
           (g3, H ++ [PK; SK], PyReturn (RPair (PubObj (VBytes (nlen H))) (PrivObj (VBytes (nlen H + 1)))))) /\
    (refuses os g 16 \/
     (exists a g1, gives os g 16 a g1 /\ refuses os g1 16) \/
     (exists a b g1 g2, gives os g 16 a g1 /\ gives os g1 16 b g2 /\ refuses os g2 16) ->
     snd (py_step os g H PKeygen) = PyRaise) /\
    (forall i m, content H i = Some m -> nlen m < 2 ^ 31 -> nlen m < 2 ^ usize_bits ->
       (forall k SK, content H k = Some SK -> nlen SK = 64 -> k <> i ->
          let sign := py_step os g H (PSign (PrivObj (VBytes k)) (VBytes i)) in
          let '(_, PK) := Fips205.slh_keygen_internal ps hs (sub_bytes SK 0 16) (sub_bytes SK 16 32) (sub_bytes SK 32 48) in
          (PK <> sub_bytes SK 32 64 -> fst (fst sign) = g /\ snd sign = PyRaise) /\
          (PK = sub_bytes SK 32 64 -> refuses os g 16 -> snd sign = PyRaise) /\
          (PK = sub_bytes SK 32 64 -> forall b g', gives os g 16 b g' ->
             exists sig, sign = (g', H ++ [sig], PyReturn (RValue (VBytes (nlen H)))) /\
               Some sig = Fips205.slh_sign ps hs m [] SK (Some (Some b)))) /\
       (forall k PK j sig, content H k = Some PK -> nlen PK = 32 -> k <> i -> content H j = Some sig -> j <> i ->
          py_step os g H (PVerify (PubObj (VBytes k)) (VBytes i) (VBytes j)) =
            (g, H, if nlen sig =? sig_size SHA2_128f then PyReturn (RBool (Fips205.slh_verify ps hs m sig [] PK)) else PyRaise))) /\
    (forall k m, (forall i, m <> VBytes i) -> py_step os g H (PSign k m) = (g, H, PyRaise)) /\
    (forall k m sig, (forall i, m <> VBytes i) \/ (forall j, sig <> VBytes j) ->
       py_step os g H (PVerify k m sig) = (g, H, PyRaise)).
Proof.
  intros T P W os g H ps hs.
  refine (conj _ (conj _ (conj _ (conj _ (conj _ (conj _ _)))))).
  - intros v. cbn [py_step]. unfold py_public. destruct (py_len H v); reflexivity.
  - intros v. cbn [py_step]. unfold py_private. destruct (py_len H v); reflexivity.
  - intros a b c g1 g2 g3 E1 E2 E3. cbn [py_step]. unfold py_obj_keygen, alloc. cbv zeta.
    set (H1 := H ++ [nrepeat x00 PY_PK_LEN]). set (H2 := H1 ++ [nrepeat x00 PY_SK_LEN]).
    assert (C1 : content H2 (nlen H) = Some (nrepeat x00 PY_PK_LEN)) by (apply content_old, content_last).
    assert (C2 : content H2 (nlen H1) = Some (nrepeat x00 PY_SK_LEN)) by apply content_last.
    pose proof (named_ffi_keygen_contract T P os g (content H2 (nlen H)) (content H2 (nlen H1))) as C.
    cbv zeta in C. destruct C as [_ [C _]].
    destruct (C ltac:(rewrite C1; discriminate) ltac:(rewrite C2; discriminate)) as [_ C3].
    destruct (C3 a b c g1 g2 g3 E1 E2 E3) as (pk & sk & pkb & skb & R & G & F & _ & _ & L1 & _ & L2). clear C C3.
    destruct (ffi_keygen os g (content H2 (nlen H)) (content H2 (nlen H1))) as [g' r]. cbn [fst snd] in R, G. rewrite R, G.
    exists pkb, skb. split; [exact F|]. unfold H2, H1. rewrite write_pair.
    replace (nlen (H ++ [nrepeat x00 PY_PK_LEN])) with (nlen H + 1) by (rewrite nlen_snoc; reflexivity).
    change (negb (SLH_DSA_OK =? ERR_OK)) with false. cbv iota.
    assert (D1 : content (H ++ [pkb; skb]) (nlen H) = Some pkb).
    { change [pkb; skb] with ([pkb] ++ [skb]). rewrite app_assoc. apply content_old, content_last. }
    assert (D2 : content (H ++ [pkb; skb]) (nlen H + 1) = Some skb).
    { change [pkb; skb] with ([pkb] ++ [skb]). rewrite app_assoc, <- (nlen_snoc H pkb). apply content_last. }
    unfold py_public, py_private. cbn [py_len]. rewrite D1, D2. cbn [option_map]. rewrite L1, L2.
    change (pk_size SHA2_128f =? PY_PK_LEN) with true. change (sk_size SHA2_128f =? PY_SK_LEN) with true. cbv iota. reflexivity.
  - intros R. cbn [py_step]. unfold py_obj_keygen, alloc. cbv zeta.
    set (H1 := H ++ [nrepeat x00 PY_PK_LEN]). set (H2 := H1 ++ [nrepeat x00 PY_SK_LEN]).
    assert (C1 : content H2 (nlen H) = Some (nrepeat x00 PY_PK_LEN)) by (apply content_old, content_last).
    assert (C2 : content H2 (nlen H1) = Some (nrepeat x00 PY_SK_LEN)) by apply content_last.
    pose proof (named_ffi_keygen_contract T P os g (content H2 (nlen H)) (content H2 (nlen H1))) as C.
    cbv zeta in C. destruct C as [_ [C _]].
    destruct (C ltac:(rewrite C1; discriminate) ltac:(rewrite C2; discriminate)) as [C3 _]. specialize (C3 R).
    destruct (ffi_keygen os g (content H2 (nlen H)) (content H2 (nlen H1))) as [g' r]. cbn [snd] in C3. rewrite C3. reflexivity.
  - intros i m Ei L U. pose proof (whole_message m L U) as C. split.
    + intros k SK Ek Lk D sign.
      assert (Ap : sub_bytes SK 32 48 ++ sub_bytes SK 48 64 = sub_bytes SK 32 64) by (apply sub_bytes_split; lia).
      set (H1 := H ++ [nrepeat x00 PY_SIG_LEN]).
      assert (No : Some (nrepeat x00 PY_SIG_LEN) <> None) by discriminate.
      pose proof (proj2 (named_ffi_sign_contract T P os g (ctypes_int (nlen m)) (Some SK) (Some (nrepeat x00 PY_SIG_LEN)))
                    m m SK C eq_refl Lk No) as S. cbv zeta in S. fold ps hs in S. rewrite Ap in S.
      assert (E : sign =
                  let (g, r) := ffi_sign os g (Some m) (ctypes_int (nlen m)) (Some SK) (Some (nrepeat x00 PY_SIG_LEN)) in
                  match r with
                  | FReturn ret out => (g, write H1 (nlen H) out,
                      if negb (ret =? ERR_OK) then PyRaise else PyReturn (RValue (VBytes (nlen H))))
                  | FAbort => (g, H1, PyAbort)
                  | FUB => (g, H1, PyUB)
                  end).
      { unfold sign. cbn [py_step]. unfold py_obj_sign. rewrite Ei. unfold alloc. cbv zeta. fold H1.
        change PY_SK_LEN with 64. rewrite (struct_bytes H1 k SK 64 (content_old _ _ _ _ Ek) Lk).
        rewrite (apart_objects (VBytes k) i m) by (intros Q; apply D; congruence).
        replace (content H1 (nlen H)) with (Some (nrepeat x00 PY_SIG_LEN)) by (symmetry; apply content_last). reflexivity. }
      clearbody sign. subst sign.
      destruct (Fips205.slh_keygen_internal ps hs _ _ _) as [SK0 PK]. destruct S as [S1 [S2 S3]]. split; [|split].
      * intros Q. rewrite (S1 Q). split; reflexivity.
      * intros Q R. specialize (S2 Q R).
        destruct (ffi_sign os g (Some m) (ctypes_int (nlen m)) (Some SK) (Some (nrepeat x00 PY_SIG_LEN))) as [g' r].
        cbn [snd] in S2. rewrite S2. reflexivity.
      * intros Q b g' G. destruct (S3 Q b g' G) as [sig [-> [Ls [F V]]]]. exists sig.
        change (negb (SLH_DSA_OK =? ERR_OK)) with false. cbv iota. cbn [write]. unfold H1. rewrite upd_last.
        split; [reflexivity|exact F].
    + intros k PK j sig Ek Lk D Ej D2. cbn [py_step].
      rewrite (verify_bytes H (VBytes k) i j m sig PK Ei Ej L U (fun q => D2 (eq_sym q)) (struct_bytes H k PK 32 Ek Lk) Lk)
        by (intros Q; apply D; congruence).
      reflexivity.
  - intros k m N. cbn [py_step]. unfold py_obj_sign. destruct k; [reflexivity|].
    destruct m as [i|s|l c]; [|reflexivity..]. exfalso. exact (N i eq_refl).
  - intros k m sig N. cbn [py_step]. unfold py_obj_verify. destruct k; [|reflexivity].
    destruct m as [i|s|l c]; [|reflexivity..]. destruct sig as [j|s|l c]; [|reflexivity..].
    exfalso. destruct N as [N|N]; [exact (N i eq_refl)|exact (N j eq_refl)].
Qed.

Lemma prop_python_program_histories :
  forall (T : Target) (P : Prims) (W : Wide) (os : Rng) (g0 g : rng_st os) (H0 H : heap)
         (objs : list py_key) (pairs : list (bytes * bytes)) (issued : list (bytes * bytes * bytes)),
    py_history os g0 H0 g H objs pairs issued ->
    (never_panics os -> forall op, py_legal H objs op ->
       exists g' H' r, py_step os g H op = (g', H', r) /\ came_back r) /\
    (forall i bs, content H0 i = Some bs -> content H i = Some bs) /\
    (forall op g' H' r, py_step os g H op = (g', H', r) ->
       forall i bs, content H i = Some bs -> content H' i = Some bs) /\
    (forall pkb m sigb, In (pkb, m, sigb) issued ->
       forall i j k, content H i = Some pkb -> content H j = Some m -> content H k = Some sigb -> i <> j -> j <> k ->
         py_step os g H (PPublic (VBytes i)) = (g, H, PyReturn (RKey (PubObj (VBytes i)))) /\
         py_step os g H (PVerify (PubObj (VBytes i)) (VBytes j) (VBytes k)) = (g, H, PyReturn (RBool true))) /\
    (forall pkb skb, In (pkb, skb) pairs ->
       sub_bytes skb 32 64 = pkb /\
       forall i k m, content H k = Some skb -> content H i = Some m -> k <> i -> nlen m < 2 ^ 31 -> nlen m < 2 ^ usize_bits ->
         py_step os g H (PPrivate (VBytes k)) = (g, H, PyReturn (RKey (PrivObj (VBytes k)))) /\
         (refuses os g 16 -> snd (py_step os g H (PSign (PrivObj (VBytes k)) (VBytes i))) = PyRaise) /\
         (forall b g', gives os g 16 b g' ->
            exists sig, py_step os g H (PSign (PrivObj (VBytes k)) (VBytes i)) =
                          (g', H ++ [sig], PyReturn (RValue (VBytes (nlen H)))))).
Proof.
  intros T P W os g0 g H0 H objs pairs issued Hi.
  destruct (history_inv os g0 H0 g H objs pairs issued Hi) as ((new & En) & Wm & Gp & Sn).
  refine (conj _ (conj _ (conj _ (conj _ _)))).
  - intros Np op Lg. exact (step_back os g H objs op Np Wm Lg).
  - intros i bs E. rewrite En. apply content_old. exact E.
  - intros op g' H' r E i bs Ei. destruct (step_heap os g H op g' H' r E) as [n' ->]. apply content_old. exact Ei.
  - intros pkb m sigb I i j k Ei Ej Ek D1 D2. destruct (Sn pkb m sigb I) as (L1 & L2 & L & U & V).
    cbn [py_step]. split.
    + unfold py_public. cbn [py_len]. rewrite Ei. cbn [option_map]. rewrite L1. reflexivity.
    + rewrite (verify_bytes H (VBytes i) j k m sigb pkb Ej Ek L U D2 (struct_bytes H i pkb 32 Ei L1) L1)
        by (intros Q; apply D1; congruence).
      rewrite L2. unfold verified in V. rewrite V. reflexivity.
  - intros pkb skb I. destruct (Gp pkb skb I) as [Gd ->]. split; [reflexivity|].
    intros i k m Ek Ei D L U. pose proof (proj1 Gd) as Lk.
    split; [cbn [py_step]; unfold py_private; cbn [py_len]; rewrite Ek; cbn [option_map]; rewrite Lk; reflexivity|].
    destruct (prop_python_object_calls T P W os g H) as (_ & _ & _ & _ & C & _).
    destruct (C i m Ei L U) as [S _]. specialize (S k skb Ek Lk D). cbv zeta in S.
    pose proof (good_consistent skb Gd) as Q. rewrite (sub_bytes_split skb 32 48 64) in Q by lia.
    destruct (Fips205.slh_keygen_internal _ _ _ _ _) as [SK0 PK]. cbn [snd] in Q. destruct S as [_ [S2 S3]].
    split; [exact (S2 Q)|]. intros b g' G. destruct (S3 Q b g' G) as (sig & E & _). exists sig. exact E.
Qed.

(** ** what the wrapper gets wrong *)
Lemma prop_python_own_bytes_refuted :
  forall (T : Target) (P : Prims) (W : Wide) (os : Rng) (g : rng_st os) (H : heap) (i : N) (key : bytes),
    content H i = Some key ->
    (nlen key = 32 -> forall j sig, content H j = Some sig -> nlen sig = sig_size SHA2_128f ->
       py_step os g H (PBytes (PubObj (VBytes i))) = (g, H, PyReturn (RValue (VBytes i))) /\
       py_step os g H (PVerify (PubObj (VBytes i)) (VBytes i) (VBytes j)) = (g, H, PyUB)) /\
    (nlen key = 64 ->
       py_step os g H (PBytes (PrivObj (VBytes i))) = (g, H, PyReturn (RValue (VBytes i))) /\
       snd (py_step os g H (PSign (PrivObj (VBytes i)) (VBytes i))) = PyUB).
Proof.
  intros T P W os g H i key E. split.
  - intros L j sig Ej Ls. split; [reflexivity|]. cbn [py_step]. unfold py_obj_verify. rewrite E, Ej.
    change PY_SIG_LEN with (sig_size SHA2_128f). rewrite Ls, N.eqb_refl. cbn [negb].
    change PY_PK_LEN with 32. rewrite (struct_bytes H i key 32 E L), L. cbn [same_object]. rewrite N.eqb_refl. reflexivity.
  - intros L. split; [reflexivity|]. cbn [py_step]. unfold py_obj_sign. rewrite E. unfold alloc. cbv zeta.
    change PY_SK_LEN with 64. rewrite (struct_bytes _ i key 64 (content_old _ _ _ _ E) L), L. cbn [same_object].
    rewrite N.eqb_refl. reflexivity.
Qed.

Lemma prop_python_text_keys_refuted :
  forall (T : Target) (P : Prims) (W : Wide) (os : Rng) (g : rng_st os) (H : heap) (s : list N) (w : bytes),
    nlen s = 32 -> wide s = Some w ->
    py_step os g H (PPublic (VStr s)) = (g, H, PyReturn (RKey (PubObj (VStr s)))) /\
    py_step os g H (PBytes (PubObj (VStr s))) = (g, H, PyRaise) /\
    forall i j m sig, content H i = Some m -> nlen m < 2 ^ 31 -> nlen m < 2 ^ usize_bits ->
      content H j = Some sig -> nlen sig = sig_size SHA2_128f -> i <> j ->
      py_step os g H (PVerify (PubObj (VStr s)) (VBytes i) (VBytes j)) =
        (g, H, PyReturn (RBool (Fips205.slh_verify (fips_params SHA2_128f) (fips_hash SHA2_128f) m sig [] (sub_bytes w 0 32)))).
Proof.
  intros T P W os g H s w L Ew. pose proof (wide_len _ _ Ew) as Lw. rewrite L in Lw.
  refine (conj _ (conj eq_refl _)).
  - cbn [py_step]. unfold py_public. cbn [py_len]. rewrite L. reflexivity.
  - intros i j m sig Ei Lm U Ej Ls D. cbn [py_step].
    assert (K : struct_arg H (VStr s) 32 = Some (Some (sub_bytes w 0 32))).
    { cbn [struct_arg]. rewrite Ew. cbn [option_map]. replace (32 <=? nlen w) with true by (symmetry; apply N.leb_le; exact Lw). reflexivity. }
    rewrite (verify_bytes H (VStr s) i j m sig _ Ei Ej Lm U D K) by first [rewrite nlen_sub_bytes; lia | discriminate].
    change 17088 with (sig_size SHA2_128f). rewrite Ls, N.eqb_refl. reflexivity.
Qed.

(** reading a printed key back *)
Definition hex_val (c : Ascii.ascii) : N := let v := Ascii.N_of_ascii c in if v <? 58 then v - 48 else v - 87.
Fixpoint unhex (s : string) : bytes :=
  match s with
  | String a (String b rest) => n2b (16 * hex_val a + hex_val b) :: unhex rest
  | _ => []
  end.
Fixpoint skip (n : nat) (s : string) : string :=
  match n, s with S n, String _ s => skip n s | _, _ => s end.

Lemma unhex_byte b : n2b (16 * hex_val (hex_digit (b2n b / 16)) + hex_val (hex_digit (b2n b mod 16))) = b.
Proof. destruct b; vm_compute; reflexivity. Qed.

Lemma unhex_hex bs : unhex (hex bs ++ ">")%string = bs.
Proof.
  induction bs as [|b bs IH]; [reflexivity|]. cbn [hex append unhex]. rewrite IH, unhex_byte. reflexivity.
Qed.

Lemma prop_python_repr_hides_key_refuted :
  forall (T : Target) (P : Prims) (W : Wide),
    exists read_back : string -> bytes,
      forall (os : Rng) (g : rng_st os) (H : heap) (i : N) (SK : bytes), content H i = Some SK ->
        exists text, py_step os g H (PRepr (PrivObj (VBytes i))) = (g, H, PyReturn (RText text)) /\ read_back text = SK.
Proof.
  intros T P W. exists (fun s => unhex (skip 32 s)). intros os g H i SK E.
  exists ("<slh_dsa_sha2_128f private key: " ++ hex SK ++ ">")%string. split.
  - cbn [py_step]. unfold py_repr. cbv zeta. rewrite E. reflexivity.
  - cbn [append skip]. apply unhex_hex.
Qed.
