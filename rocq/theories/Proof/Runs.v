(** The judgement [runs m a L]: the computation returns [a] without error or panic, and its calls
    to the keyed hash functions and to the random generator are exactly [L], in order. *)
From Verif Require Export Machine Model.Params.

Definition is_call (e : event) : bool :=
  match e with
  | EHash _ _ _ _ | EHmsg _ _ _ _ | EPrfMsg _ _ _ | ERng _ => true
  | _ => false
  end.

Definition calls (t : list event) : list event := filter is_call t.

Lemma calls_app a b : calls (a ++ b) = calls a ++ calls b.
Proof. apply filter_app. Qed.

Definition runs {A} (m : M A) (a : A) (L : list event) : Prop :=
  result m = Val a /\ calls (trace m) = L.

Lemma runs_vals {A} (m : M A) a L : runs m a L -> vals m a.
Proof. intros [H _]. exact H. Qed.

Lemma runs_ret {A} (a : A) : runs (ret a) a [].
Proof. split; reflexivity. Qed.

Lemma runs_ret_eq {A} (a b : A) : a = b -> runs (ret a) b [].
Proof. intros ->. apply runs_ret. Qed.

Lemma runs_eq {A} (m : M A) a b L1 L2 : runs m a L1 -> a = b -> L1 = L2 -> runs m b L2.
Proof. intros H -> ->. exact H. Qed.

Lemma runs_bind {A B} (m : M A) (k : A -> M B) a b L1 L2 :
  runs m a L1 -> runs (k a) b L2 -> runs (bind m k) b (L1 ++ L2).
Proof.
  intros [Ha La] [Hb Lb]. split.
  - rewrite result_bind, Ha. exact Hb.
  - rewrite (trace_bind _ _ _ Ha), calls_app, La, Lb. reflexivity.
Qed.

Lemma runs_bind0 {A B} (m : M A) (k : A -> M B) a b L :
  runs m a [] -> runs (k a) b L -> runs (bind m k) b L.
Proof. intros H1 H2. apply (runs_bind _ _ _ _ _ _ H1 H2). Qed.

Lemma runs_bind_r {A B} (m : M A) (k : A -> M B) a b L :
  runs m a L -> runs (k a) b [] -> runs (bind m k) b L.
Proof. intros H1 H2. rewrite <- (app_nil_r L). apply (runs_bind _ _ _ _ _ _ H1 H2). Qed.

Lemma runs_inj {A} (m : M A) a b L1 L2 : runs m a L1 -> runs m b L2 -> a = b /\ L1 = L2.
Proof. intros [H1 H2] [H3 H4]. split; congruence. Qed.

Lemma runs_tick_quiet {A} e (k : unit -> M A) a L :
  is_call e = false -> runs (k tt) a L -> runs (bind (tick e) k) a L.
Proof.
  intros He H. apply (runs_bind0 _ _ tt); [|exact H].
  split; [reflexivity|]. cbn. rewrite He. reflexivity.
Qed.

Lemma runs_tick_call {A} e (k : unit -> M A) a L :
  is_call e = true -> runs (k tt) a L -> runs (bind (tick e) k) a (e :: L).
Proof.
  intros He H. apply (runs_bind (tick e) k tt a [e] L); [|exact H].
  split; [reflexivity|]. cbn. rewrite He. reflexivity.
Qed.

Lemma runs_branch b : runs (branch b) b [].
Proof. split; reflexivity. Qed.

Lemma runs_branch_bind {A} b (k : bool -> M A) a L :
  runs (k b) a L -> runs (bind (branch b) k) a L.
Proof. apply runs_bind0. apply runs_branch. Qed.

Lemma runs_same_bytes a : forall b, runs (same_bytes a b) (bytes_eqb a b) [].
Proof.
  induction a as [|x a IH]; intros [|y b]; cbn [same_bytes bytes_eqb]; try apply runs_ret.
  apply runs_branch_bind. destruct (byte_eqb x y); cbn [andb]; [apply IH|apply runs_ret].
Qed.

(** ** Arithmetic with concrete bounds *)
Section Arith.
Context {T : Target}.

Lemma usize_lo : 65536 <= 2 ^ bits Usize.
Proof. exact usize_16. Qed.

Lemma add_u32 a b : a + b < 4294967296 -> add U32 a b = ret (a + b).
Proof. exact (add_ok U32 a b). Qed.
Lemma add_u64 a b : a + b < 18446744073709551616 -> add U64 a b = ret (a + b).
Proof. exact (add_ok U64 a b). Qed.
Lemma add_us a b : a + b < 65536 -> add Usize a b = ret (a + b).
Proof. intros H. apply add_ok. pose proof usize_lo. lia. Qed.
Lemma mul_u32 a b : a * b < 4294967296 -> mul U32 a b = ret (a * b).
Proof. exact (mul_ok U32 a b). Qed.
Lemma mul_us a b : a * b < 65536 -> mul Usize a b = ret (a * b).
Proof. intros H. apply mul_ok. pose proof usize_lo. lia. Qed.
Lemma shl_u32 a s : s < 32 -> shl U32 a s = ret (a * 2 ^ s mod 4294967296).
Proof. intros H. rewrite shl_ok by exact H. rewrite N.shiftl_mul_pow2. reflexivity. Qed.
Lemma shl_u64 a s : s < 64 -> shl U64 a s = ret (a * 2 ^ s mod 18446744073709551616).
Proof. intros H. rewrite shl_ok by exact H. rewrite N.shiftl_mul_pow2. reflexivity. Qed.
Lemma shr_u32 a s : s < 32 -> shr U32 a s = ret (a / 2 ^ s).
Proof. intros H. rewrite shr_ok by exact H. rewrite N.shiftr_div_pow2. reflexivity. Qed.
Lemma shr_u64 a s : s < 64 -> shr U64 a s = ret (a / 2 ^ s).
Proof. intros H. rewrite shr_ok by exact H. rewrite N.shiftr_div_pow2. reflexivity. Qed.
Lemma try_u32 x : x < 4294967296 -> try_u32_unwrap x = ret x.
Proof. exact (try_u32_ok x). Qed.
Lemma cast_us i : i < 65536 -> cast Usize i = i.
Proof. intros H. unfold cast. apply N.mod_small. pose proof usize_lo. lia. Qed.
Lemma cast_u32 i : i < 4294967296 -> cast U32 i = i.
Proof. intros H. unfold cast. apply N.mod_small. exact H. Qed.
Lemma max_u32 : max_of U32 = 4294967295.
Proof. reflexivity. Qed.
Lemma max_u64 : max_of U64 = 18446744073709551615.
Proof. reflexivity. Qed.

Lemma runs_debug_assert c : runs c true [] -> runs (debug_assert c) tt [].
Proof.
  unfold debug_assert. intros H. destruct debug_assertions; [|apply runs_ret].
  eapply runs_bind0; [exact H|]. apply runs_ret.
Qed.

Lemma runs_debug_assert_bind {A} c (k : unit -> M A) a L :
  runs c true [] -> runs (k tt) a L -> runs (bind (debug_assert c) k) a L.
Proof. intros H. apply runs_bind0. apply runs_debug_assert. exact H. Qed.

End Arith.

(** masks *)
Lemma land_ones_mod v b : N.land v (2 ^ b - 1) = v mod 2 ^ b.
Proof.
  replace (2 ^ b - 1) with (N.ones b) by (rewrite N.ones_equiv; lia).
  apply N.land_ones.
Qed.

(** MAX >> (width - b) is the mask of b bits *)
Lemma max_shr w b : b <= w -> (2 ^ w - 1) / 2 ^ (w - b) = 2 ^ b - 1.
Proof.
  intros H.
  assert (E : 2 ^ w = 2 ^ (w - b) * 2 ^ b) by (rewrite <- N.pow_add_r; f_equal; lia).
  assert (P1 : 0 < 2 ^ (w - b)) by (apply N.neq_0_lt_0, N.pow_nonzero; discriminate).
  assert (P2 : 0 < 2 ^ b) by (apply N.neq_0_lt_0, N.pow_nonzero; discriminate).
  rewrite E. symmetry.
  apply (N.div_unique _ _ (2 ^ b - 1) (2 ^ (w - b) - 1)); nia.
Qed.

(** ** Slices *)
Lemma runs_index {A} (l : list A) i d :
  i < nlen l -> runs (index l i) (nth (N.to_nat i) l d) [].
Proof.
  intros H. unfold index. apply runs_tick_quiet; [reflexivity|].
  rewrite (nth_error_nth' l d) by (unfold nlen in H; lia). apply runs_ret.
Qed.

Lemma runs_index_eq {A} (l : list A) i x :
  nth_error l (N.to_nat i) = Some x -> runs (index l i) x [].
Proof.
  intros H. unfold index. apply runs_tick_quiet; [reflexivity|]. rewrite H. apply runs_ret.
Qed.

Lemma runs_upd {A} (l : list A) i v : i < nlen l -> runs (upd l i v) (upd_list l i v) [].
Proof.
  intros H. unfold upd. apply runs_tick_quiet; [reflexivity|].
  apply N.ltb_lt in H. rewrite H. apply runs_ret.
Qed.

Lemma runs_slice {A} (l : list A) lo hi :
  lo <= hi -> hi <= nlen l -> runs (slice l lo hi) (sub_bytes l lo hi) [].
Proof.
  intros H1 H2. unfold slice. apply runs_tick_quiet; [reflexivity|].
  apply N.leb_le in H1, H2. rewrite H1, H2. apply runs_ret.
Qed.

Lemma runs_copy {A} (d s : list A) : nlen d = nlen s -> runs (copy_from_slice d s) s [].
Proof.
  intros H. unfold copy_from_slice. apply N.eqb_eq in H. rewrite H. apply runs_ret.
Qed.

Lemma runs_copy_into {A} (l : list A) lo hi s :
  lo <= hi -> hi <= nlen l -> nlen s = hi - lo -> runs (copy_into l lo hi s) (splice l lo s) [].
Proof.
  intros H1 H2 H3. unfold copy_into.
  eapply runs_bind0; [apply runs_slice; assumption|].
  eapply runs_bind0; [apply runs_copy; rewrite nlen_sub_bytes by assumption; congruence|].
  apply runs_ret.
Qed.

(** ** Loops *)
Definition flatL (lf : N -> list event) (lo hi : N) : list event :=
  flat_map lf (nseq lo (N.to_nat (hi - lo))).

Lemma flat_map_nil {X Y} (l : list X) : flat_map (fun _ => @nil Y) l = [].
Proof. induction l as [|x l IH]; [reflexivity|exact IH]. Qed.

Lemma flatL_nil lo hi : flatL (fun _ => []) lo hi = [].
Proof. apply flat_map_nil. Qed.

Lemma runs_for_n {S} (body : N -> S -> M S) (st : N -> S) lf n lo :
  (forall i, lo <= i < lo + N.of_nat n -> runs (body i (st i)) (st (i + 1)) (lf i)) ->
  runs (for_n n lo body (st lo)) (st (lo + N.of_nat n)) (flat_map lf (nseq lo n)).
Proof.
  revert lo; induction n as [|n IH]; intros lo H; cbn [for_n nseq flat_map].
  - rewrite N.add_0_r. apply runs_ret.
  - eapply runs_bind; [apply H; lia|].
    replace (lo + N.of_nat (Datatypes.S n)) with (lo + 1 + N.of_nat n) by lia.
    apply IH. intros i Hi. apply H. lia.
Qed.

Lemma runs_for_range {S} (body : N -> S -> M S) (st : N -> S) lf lo hi :
  lo <= hi ->
  (forall i, lo <= i < hi -> runs (body i (st i)) (st (i + 1)) (lf i)) ->
  runs (for_range lo hi body (st lo)) (st hi) (flatL lf lo hi).
Proof.
  intros Hle H. unfold for_range. apply runs_tick_quiet; [reflexivity|].
  replace hi with (lo + N.of_nat (N.to_nat (hi - lo))) at 2 by lia.
  apply runs_for_n. intros i Hi. apply H. lia.
Qed.

Lemma runs_for_range' {S} (body : N -> S -> M S) (st : N -> S) lf lo hi s0 s1 L :
  lo <= hi -> s0 = st lo -> s1 = st hi -> L = flatL lf lo hi ->
  (forall i, lo <= i < hi -> runs (body i (st i)) (st (i + 1)) (lf i)) ->
  runs (for_range lo hi body s0) s1 L.
Proof. intros Hle -> -> ->. apply runs_for_range. exact Hle. Qed.

Lemma runs_for_n_ret {S R} (body : N -> S -> M (S + R)) (st : N -> S) lf n lo :
  (forall i, lo <= i < lo + N.of_nat n -> runs (body i (st i)) (inl (st (i + 1))) (lf i)) ->
  runs (for_n_ret n lo body (st lo)) (inl (st (lo + N.of_nat n))) (flat_map lf (nseq lo n)).
Proof.
  revert lo; induction n as [|n IH]; intros lo H; cbn [for_n_ret nseq flat_map].
  - rewrite N.add_0_r. apply runs_ret.
  - eapply runs_bind; [apply H; lia|]. cbv beta iota.
    replace (lo + N.of_nat (Datatypes.S n)) with (lo + 1 + N.of_nat n) by lia.
    apply IH. intros i Hi. apply H. lia.
Qed.

Lemma runs_for_range_ret' {S R} (body : N -> S -> M (S + R)) (st : N -> S) lf lo hi s0 s1 L :
  lo <= hi -> s0 = st lo -> s1 = inl (st hi) -> L = flatL lf lo hi ->
  (forall i, lo <= i < hi -> runs (body i (st i)) (inl (st (i + 1))) (lf i)) ->
  runs (for_range_ret lo hi body s0) s1 L.
Proof.
  intros Hle -> -> -> H. unfold for_range_ret, flatL. apply runs_tick_quiet; [reflexivity|].
  replace hi with (lo + N.of_nat (N.to_nat (hi - lo))) at 2 by lia.
  apply runs_for_n_ret. intros i Hi. apply H. lia.
Qed.

(** for x in l: [g] is the effect of one step, allowed to use an invariant [I] *)
Lemma runs_for_list_body {X S} (l : list X) (body : X -> S -> M S) (g : S -> X -> S)
    (I : S -> Prop) s :
  I s -> (forall x s', In x l -> I s' -> runs (body x s') (g s' x) [] /\ I (g s' x)) ->
  runs (for_list_body l body s) (fold_left g l s) [] /\ I (fold_left g l s).
Proof.
  revert s; induction l as [|x l IH]; intros s HI H; cbn [for_list_body fold_left].
  - split; [apply runs_ret|exact HI].
  - destruct (H x s (or_introl eq_refl) HI) as [H1 H2].
    destruct (IH (g s x) H2) as [H3 H4].
    { intros y s' Hy. apply H. right; exact Hy. }
    split; [|exact H4]. eapply runs_bind0; [exact H1|exact H3].
Qed.

Lemma runs_for_list {X S} (l : list X) (body : X -> S -> M S) (g : S -> X -> S) s :
  (forall x s', In x l -> runs (body x s') (g s' x) []) ->
  runs (for_list l body s) (fold_left g l s) [].
Proof.
  intros H. unfold for_list. apply runs_tick_quiet; [reflexivity|].
  apply (runs_for_list_body l body g (fun _ => True)); [exact Logic.I|].
  intros x s' Hx _. split; [apply H; exact Hx|exact Logic.I].
Qed.

(** the same with the position: the state before element i is [st i] *)
Lemma runs_for_list_pos_body {X S} (l : list X) (body : X -> S -> M S) (st : N -> S) lo :
  (forall i x, nth_error l i = Some x ->
     runs (body x (st (lo + N.of_nat i))) (st (lo + N.of_nat i + 1)) []) ->
  runs (for_list_body l body (st lo)) (st (lo + nlen l)) [].
Proof.
  revert lo; induction l as [|x l IH]; intros lo H; cbn [for_list_body].
  - rewrite nlen_nil, N.add_0_r. apply runs_ret.
  - eapply runs_bind0.
    + specialize (H O x eq_refl). rewrite N.add_0_r in H. exact H.
    + replace (lo + nlen (x :: l)) with (lo + 1 + nlen l) by (rewrite nlen_cons; lia).
      apply IH. intros i y Hy. specialize (H (Datatypes.S i) y Hy).
      replace (lo + 1 + N.of_nat i) with (lo + N.of_nat (Datatypes.S i)) by lia. exact H.
Qed.

Lemma runs_for_list_pos {X S} (l : list X) (body : X -> S -> M S) (st : N -> S) s0 s1 :
  s0 = st 0 -> s1 = st (nlen l) ->
  (forall i x, nth_error l (N.to_nat i) = Some x -> runs (body x (st i)) (st (i + 1)) []) ->
  runs (for_list l body s0) s1 [].
Proof.
  intros -> -> H. unfold for_list. apply runs_tick_quiet; [reflexivity|].
  rewrite <- (N.add_0_l (nlen l)). apply runs_for_list_pos_body.
  intros i x Hx. rewrite N.add_0_l. apply H. rewrite Nnat.Nat2N.id. exact Hx.
Qed.

(** for x in l.iter_mut(): new element i is [out i x], state before it [st i] *)
Fixpoint mapi_from {X Y} (i : N) (out : N -> X -> Y) (l : list X) : list Y :=
  match l with [] => [] | x :: l' => out i x :: mapi_from (i + 1) out l' end.

Lemma mapi_const {X Y} (g : N -> Y) (l : list X) i :
  mapi_from i (fun i _ => g i) l = map g (nseq i (length l)).
Proof.
  revert i; induction l as [|x l IH]; intros i; cbn; [reflexivity|]. rewrite IH. reflexivity.
Qed.

Lemma mapi_map {X Y} (g : X -> Y) (l : list X) i : mapi_from i (fun _ => g) l = map g l.
Proof.
  revert i; induction l as [|x l IH]; intros i; cbn; [reflexivity|]. rewrite IH. reflexivity.
Qed.

Lemma runs_map_mut_body {X S} (l : list X) (body : X -> S -> M (X * S)) st out lo :
  (forall i x, nth_error l i = Some x ->
     runs (body x (st (lo + N.of_nat i)))
          (out (lo + N.of_nat i) x, st (lo + N.of_nat i + 1)) []) ->
  runs (map_mut_body l body (st lo)) (mapi_from lo out l, st (lo + nlen l)) [].
Proof.
  revert lo; induction l as [|x l IH]; intros lo H; cbn [map_mut_body mapi_from].
  - rewrite nlen_nil, N.add_0_r. apply runs_ret.
  - eapply runs_bind0.
    { specialize (H O x eq_refl). rewrite N.add_0_r in H. exact H. }
    cbv beta iota. eapply runs_bind0.
    { apply IH. intros i y Hy. specialize (H (Datatypes.S i) y Hy).
      replace (lo + 1 + N.of_nat i) with (lo + N.of_nat (Datatypes.S i)) by lia. exact H. }
    cbv beta iota.
    replace (lo + nlen (x :: l)) with (lo + 1 + nlen l) by (rewrite nlen_cons; lia).
    apply runs_ret.
Qed.

Lemma runs_map_mut {X S} (l : list X) (body : X -> S -> M (X * S)) st out s0 r :
  s0 = st 0 -> r = (mapi_from 0 out l, st (nlen l)) ->
  (forall i x, nth_error l (N.to_nat i) = Some x -> runs (body x (st i)) (out i x, st (i + 1)) []) ->
  runs (map_mut l body s0) r [].
Proof.
  intros -> -> H. unfold map_mut. apply runs_tick_quiet; [reflexivity|].
  rewrite <- (N.add_0_l (nlen l)). apply runs_map_mut_body.
  intros i x Hx. rewrite N.add_0_l. apply H. rewrite Nnat.Nat2N.id. exact Hx.
Qed.

(** while: k iterations *)
Lemma runs_while {S} fuel (cond : S -> bool) (body : S -> M S) (st : N -> S) k j :
  k < N.of_nat fuel ->
  (forall i, j <= i < j + k -> cond (st i) = true /\ runs (body (st i)) (st (i + 1)) []) ->
  cond (st (j + k)) = false ->
  runs (while fuel cond body (st j)) (st (j + k)) [].
Proof.
  revert j k; induction fuel as [|fuel IH]; intros j k Hk H Hend; [lia|]. cbn [while].
  apply runs_branch_bind.
  destruct (N.eq_dec k 0) as [->|Hk0].
  - rewrite N.add_0_r in *. rewrite Hend. apply runs_ret.
  - destruct (H j ltac:(lia)) as [Hc Hb]. rewrite Hc.
    eapply runs_bind0; [exact Hb|].
    replace (j + k) with (j + 1 + (k - 1)) by lia.
    apply IH; [lia| |replace (j + 1 + (k - 1)) with (j + k) by lia; exact Hend].
    intros i Hi. apply H. lia.
Qed.

(** ** Filling an array in order *)
Definition filled {A} (v : N -> A) (init : list A) (i : N) : list A :=
  map v (nrange i) ++ skipn (N.to_nat i) init.

Lemma filled_0 {A} (v : N -> A) init : filled v init 0 = init.
Proof. reflexivity. Qed.

Lemma filled_all {A} (v : N -> A) init i : i = nlen init -> filled v init i = map v (nrange i).
Proof.
  intros ->. unfold filled. rewrite skipn_all2 by (unfold nlen; lia). apply app_nil_r.
Qed.

Lemma nlen_filled {A} (v : N -> A) init i : i <= nlen init -> nlen (filled v init i) = nlen init.
Proof.
  intros H. unfold filled, nlen in *. rewrite app_length, map_length, skipn_length.
  unfold nrange. rewrite length_nseq. lia.
Qed.

Lemma filled_upd {A} (v : N -> A) init i x :
  i < nlen init -> x = v i -> upd_list (filled v init i) i x = filled v init (i + 1).
Proof.
  intros H ->. unfold upd_list, filled.
  assert (L : length (map v (nrange i)) = N.to_nat i).
  { rewrite map_length. unfold nrange. apply length_nseq. }
  rewrite <- L at 1. rewrite firstn_app, firstn_all, Nat.sub_diag, firstn_O, app_nil_r.
  rewrite skipn_app.
  rewrite (skipn_all2 (map v (nrange i))) by lia. cbn [app].
  replace (N.to_nat i + 1 - length (map v (nrange i)))%nat with 1%nat by lia.
  rewrite skipn_skipn.
  rewrite nrange_snoc, map_app, <- app_assoc. cbn [map app].
  replace (1 + N.to_nat i)%nat with (N.to_nat (i + 1)) by lia. reflexivity.
Qed.

Lemma runs_upd_filled {A} (v : N -> A) init i x :
  i < nlen init -> x = v i -> runs (upd (filled v init i) i x) (filled v init (i + 1)) [].
Proof.
  intros H Hx. eapply runs_eq; [apply runs_upd; rewrite nlen_filled by lia; exact H| |reflexivity].
  apply filled_upd; assumption.
Qed.

Lemma nth_map_nrange {A} (v : N -> A) k i d :
  i < k -> nth (N.to_nat i) (map v (nrange k)) d = v i.
Proof.
  intros H. apply nth_error_nth. rewrite nth_error_map. unfold nrange.
  rewrite nth_error_nseq by lia. cbn. f_equal. f_equal. lia.
Qed.

Lemma filled_get {A} (v : N -> A) init i j d :
  i <= j -> j < nlen init -> nth (N.to_nat j) (filled v init i) d = nth (N.to_nat j) init d.
Proof.
  intros H1 H2. unfold filled. rewrite app_nth2; rewrite map_length; unfold nrange;
    rewrite length_nseq; [|lia].
  rewrite <- (firstn_skipn (N.to_nat i) init) at 2.
  rewrite app_nth2; rewrite firstn_length; unfold nlen in H2; [|lia]. f_equal. lia.
Qed.
