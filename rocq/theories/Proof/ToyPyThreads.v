(** Two Python threads sign the same message with the same key object at the same time; their bytes come in any order.
    A third one verifies the signature that the first one got, while the second one is still running. *)
From Coq Require Import String.
From Verif Require Import Spec.Fips205 Spec.Fips205Hash.
From Verif Require Import Model.Api Model.PyObj Spec.Vocab Spec.VocabPy Spec.VocabThreads Spec.VocabPyThreads Proof.Summary Proof.TopC
  Proof.TopPyObj Proof.TopPyThreads Proof.Toy Proof.ToyKeys Proof.ToyThreads Proof.ToyPy.
Import ListNotations.
Open Scope list_scope.
Open Scope N_scope.

(** thread i writes the bytes bs from place k of object x on *)
Fixpoint puts (i : nat) (x k : N) (bs : bytes) : list py_event :=
  match bs with [] => [] | b :: bs => PyWrite i x k b :: puts i x (k + 1) bs end.

Lemma length_puts i x k bs : length (puts i x k bs) = length bs.
Proof. revert k. induction bs as [|b bs IH]; intros k; [reflexivity|]. cbn [puts length]. rewrite IH. reflexivity. Qed.

Lemma nth_puts i x k bs d : nth_error (puts i x k bs) d = option_map (PyWrite i x (k + N.of_nat d)) (nth_error bs d).
Proof.
  revert k d. induction bs as [|b bs IH]; intros k d; [destruct d; reflexivity|].
  destruct d as [|d]; cbn [puts nth_error]; [rewrite N.add_0_r; reflexivity|]. rewrite IH.
  replace (k + 1 + N.of_nat d) with (k + N.of_nat (S d)) by lia. reflexivity.
Qed.

Lemma upd_twice {A} (l : list A) i a b : i < nlen l -> upd_list (upd_list l i a) i b = upd_list l i b.
Proof. apply ForsP.upd_list_twice. Qed.

Lemma evolved_puts calls i x bs : forall H done rest, content H x = Some (done ++ rest) -> nlen rest = nlen bs ->
  evolved calls H (puts i x (nlen done) bs) = upd_list H x (done ++ bs).
Proof.
  induction bs as [|b bs IH]; intros H done rest E L; cbn [puts evolved].
  - destruct rest; [|unfold nlen in L; cbn [length] in L; lia]. pose proof (content_bound _ _ _ E) as Lx.
    symmetry. rewrite <- (ForsP.upd_list_id H x []) by exact Lx. f_equal.
    + apply ForsP.upd_list_id. exact Lx.
    + unfold content in E. symmetry. apply (nth_error_nth H _ [] E).
  - destruct rest as [|z rest]; [unfold nlen in L; cbn [length] in L; lia|]. rewrite !nlen_cons in L.
    pose proof (content_bound _ _ _ E) as Lx.
    assert (Es : set_byte H x (nlen done) b = upd_list H x ((done ++ [b]) ++ rest)).
    { unfold set_byte. rewrite E, (proj2 (N.ltb_lt _ _)) by (rewrite nlen_app, nlen_cons; lia). f_equal.
      unfold upd_list, nlen. rewrite Nat2N.id, firstn_app, firstn_all, Nat.sub_diag. cbn [firstn]. rewrite app_nil_r, <- app_assoc. f_equal.
      cbn [app]. f_equal. rewrite skipn_app, skipn_all2 by lia. replace (length done + 1 - length done)%nat with 1%nat by lia. reflexivity. }
    rewrite Es. replace (nlen done + 1) with (nlen (done ++ [b])) by (rewrite nlen_app; reflexivity).
    rewrite (IH _ _ rest).
    + rewrite upd_twice by exact Lx. rewrite <- app_assoc. reflexivity.
    + unfold content. rewrite nth_upd by exact Lx. rewrite N.eqb_refl. reflexivity.
    + lia.
Qed.

Section Example.
Variables (PK SK s0 s1 : bytes).
Definition start : heap := [five; PK; SK].
Definition sign_op : py_op := PSign (PrivObj (VBytes 2)) (VBytes 0).
Definition verify_op : py_op := PVerify (PubObj (VBytes 1)) (VBytes 0) (VBytes 3).
Definition three : py_calls :=
  [(sign_op, PyReturn (RValue (VBytes 3))); (sign_op, PyReturn (RValue (VBytes 4))); (verify_op, PyReturn (RBool true))].
Definition front : list py_event := [PyBegin 0; PyBegin 1; PyAsk 1 (fst (part 31)) (snd (part 31)); PyAsk 0 (fst (part 30)) (snd (part 30))].
Definition three_log : list py_event :=
  front ++ puts 1 4 0 s1 ++ puts 0 3 0 s0 ++ [PyEnd 0; PyBegin 2; PyEnd 1; PyEnd 2].
Hypothesis L0 : length s0 = N.to_nat 17088.
Hypothesis L1 : length s1 = N.to_nat 17088.
Notation se := (4 + length s1 + length s0)%nat.
Notation log := three_log.

Lemma at_cases t e : py_at log t e ->
  (t = 0%nat /\ e = PyBegin 0) \/ (t = 1%nat /\ e = PyBegin 1) \/
  (t = 2%nat /\ e = PyAsk 1 (fst (part 31)) (snd (part 31))) \/ (t = 3%nat /\ e = PyAsk 0 (fst (part 30)) (snd (part 30))) \/
  ((4 <= t < 4 + length s1)%nat /\ exists b, nth_error s1 (t - 4) = Some b /\ e = PyWrite 1 4 (N.of_nat (t - 4)) b) \/
  ((4 + length s1 <= t < se)%nat /\ exists b, nth_error s0 (t - 4 - length s1) = Some b /\ e = PyWrite 0 3 (N.of_nat (t - 4 - length s1)) b) \/
  (t = se /\ e = PyEnd 0) \/ (t = S se /\ e = PyBegin 2) \/ (t = S (S se) /\ e = PyEnd 1) \/ (t = S (S (S se)) /\ e = PyEnd 2).
Proof.
  unfold py_at, three_log. intros A.
  destruct t as [|[|[|[|t]]]]; cbn [front app nth_error] in A.
  1, 2, 3, 4: apply some_inj in A; subst e; tauto.
  do 4 right. replace (S (S (S (S t))) - 4)%nat with t by lia.
  destruct (Nat.lt_ge_cases t (length s1)) as [D|D].
  { left. split; [lia|]. rewrite in_front in A by (rewrite length_puts; lia). rewrite nth_puts in A.
    destruct (nth_error s1 t) as [b|]; [|discriminate A]. cbn [option_map] in A. apply some_inj in A. exists b. split; [reflexivity|].
    rewrite <- A. f_equal. }
  right. rewrite (skip_front _ _ _ t (length_puts 1 4 0 s1) D) in A.
  destruct (Nat.lt_ge_cases (t - length s1) (length s0)) as [D0|D0].
  { left. split; [lia|]. rewrite in_front in A by (rewrite length_puts; lia). rewrite nth_puts in A.
    destruct (nth_error s0 (t - length s1)) as [b|]; [|discriminate A]. cbn [option_map] in A. apply some_inj in A. exists b. split; [reflexivity|].
    rewrite <- A. f_equal. }
  right. rewrite (skip_front _ _ _ _ (length_puts 0 3 0 s0) D0) in A.
  destruct (t - length s1 - length s0)%nat as [|[|[|[|d]]]] eqn:Q; cbn [nth_error] in A.
  1, 2, 3, 4: apply some_inj in A; subst e.
  - left. split; [lia|reflexivity].
  - right. left. split; [lia|reflexivity].
  - right. right. left. split; [lia|reflexivity].
  - right. right. right. split; [lia|reflexivity].
  - destruct d; discriminate A.
Qed.

Lemma at_put1 k b : nth_error s1 k = Some b -> py_at log (4 + k) (PyWrite 1 4 (N.of_nat k) b).
Proof.
  intros A. assert (L : (k < length s1)%nat) by (apply nth_error_Some; congruence).
  unfold py_at, three_log. cbn [front app Nat.add nth_error]. rewrite in_front by (rewrite length_puts; exact L).
  rewrite nth_puts, A. reflexivity.
Qed.
Lemma at_put0 k b : nth_error s0 k = Some b -> py_at log (4 + length s1 + k) (PyWrite 0 3 (N.of_nat k) b).
Proof.
  intros A. assert (L : (k < length s0)%nat) by (apply nth_error_Some; congruence).
  unfold py_at, three_log. cbn [front app Nat.add nth_error].
  rewrite (skip_front _ _ _ _ (length_puts 1 4 0 s1)) by lia. replace (length s1 + k - length s1)%nat with k by lia.
  rewrite in_front by (rewrite length_puts; exact L). rewrite nth_puts, A. reflexivity.
Qed.
Lemma at_tail k e : nth_error [PyEnd 0; PyBegin 2; PyEnd 1; PyEnd 2] k = Some e -> py_at log (se + k) e.
Proof.
  intros A. unfold py_at, three_log. cbn [front app Nat.add nth_error].
  rewrite (skip_front _ _ _ _ (length_puts 1 4 0 s1)) by lia. rewrite (skip_front _ _ _ _ (length_puts 0 3 0 s0)) by lia.
  replace (length s1 + length s0 + k - length s1 - length s0)%nat with k by lia. exact A.
Qed.

Lemma heap_three : heap_at three start log (S se) = start ++ [s0; s1].
Proof.
  unfold heap_at.
  assert (F : firstn (S se) log = front ++ puts 1 4 0 s1 ++ puts 0 3 0 s0 ++ [PyEnd 0]).
  { unfold three_log. rewrite !firstn_app, !length_puts. change (length front) with 4%nat.
    rewrite (firstn_all2 front) by (cbn; lia).
    rewrite firstn_all2 by (rewrite length_puts; lia). rewrite firstn_all2 by (rewrite length_puts; lia).
    replace (S se - 4 - length s1 - length s0)%nat with 1%nat by lia. reflexivity. }
  rewrite F, !evolved_app.
  change (evolved three start front) with [five; PK; SK; nrepeat x00 17088; nrepeat x00 17088].
  assert (Z : forall s : bytes, length s = N.to_nat 17088 -> nlen (nrepeat x00 17088) = nlen s).
  { intros s Q. rewrite nlen_nrepeat. unfold nlen. rewrite Q. rewrite N2Nat.id. reflexivity. }
  set (z := nrepeat x00 17088) in *. clearbody z.
  pose proof (evolved_puts three 1 4 s1 [five; PK; SK; z; z] [] z eq_refl (Z s1 L1)) as X1. change (nlen []) with 0 in X1. rewrite X1.
  change (upd_list [five; PK; SK; z; z] 4 ([] ++ s1)) with [five; PK; SK; z; s1].
  pose proof (evolved_puts three 0 3 s0 [five; PK; SK; z; s1] [] z eq_refl (Z s0 L0)) as X0. change (nlen []) with 0 in X0. rewrite X0.
  reflexivity.
Qed.

Section Run.
Context {T : Target} {P : Prims} {W : Wide}.
Hypothesis E0 : py_step replay [part 30] start sign_op = ([], start ++ [s0], PyReturn (RValue (VBytes 3))).
Hypothesis E1 : py_step replay [part 31] (start ++ [nrepeat x00 17088]) sign_op =
                  ([], (start ++ [nrepeat x00 17088]) ++ [s1], PyReturn (RValue (VBytes 4))).
Hypothesis E2 : py_step replay [] (start ++ [s0; s1]) verify_op = ([], start ++ [s0; s1], PyReturn (RBool true)).

Lemma asked_puts i j x k bs : py_asked i (puts j x k bs) = [].
Proof. revert k. induction bs as [|b bs IH]; intros k; [reflexivity|]. exact (IH (k + 1)). Qed.

Lemma asked_three i : py_asked i log = py_asked i front.
Proof.
  unfold three_log, py_asked. rewrite !flat_map_app. fold (py_asked i (puts 1 4 0 s1)). fold (py_asked i (puts 0 3 0 s0)).
  rewrite !asked_puts. cbn [flat_map app]. apply app_nil_r.
Qed.

Lemma runs01 i t : (i < 2)%nat -> (2 <= t <= se)%nat -> py_running log i t.
Proof.
  intros Li L. destruct i as [|[|i]]; [| |lia].
  - exists 0%nat, (se + 0)%nat. split; [reflexivity|]. split; [apply at_tail; reflexivity|lia].
  - exists 1%nat, (se + 2)%nat. split; [reflexivity|]. split; [apply at_tail; reflexivity|lia].
Qed.

Ltac cases A :=
  destruct (at_cases _ _ A) as [[Qt Qe]|[[Qt Qe]|[[Qt Qe]|[[Qt Qe]|[[Qt (?b & Qb & Qe)]|[[Qt (?b & Qb & Qe)]|[[Qt Qe]|[[Qt Qe]|[[Qt Qe]|[Qt Qe]]]]]]]]]].

Ltac cases2 A :=
  destruct (at_cases _ _ A) as [[Rt Re]|[[Rt Re]|[[Rt Re]|[[Rt Re]|[[Rt (?c & Rb & Re)]|[[Rt (?c & Rb & Re)]|[[Rt Re]|[[Rt Re]|[[Rt Re]|[Rt Re]]]]]]]]]].

Lemma span_of i b e : py_at log b (PyBegin i) -> py_at log e (PyEnd i) -> (b < e)%nat ->
  (forall t x, py_at log t x -> py_thread x = i -> (b <= t <= e)%nat) ->
  forall t x, py_at log t x -> py_thread x = i ->
    (t = b /\ x = PyBegin i) \/ (t = e /\ x = PyEnd i) \/ ((b < t < e)%nat /\ x <> PyBegin i /\ x <> PyEnd i).
Proof.
  intros B N L F t x A Th. specialize (F t x A Th).
  destruct (Nat.eq_dec t b) as [->|Db]; [left; split; [reflexivity|unfold py_at in *; congruence]|].
  destruct (Nat.eq_dec t e) as [->|De]; [right; left; split; [reflexivity|unfold py_at in *; congruence]|].
  right. right. split; [lia|]. split; intros ->.
  - cases A; try discriminate Qe; cases2 B; try discriminate Re; congruence.
  - cases A; try discriminate Qe; cases2 N; try discriminate Re; congruence.
Qed.

Lemma first_bytes t : (2 <= t)%nat -> forall x k, x < 3 -> byte_of (heap_at three start log t) x k = byte_of start x k.
Proof.
  intros L x k Lx. change start with (heap_at three start log 0) at 2. apply byte_frame; [lia|exact Lx|].
  intros t2 i b _ A. cases A; try discriminate Qe; injection Qe; intros; subst; lia.
Qed.

Lemma use_small x : In x (uses sign_op) -> x < 3.
Proof. intros [<-|[<-|[]]]; reflexivity. Qed.

Lemma three_concurrent : py_concurrent start log three.
Proof.
  split; [|split].
  - intros t e A. change (length three) with 3%nat. cases A; subst e; cbn [py_thread]; lia.
  - intros i op r E. destruct i as [|[|[|i]]]; [| | |destruct i; discriminate E]; cbn [three nth_error] in E;
      apply some_inj, pair_equal_spec in E; destruct E as [<- <-].
    + (* first *)
      assert (B : py_at log 0 (PyBegin 0)) by reflexivity.
      assert (N : py_at log se (PyEnd 0)) by (pose proof (at_tail 0 (PyEnd 0) eq_refl) as X; replace (se + 0)%nat with se in X by lia; exact X).
      exists 0%nat, se. split; [exact B|]. split; [exact N|]. split; [lia|]. split.
      { apply span_of; [exact B|exact N|lia|]. intros t x A Th. cases A; subst x; cbn [py_thread] in Th; try discriminate Th; lia. }
      exists start, (start ++ [s0]). split; [reflexivity|]. split; [|split; [|split; [|split]]].
      * intros x I. split; [reflexivity|]. intros k. exists 2%nat. split; [apply runs01; lia|].
        symmetry. apply first_bytes; [lia|exact (use_small x I)].
      * rewrite asked_three. exact E0.
      * left. eexists. reflexivity.
      * intros t x k v A. change (nlen start) with 3. change (nlen (creates sign_op)) with 1.
        cases A; try discriminate Qe; injection Qe; intros; subst; lia.
      * intros x k v Lx Q. left. change (nlen start) with 3 in Lx.
        unfold byte_of in Q. rewrite content_back in Q by exact Lx. change (nlen start) with 3 in Q.
        destruct (N.to_nat (x - 3)) as [|[|d]] eqn:Dx; cbn [nth_error] in Q; try discriminate Q.
        assert (x = 3) by lia. subst x. exists (4 + length s1 + N.to_nat k)%nat. split.
        -- pose proof (at_put0 _ _ Q) as X. rewrite N2Nat.id in X. exact X.
        -- intros t' v' A. cases A; try discriminate Qe. injection Qe. intros. subst. lia.
    + (* second *)
      assert (B : py_at log 1 (PyBegin 1)) by reflexivity.
      assert (N : py_at log (S (S se)) (PyEnd 1)) by (pose proof (at_tail 2 (PyEnd 1) eq_refl) as X; replace (se + 2)%nat with (S (S se)) in X by lia; exact X).
      exists 1%nat, (S (S se)). split; [exact B|]. split; [exact N|]. split; [lia|]. split.
      { apply span_of; [exact B|exact N|lia|]. intros t x A Th. cases A; subst x; cbn [py_thread] in Th; try discriminate Th; lia. }
      exists (start ++ [nrepeat x00 17088]), ((start ++ [nrepeat x00 17088]) ++ [s1]). split; [reflexivity|]. split; [|split; [|split; [|split]]].
      * intros x I. split; [reflexivity|]. intros k. exists 2%nat. split; [apply runs01; lia|].
        rewrite first_bytes by (try lia; exact (use_small x I)). unfold byte_of. rewrite content_front by exact (use_small x I). reflexivity.
      * rewrite asked_three. exact E1.
      * left. eexists. reflexivity.
      * intros t x k v A. change (nlen (start ++ [nrepeat x00 17088])) with 4. change (nlen (creates sign_op)) with 1.
        cases A; try discriminate Qe; injection Qe; intros; subst; lia.
      * intros x k v Lx Q. left. change (nlen (start ++ [nrepeat x00 17088])) with 4 in Lx.
        unfold byte_of in Q. rewrite content_back in Q by exact Lx. change (nlen (start ++ [nrepeat x00 17088])) with 4 in Q.
        destruct (N.to_nat (x - 4)) as [|[|d]] eqn:Dx; cbn [nth_error] in Q; try discriminate Q.
        assert (x = 4) by lia. subst x. exists (4 + N.to_nat k)%nat. split.
        -- pose proof (at_put1 _ _ Q) as X. rewrite N2Nat.id in X. exact X.
        -- intros t' v' A. cases A; try discriminate Qe. injection Qe. intros. subst. lia.
    + (* third *)
      assert (B : py_at log (S se) (PyBegin 2)) by (pose proof (at_tail 1 (PyBegin 2) eq_refl) as X; replace (se + 1)%nat with (S se) in X by lia; exact X).
      assert (N : py_at log (S (S (S se))) (PyEnd 2)) by (pose proof (at_tail 3 (PyEnd 2) eq_refl) as X; replace (se + 3)%nat with (S (S (S se))) in X by lia; exact X).
      exists (S se), (S (S (S se))). split; [exact B|]. split; [exact N|]. split; [lia|]. split.
      { apply span_of; [exact B|exact N|lia|]. intros t x A Th. cases A; subst x; cbn [py_thread] in Th; try discriminate Th; lia. }
      exists (start ++ [s0; s1]), (start ++ [s0; s1]). rewrite heap_three. split; [reflexivity|]. split; [|split; [|split; [|split]]].
      * intros x I. split; [reflexivity|]. intros k. exists (S (S se)). split; [exists (S se), (S (S (S se))); split; [exact B|split; [exact N|lia]]|].
        rewrite (heap_S start log three (S se)). unfold py_at in B. rewrite B. cbn [three nth_error creates verify_op].
        rewrite app_nil_r, heap_three. reflexivity.
      * rewrite asked_three. exact E2.
      * left. eexists. reflexivity.
      * intros t x k v A. cases A; discriminate Qe.
      * intros x k v Lx Q. unfold byte_of, content in Q.
        rewrite (proj2 (nth_error_None (start ++ [s0; s1]) (N.to_nat x))) in Q; [discriminate Q|]. unfold nlen in Lx. lia.
  - intros i op r b x E B I. destruct i as [|[|[|i]]]; [| | |destruct i; discriminate E]; cbn [three nth_error] in E;
      apply some_inj, pair_equal_spec in E; destruct E as [<- _]; change (nlen start) with 3.
    + left. exact (use_small x I).
    + left. exact (use_small x I).
    + destruct I as [<-|[<-|[<-|[]]]]; [left; reflexivity..|]. right.
      exists 0%nat, sign_op, (PyReturn (RValue (VBytes 3))), (se + 0)%nat. split; [reflexivity|]. split; [left; reflexivity|].
      split; [apply at_tail; reflexivity|]. cases B; try discriminate Qe. lia.
Qed.
End Run.
End Example.

Lemma good_key_signs {T : Target} {P : Prims} {W : Wide} os g H i k m SK b g' :
  good_sk SK -> content H k = Some SK -> content H i = Some m -> k <> i -> nlen m < 2 ^ 31 -> nlen m < 2 ^ usize_bits -> gives os g 16 b g' ->
  exists sig, py_step os g H (PSign (PrivObj (VBytes k)) (VBytes i)) = (g', H ++ [sig], PyReturn (RValue (VBytes (nlen H)))) /\
    nlen sig = 17088 /\ verified (sub_bytes SK 32 64) m sig.
Proof.
  intros Gd Ek Ei D L U G. pose proof (proj1 Gd) as Lk.
  destruct (prop_python_object_calls T P W os g H) as (_ & _ & _ & _ & C & _).
  destruct (C i m Ei L U) as [S _]. specialize (S k SK Ek Lk D). cbv zeta in S. clear C.
  pose proof (good_consistent SK Gd) as Q. rewrite (sub_bytes_split SK 32 48 64) in Q by lia.
  destruct (Fips205.slh_keygen_internal _ _ _ _ _) as [SK0 PK]. cbn [snd] in Q. destruct S as [_ [_ S3]].
  destruct (S3 Q b g' G) as (sig & E & _). exists sig. split; [exact E|].
  assert (Is : sane (H ++ [sig]) (new_issued H (H ++ [sig]) (PSign (PrivObj (VBytes k)) (VBytes i)) (PyReturn (RValue (VBytes (nlen H)))))).
  { apply (step_issue os g H [PrivObj (VBytes k)] _ g' _ _) with (3 := E).
    - intros k0 [<-|[]]. cbn [well_made py_len]. rewrite Ek. cbn [option_map]. f_equal. exact Lk.
    - split; [left; reflexivity|]. split.
      + intros j Qj. assert (i = j) as <- by congruence. exact (content_bound _ _ _ Ei).
      + intros j bs Qj Ej. assert (i = j) as <- by congruence. rewrite Ei in Ej. apply some_inj in Ej. subst bs.
        split; [exact L|]. split; [exact U|]. cbn [data_of]. congruence. }
  cbn [new_issued] in Is. rewrite Ek, Ei, content_last in Is.
  destruct (Is _ _ _ (or_introl eq_refl)) as (_ & L2 & _ & _ & V). split; [exact L2|exact V].
Qed.

Lemma toy_three :
  exists PK SK s0 s1,
    py_concurrent (T := debug64) (P := toy_prims) (W := wide32) (start PK SK) (three_log s0 s1) three /\
    nlen s0 = 17088 /\ nlen s1 = 17088 /\
    py_running (three_log s0 s1) 0 100 /\ py_running (three_log s0 s1) 1 100 /\
    exists t, py_running (three_log s0 s1) 1 t /\ py_running (three_log s0 s1) 2 t.
Proof.
  set (T := debug64). set (P := toy_prims). set (W := wide32).
  destruct (prop_python_object_calls T P W replay [part 20; part 21; part 22] [five]) as (_ & _ & K & _).
  destruct (K _ _ _ _ _ _ (replay_gives _ _) (replay_gives _ _) (replay_gives _ _)) as (PK & SK & _ & E). clear K.
  change (nlen [five]) with 1 in E. change (1 + 1) with 2 in E.
  destruct (step_pairs _ _ _ _ _ _ _ E PK SK (or_introl eq_refl)) as [Gd Eh].
  assert (U5 : nlen five < 2 ^ usize_bits) by reflexivity.
  destruct (good_key_signs replay [part 30] (start PK SK) 0 2 five SK _ _ Gd eq_refl eq_refl ltac:(discriminate) eq_refl U5 (replay_gives _ _))
    as (s0 & E0 & Ls0 & V0).
  set (z := nrepeat x00 17088).
  destruct (good_key_signs replay [part 31] (start PK SK ++ [z]) 0 2 five SK _ _ Gd eq_refl eq_refl ltac:(discriminate) eq_refl U5 (replay_gives _ _))
    as (s1 & E1 & Ls1 & _).
  assert (L0 : length s0 = N.to_nat 17088) by (rewrite <- Ls0; unfold nlen; lia).
  assert (L1 : length s1 = N.to_nat 17088) by (rewrite <- Ls1; unfold nlen; lia).
  exists PK, SK, s0, s1. split; [|split; [exact Ls0|split; [exact Ls1|]]].
  - apply three_concurrent; [exact L0|exact L1|exact E0|exact E1|].
    assert (Lp : nlen PK = 32) by (rewrite Eh; rewrite nlen_sub_bytes; [reflexivity|lia|rewrite (proj1 Gd); lia]).
    unfold verify_op. cbn [py_step].
    rewrite (verify_bytes (start PK SK ++ [s0; s1]) (VBytes 1) 0 3 five s0 PK eq_refl eq_refl eq_refl U5 ltac:(discriminate)
               (struct_bytes (start PK SK ++ [s0; s1]) 1 PK 32 eq_refl Lp) Lp ltac:(discriminate)).
    rewrite Ls0. change (17088 =? 17088) with true. cbv iota. unfold verified in V0. rewrite <- Eh in V0. rewrite V0. reflexivity.
  - assert (Big : (2 <= 100 <= 4 + length s1 + length s0)%nat) by (rewrite L1, L0; lia).
    split; [apply runs01; first [exact L0|exact L1|exact Big|lia]|]. split; [apply runs01; first [exact L0|exact L1|exact Big|lia]|].
    exists (S (S (4 + length s1 + length s0))). split.
    + exists 1%nat, (4 + length s1 + length s0 + 2)%nat. split; [reflexivity|]. split; [apply at_tail; first [exact L0|exact L1|reflexivity]|]. clear. lia.
    + exists (4 + length s1 + length s0 + 1)%nat, (4 + length s1 + length s0 + 3)%nat.
      split; [apply at_tail; first [exact L0|exact L1|reflexivity]|]. split; [apply at_tail; first [exact L0|exact L1|reflexivity]|]. clear. lia.
Qed.
