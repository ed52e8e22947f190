(** Two threads call the library at the same time; their requests to the generator alternate. First they
    generate key pairs, then they sign with the same key. *)
From Coq Require Import String.
From Verif Require Import Spec.Fips205 Spec.Fips205Hash.
From Verif Require Import Model.Api Model.Ffi Model.FfiMem Spec.Vocab Spec.VocabC Spec.VocabThreads Proof.Summary Proof.TopC
  Proof.TopThreads Proof.Select Proof.Toy Proof.ToyKeys Proof.ToyC.
Import ListNotations.
Open Scope list_scope.
Open Scope N_scope.

Definition part (k : N) : N * outcome bytes := (16, Val (nrepeat (n2b k) 16)).
Definition ask (i : nat) (k : N) : c_event := CAsk i (fst (part k)) (snd (part k)).

Lemma replay_gives k l : gives replay (part k :: l) 16 (nrepeat (n2b k) 16) l.
Proof.
  unfold gives, part. cbn [try_fill replay replay_fill]. rewrite nlen_nrepeat. reflexivity.
Qed.

Definition stores (i : nat) (V : cmem) (l : list N) : list c_event := map (fun x => CWrite i x (mem_at V x)) l.
Definition requests (asks : list (nat * N)) : list c_event := map (fun a => ask (fst a) (snd a)) asks.
(** both begin, then they make the requests asks, then thread 1 stores its results at A1, then thread 0 at A0 *)
Definition two_log (asks : list (nat * N)) (A0 A1 : list N) (V0 V1 : cmem) : list c_event :=
  [CBegin 0; CBegin 1] ++ requests asks ++ stores 1 V1 A1 ++ stores 0 V0 A0 ++ [CEnd 0; CEnd 1].

Section Events.
Variables (asks : list (nat * N)) (A0 A1 : list N) (V0 V1 : cmem).
Hypothesis Threads : forall a, In a asks -> (fst a < 2)%nat.
Hypothesis Once0 : NoDup A0.
Hypothesis Once1 : NoDup A1.
Notation log := (two_log asks A0 A1 V0 V1).
Notation s1 := (2 + length asks)%nat.
Notation s0 := (s1 + length A1)%nat.
Notation se := (s0 + length A0)%nat.

Lemma skip_front {A} (l1 l2 : list A) k t : length l1 = k -> (k <= t)%nat -> nth_error (l1 ++ l2) t = nth_error l2 (t - k).
Proof. intros <- L. apply nth_error_app2, L. Qed.
Lemma in_front {A} (l1 l2 : list A) t : (t < length l1)%nat -> nth_error (l1 ++ l2) t = nth_error l1 t.
Proof. apply nth_error_app1. Qed.

(** the events, by position *)
Lemma event_cases t e : event_at log t e ->
  (t = 0%nat /\ e = CBegin 0) \/ (t = 1%nat /\ e = CBegin 1) \/
  ((2 <= t < s1)%nat /\ exists a, In a asks /\ e = ask (fst a) (snd a)) \/
  ((s1 <= t < s0)%nat /\ exists x, nth_error A1 (t - s1) = Some x /\ e = CWrite 1 x (mem_at V1 x)) \/
  ((s0 <= t < se)%nat /\ exists x, nth_error A0 (t - s0) = Some x /\ e = CWrite 0 x (mem_at V0 x)) \/
  (t = se /\ e = CEnd 0) \/ (t = S se /\ e = CEnd 1).
Proof.
  unfold event_at, two_log. intros A.
  destruct t as [|[|t]]; [left; cbn in A; split; congruence|right; left; cbn in A; split; congruence|].
  right. right. cbn [app nth_error] in A.
  assert (LQ : length (requests asks) = length asks) by apply map_length.
  assert (L1 : length (stores 1 V1 A1) = length A1) by apply map_length.
  assert (L0 : length (stores 0 V0 A0) = length A0) by apply map_length.
  destruct (Nat.lt_ge_cases t (length asks)) as [D|D].
  { left. split; [lia|]. rewrite in_front in A by lia. unfold requests in A. rewrite nth_error_map in A.
    destruct (nth_error asks t) as [a|] eqn:Ea; [|discriminate A]. exists a. split; [exact (nth_error_In _ _ Ea)|].
    cbn [option_map] in A. congruence. }
  right. rewrite (skip_front _ _ _ t LQ D) in A.
  destruct (Nat.lt_ge_cases (t - length asks) (length A1)) as [D1|D1].
  { left. split; [lia|]. rewrite in_front in A by lia. unfold stores in A. rewrite nth_error_map in A.
    replace (S (S t) - s1)%nat with (t - length asks)%nat by lia.
    destruct (nth_error A1 (t - length asks)) as [x|]; [|discriminate A]. cbn [option_map] in A.
    exists x. split; [reflexivity|congruence]. }
  right. rewrite (skip_front _ _ _ _ L1 D1) in A.
  destruct (Nat.lt_ge_cases (t - length asks - length A1) (length A0)) as [D0|D0].
  { left. split; [lia|]. rewrite in_front in A by lia. unfold stores in A. rewrite nth_error_map in A.
    replace (S (S t) - s0)%nat with (t - length asks - length A1)%nat by lia.
    destruct (nth_error A0 (t - length asks - length A1)) as [x|]; [|discriminate A]. cbn [option_map] in A.
    exists x. split; [reflexivity|congruence]. }
  right. rewrite (skip_front _ _ _ _ L0 D0) in A.
  destruct (t - length asks - length A1 - length A0)%nat as [|[|k]] eqn:E.
  - left. split; [lia|]. cbn [nth_error] in A. congruence.
  - right. split; [lia|]. cbn [nth_error] in A. congruence.
  - destruct k; discriminate A.
Qed.

Lemma event_store1 k x : nth_error A1 k = Some x -> event_at log (s1 + k) (CWrite 1 x (mem_at V1 x)).
Proof.
  intros A. assert (L : (k < length A1)%nat) by (apply nth_error_Some; congruence).
  unfold event_at, two_log. cbn [app]. change (s1 + k)%nat with (S (S (length asks + k))). cbn [nth_error].
  rewrite (skip_front _ _ (length asks)) by (apply map_length || lia). replace (length asks + k - length asks)%nat with k by lia.
  rewrite in_front by (unfold stores; rewrite map_length; exact L). unfold stores. rewrite nth_error_map, A. reflexivity.
Qed.

Lemma event_store0 k x : nth_error A0 k = Some x -> event_at log (s0 + k) (CWrite 0 x (mem_at V0 x)).
Proof.
  intros A. assert (L : (k < length A0)%nat) by (apply nth_error_Some; congruence).
  unfold event_at, two_log. cbn [app]. change (s0 + k)%nat with (S (S (length asks + length A1 + k))). cbn [nth_error].
  rewrite (skip_front _ _ (length asks)) by (apply map_length || lia).
  rewrite (skip_front _ _ (length A1)) by (apply map_length || lia).
  replace (length asks + length A1 + k - length asks - length A1)%nat with k by lia.
  rewrite in_front by (unfold stores; rewrite map_length; exact L). unfold stores. rewrite nth_error_map, A. reflexivity.
Qed.

Lemma event_end k : (k < 2)%nat -> event_at log (se + k) (CEnd k).
Proof.
  intros L. unfold event_at, two_log. cbn [app].
  change (se + k)%nat with (S (S (length asks + length A1 + length A0 + k))). cbn [nth_error].
  rewrite (skip_front _ _ (length asks)) by (apply map_length || lia).
  rewrite (skip_front _ _ (length A1)) by (apply map_length || lia).
  rewrite (skip_front _ _ (length A0)) by (apply map_length || lia).
  replace (length asks + length A1 + length A0 + k - length asks - length A1 - length A0)%nat with k by lia.
  destruct k as [|[|k]]; [reflexivity|reflexivity|lia].
Qed.

Lemma span0 t x : event_at log t x -> c_thread x = 0%nat ->
  (t = 0%nat /\ x = CBegin 0) \/ (t = se /\ x = CEnd 0) \/ ((0 < t < se)%nat /\ x <> CBegin 0 /\ x <> CEnd 0).
Proof.
  intros A Th. destruct (event_cases _ _ A) as [[-> ->]|[[-> ->]|[[L (a & _ & ->)]|[[L (y & _ & ->)]|[[L (y & _ & ->)]|[[-> ->]|[-> ->]]]]]]];
    try discriminate Th.
  - left. auto.
  - right. right. repeat split; [lia|lia|discriminate|discriminate].
  - right. right. repeat split; [lia|lia|discriminate|discriminate].
  - right. left. auto.
Qed.

Lemma span1 t x : event_at log t x -> c_thread x = 1%nat ->
  (t = 1%nat /\ x = CBegin 1) \/ (t = S se /\ x = CEnd 1) \/ ((1 < t < S se)%nat /\ x <> CBegin 1 /\ x <> CEnd 1).
Proof.
  intros A Th. destruct (event_cases _ _ A) as [[-> ->]|[[-> ->]|[[L (a & _ & ->)]|[[L (y & _ & ->)]|[[L (y & _ & ->)]|[[-> ->]|[-> ->]]]]]]];
    try discriminate Th.
  - left. auto.
  - right. right. repeat split; [lia|lia|discriminate|discriminate].
  - right. right. repeat split; [lia|lia|discriminate|discriminate].
  - right. left. auto.
Qed.

Lemma write0 t x b : event_at log t (CWrite 0 x b) -> (s0 <= t < se)%nat /\ nth_error A0 (t - s0) = Some x.
Proof.
  intros A. destruct (event_cases _ _ A) as [[_ X]|[[_ X]|[[_ (a & _ & X)]|[[_ (y & _ & X)]|[[L (y & E & X)]|[[_ X]|[_ X]]]]]]];
    try discriminate X.
  split; [exact L|]. rewrite E. congruence.
Qed.

Lemma write1 t x b : event_at log t (CWrite 1 x b) -> (s1 <= t < s0)%nat /\ nth_error A1 (t - s1) = Some x.
Proof.
  intros A. destruct (event_cases _ _ A) as [[_ X]|[[_ X]|[[_ (a & _ & X)]|[[L (y & E & X)]|[[_ (y & _ & X)]|[[_ X]|[_ X]]]]]]];
    try discriminate X.
  split; [exact L|]. rewrite E. congruence.
Qed.

Lemma asked_stores i j V l : asked i (stores j V l) = [].
Proof. unfold asked, stores. induction l as [|x l IH]; [reflexivity|exact IH]. Qed.

Lemma asked_log i : asked i log = asked i (requests asks).
Proof.
  unfold two_log. unfold asked. rewrite !flat_map_app. fold (asked i (stores 1 V1 A1)).
  fold (asked i (stores 0 V0 A0)). rewrite !asked_stores. cbn [flat_map app]. apply app_nil_r.
Qed.

Lemma thread_known t e : event_at log t e -> (c_thread e < 2)%nat.
Proof.
  intros A. destruct (event_cases _ _ A) as [[_ ->]|[[_ ->]|[[_ (a & I & ->)]|[[_ (y & _ & ->)]|[[_ (y & _ & ->)]|[[_ ->]|[_ ->]]]]]]];
    cbn [c_thread ask]; try lia. exact (Threads a I).
Qed.

Lemma both_run t : (2 <= t <= se)%nat -> running log 0 t /\ running log 1 t.
Proof.
  intros L. split.
  - exists 0%nat, (se + 0)%nat. split; [reflexivity|]. split; [apply event_end; lia|lia].
  - exists 1%nat, (se + 1)%nat. split; [reflexivity|]. split; [apply event_end; lia|lia].
Qed.

(** the memory before the first store *)
Lemma memory_two M : memory_at M log 2 = M.
Proof. reflexivity. Qed.

Lemma two_concurrent {T : Target} {P : Prims} M op0 op1 :
  legal M op0 -> legal M op1 ->
  c_step replay (asked 0 (requests asks)) M op0 = ([], FReturn 0 V0) ->
  c_step replay (asked 1 (requests asks)) M op1 = ([], FReturn 0 V1) ->
  (forall x, In x A0 <-> may_change op0 0 x) -> (forall x, In x A1 <-> may_change op1 0 x) ->
  (forall x, c_writes op0 x -> ~ (c_reads op1 x \/ c_writes op1 x)) ->
  (forall x, c_writes op1 x -> ~ (c_reads op0 x \/ c_writes op0 x)) ->
  c_concurrent M log [(op0, 0); (op1, 0)].
Proof.
  intros L0 L1 E0 E1 W0 W1 D01 D10. split; [exact thread_known|]. split.
  - intros i op code E. destruct i as [|[|i]]; [| |destruct i; discriminate E]; injection E as <- <-.
    + split; [exact L0|]. split.
      { exists 0%nat, se. split; [reflexivity|]. split; [|split; [lia|exact span0]].
        pose proof (event_end 0 ltac:(lia)) as X. replace (se + 0)%nat with se in X by lia. exact X. }
      exists M, V0. split; [reflexivity|]. split.
      { intros x _. exists 2%nat. split; [apply both_run; lia|]. rewrite memory_two. reflexivity. }
      split; [rewrite asked_log; exact E0|]. split.
      * intros t x b A. destruct (write0 _ _ _ A) as [_ X]. apply W0. exact (nth_error_In _ _ X).
      * intros x X. apply W0, In_nth_error in X. destruct X as [k X].
        exists (s0 + k)%nat. split; [exact (event_store0 k x X)|].
        intros t' b A. destruct (write0 _ _ _ A) as [L Y].
        assert (k = t' - s0)%nat.
        { apply (proj1 (NoDup_nth_error A0) Once0); [apply nth_error_Some; congruence|congruence]. }
        lia.
    + split; [exact L1|]. split.
      { exists 1%nat, (S se). split; [reflexivity|]. split; [|split; [lia|exact span1]].
        pose proof (event_end 1 ltac:(lia)) as X. replace (se + 1)%nat with (S se) in X by lia. exact X. }
      exists M, V1. split; [reflexivity|]. split.
      { intros x _. exists 2%nat. split; [apply both_run; lia|]. rewrite memory_two. reflexivity. }
      split; [rewrite asked_log; exact E1|]. split.
      * intros t x b A. destruct (write1 _ _ _ A) as [_ X]. apply W1. exact (nth_error_In _ _ X).
      * intros x X. apply W1, In_nth_error in X. destruct X as [k X].
        exists (s1 + k)%nat. split; [exact (event_store1 k x X)|].
        intros t' b A. destruct (write1 _ _ _ A) as [L Y].
        assert (k = t' - s1)%nat.
        { apply (proj1 (NoDup_nth_error A1) Once1); [apply nth_error_Some; congruence|congruence]. }
        lia.
  - intros i j t op1' code1 op2' code2 D X1 X2 _ _ x.
    destruct i as [|[|i]]; [| |destruct i; discriminate X1]; (destruct j as [|[|j]]; [| |destruct j; discriminate X2]);
      try (destruct (D eq_refl)); injection X1 as <- <-; injection X2 as <- <-; [apply D01|apply D10].
Qed.
End Events.

Definition addresses (pub priv : N) : list N := nseq pub 32 ++ nseq priv 64.

Lemma In_addresses pub priv x : In x (addresses pub priv) <-> pub <= x < pub + 32 \/ priv <= x < priv + 64.
Proof. unfold addresses. rewrite in_app_iff, !In_nseq. reflexivity. Qed.

Lemma nodup_addresses pub priv : pub + 32 <= priv -> NoDup (addresses pub priv).
Proof.
  intros L. apply NoDup_app_disj; [apply NoDup_nseq..|]. intros x. rewrite !In_nseq. lia.
Qed.

(** two key generations *)
Definition keygen_asks : list (nat * N) := [(1%nat, 10); (0%nat, 20); (0%nat, 21); (1%nat, 11); (1%nat, 12); (0%nat, 22)].
Definition two_keygens_log (V0 V1 : cmem) : list c_event :=
  two_log keygen_asks (addresses 100 200) (addresses 400 500) V0 V1.
Definition two_keygens : list (c_op * N) := [(CKeygen 100 200, 0); (CKeygen 400 500, 0)].

Lemma legal_two M : mem_top M = 20000 ->
  legal (T := debug64) M (CKeygen 100 200) /\ legal (T := debug64) M (CKeygen 400 500).
Proof. intros E. unfold legal, null_or_struct, apart. rewrite E. lia. Qed.

Lemma toy_two_keygens :
  exists V0 V1, c_concurrent (T := debug64) (P := toy_prims) zeros (two_keygens_log V0 V1) two_keygens.
Proof.
  destruct (legal_two zeros eq_refl) as [L0 L1].
  destruct (named_c_call_results debug64 toy_prims replay [part 20; part 21; part 22] zeros) as [K0 _].
  destruct (proj2 (proj2 (K0 100 200 L0) ltac:(discriminate) ltac:(discriminate))
              _ _ _ _ _ _ (replay_gives _ _) (replay_gives _ _) (replay_gives _ _)) as (V0 & E0 & _).
  destruct (named_c_call_results debug64 toy_prims replay [part 10; part 11; part 12] zeros) as [K1 _].
  destruct (proj2 (proj2 (K1 400 500 L1) ltac:(discriminate) ltac:(discriminate))
              _ _ _ _ _ _ (replay_gives _ _) (replay_gives _ _) (replay_gives _ _)) as (V1 & E1 & _).
  clear K0 K1. exists V0, V1. unfold two_keygens_log, two_keygens. apply two_concurrent.
  - intros a I. repeat (destruct I as [<-|I]; [cbn; lia|]). destruct I.
  - apply nodup_addresses. lia.
  - apply nodup_addresses. lia.
  - exact L0.
  - exact L1.
  - exact E0.
  - exact E1.
  - intros x. rewrite In_addresses. cbn [may_change]. tauto.
  - intros x. rewrite In_addresses. cbn [may_change]. tauto.
  - intros x. cbn [c_reads c_writes]. lia.
  - intros x. cbn [c_reads c_writes]. lia.
Qed.

(** two signatures of the five bytes at 300 with the key at 200, into the structs at 1000 and 20000 *)
Definition wide_zeros : cmem := {| mem_top := 40000; mem_at := fun _ => Byte.x00 |}.
Definition two_signs_log (V0 V1 : cmem) : list c_event :=
  two_log [(0%nat, 30); (1%nat, 31)] (nseq 1000 (N.to_nat 17088)) (nseq 20000 (N.to_nat 17088)) V0 V1.
Definition two_signs : list (c_op * N) := [(CSign 300 5 200 1000, 0); (CSign 300 5 200 20000, 0)].

Lemma toy_two_signs :
  exists M V0 V1, c_concurrent (T := debug64) (P := toy_prims) M (two_signs_log V0 V1) two_signs.
Proof.
  assert (Lk : legal (T := debug64) wide_zeros (CKeygen 100 200)) by (unfold legal, null_or_struct, apart; cbn [mem_top wide_zeros]; lia).
  destruct (named_c_call_results debug64 toy_prims counter 0 wide_zeros) as [K _].
  destruct (proj2 (proj2 (K 100 200 Lk) ltac:(discriminate) ltac:(discriminate))
              _ _ _ _ _ _ (counter_gives 0 16) (counter_gives 1 16) (counter_gives 2 16)) as (M & E & _). clear K.
  destruct (step_effect (T := debug64) (P := toy_prims) _ _ _ _ _ _ _ Lk E) as (_ & Tp & _ & Sf). cbn [step_facts] in Sf.
  destruct (Sf eq_refl) as (_ & _ & G & _). clear Sf E Lk. change (mem_top wide_zeros) with 40000 in Tp.
  assert (L : forall out, out = 1000 \/ out = 20000 -> legal (T := debug64) M (CSign 300 5 200 out)).
  { intros out O. unfold legal, null_or_struct, apart, readable. rewrite Tp. change (Z.to_N 5) with 5.
    change (2 ^ usize_bits) with 18446744073709551616. lia. }
  destruct (proj2 (good_signs (T := debug64) (P := toy_prims) replay [part 30] M 300 5 200 1000 (L 1000 (or_introl eq_refl))
              ltac:(discriminate) ltac:(discriminate) ltac:(discriminate) G) _ _ (replay_gives _ _)) as (V0 & E0).
  destruct (proj2 (good_signs (T := debug64) (P := toy_prims) replay [part 31] M 300 5 200 20000 (L 20000 (or_intror eq_refl))
              ltac:(discriminate) ltac:(discriminate) ltac:(discriminate) G) _ _ (replay_gives _ _)) as (V1 & E1).
  exists M, V0, V1. unfold two_signs_log, two_signs. apply two_concurrent.
  - intros a I. repeat (destruct I as [<-|I]; [cbn; lia|]). destruct I.
  - apply NoDup_nseq.
  - apply NoDup_nseq.
  - apply L. left. reflexivity.
  - apply L. right. reflexivity.
  - exact E0.
  - exact E1.
  - intros x. rewrite In_nseq, N2Nat.id. cbn [may_change]. tauto.
  - intros x. rewrite In_nseq, N2Nat.id. cbn [may_change]. tauto.
  - intros x. cbn [c_reads c_writes]. change (Z.to_N 5) with 5. lia.
  - intros x. cbn [c_reads c_writes]. change (Z.to_N 5) with 5. lia.
Qed.

Lemma two_signs_run V0 V1 :
  running (two_signs_log V0 V1) 0 3 /\ running (two_signs_log V0 V1) 1 3.
Proof.
  apply both_run. split; [lia|]. rewrite <- Nat.add_assoc. apply Nat.le_trans with (2 + 2)%nat; [lia|]. apply Nat.le_add_r.
Qed.
