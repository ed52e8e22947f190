(** Closed forms of the FIPS 205 helper algorithms of Spec/Fips205.v. *)
From Verif Require Import Bytes Proof.HelpersP.
From Verif Require Import Spec.Fips205.

Lemma for_st {S} (body : N -> S -> S) (st : N -> S) lo hi :
  lo <= hi -> (forall i, lo <= i < hi -> body i (st i) = st (i + 1)) ->
  for_ lo hi body (st lo) = st hi.
Proof.
  intros Hle. unfold for_.
  remember (N.to_nat (hi - lo)) as k eqn:Ek.
  assert (Eh : hi = lo + N.of_nat k) by lia. clear Ek Hle. subst hi. revert lo.
  induction k as [|k IH]; intros lo H; cbn [nseq fold_left].
  - rewrite N.add_0_r. reflexivity.
  - rewrite H by lia. rewrite IH.
    + f_equal. lia.
    + intros i Hi. apply H. lia.
Qed.

Lemma for_st' {S} (body : N -> S -> S) (st : N -> S) lo hi s0 s1 :
  lo <= hi -> s0 = st lo -> s1 = st hi ->
  (forall i, lo <= i < hi -> body i (st i) = st (i + 1)) ->
  for_ lo hi body s0 = s1.
Proof. intros Hle -> ->. apply for_st. exact Hle. Qed.

(** loops that append one element *)
Lemma for_append {A} (v : N -> A) k :
  for_ 0 k (fun i acc => acc ++ [v i]) [] = map v (nrange k).
Proof.
  apply (for_st' _ (fun i => map v (nrange i))); [lia|reflexivity|reflexivity|].
  intros i _. rewrite nrange_snoc, map_app. reflexivity.
Qed.

Lemma toByte_be x k : toByte x k = be_bytes (N.to_nat k) x.
Proof.
  unfold toByte.
  assert (E : for_ 0 k (fun _ '(str, total) => (n2b (total mod 256) :: str, total / 256)) ([], x)
              = (be_bytes (N.to_nat k) x, x / 256 ^ k)).
  { rewrite <- (Nnat.N2Nat.id k) at 1 3. generalize (N.to_nat k) as j. clear k. intros j. revert x.
    (* peel the loop from the front: be_bytes (j+1) x = be_bytes j (x/256) ++ [x mod 256] *)
    assert (G : forall j x acc lo,
      fold_left (fun (s : bytes * N) (_ : N) =>
                   let '(str, total) := s in (n2b (total mod 256) :: str, total / 256))
                (nseq lo j) (acc, x)
      = (be_bytes j x ++ acc, x / 256 ^ N.of_nat j)).
    { clear j. induction j as [|j IH]; intros x acc lo; cbn [nseq fold_left be_bytes].
      - cbn. rewrite N.pow_0_r, N.div_1_r. reflexivity.
      - rewrite IH. rewrite <- app_assoc. cbn [app].
        rewrite N.div_div by (try apply N.pow_nonzero; discriminate).
        rewrite n2b_mod.
        replace (256 * 256 ^ N.of_nat j) with (256 ^ N.of_nat (S j)); [reflexivity|].
        rewrite <- N.pow_succ_r'. f_equal. lia. }
    intros x. unfold for_. rewrite N.sub_0_r, Nnat.Nat2N.id. rewrite G, app_nil_r. reflexivity. }
  rewrite E. reflexivity.
Qed.

Lemma toInt_of_be x k : nlen x = k -> toInt x k = of_be x.
Proof.
  intros Hk. unfold toInt.
  rewrite (for_st' _ (fun i => of_be (firstn (N.to_nat i) x)) 0 k 0 (of_be x)); [reflexivity|lia| | |].
  - reflexivity.
  - rewrite firstn_all2 by (unfold nlen in Hk; lia). reflexivity.
  - intros i Hi. replace (N.to_nat (i + 1)) with (S (N.to_nat i)) by lia.
    rewrite (firstn_S_nth x _ (nth (N.to_nat i) x x00)).
    + rewrite of_be_snoc. lia.
    + apply nth_error_nth'. unfold nlen in Hk. lia.
Qed.

Lemma base_2b_digits x b cnt :
  1 <= b -> cnt * b <= 8 * nlen x -> Fips205.base_2b x b cnt = digits x b cnt.
Proof.
  intros Hb Hx. unfold Fips205.base_2b.
  set (st := fun i => (digits x b i, nread b i, 8 * nread b i - i * b,
                       of_be (firstn (N.to_nat (nread b i)) x))).
  rewrite (for_st' _ st 0 cnt _ (st cnt)); [reflexivity|lia|reflexivity|reflexivity|].
  intros i Hi. unfold st at 1. cbv beta iota.
  set (r0 := nread b i). set (r1 := nread b (i + 1)).
  assert (R0 : i * b <= 8 * r0 < i * b + 8).
  { unfold r0, nread. pose proof (N.div_mod (i * b + 7) 8 ltac:(lia)).
    pose proof (N.mod_lt (i * b + 7) 8 ltac:(lia)). lia. }
  assert (R1 : (i + 1) * b <= 8 * r1 < (i + 1) * b + 8).
  { unfold r1, nread. pose proof (N.div_mod ((i + 1) * b + 7) 8 ltac:(lia)).
    pose proof (N.mod_lt ((i + 1) * b + 7) 8 ltac:(lia)). lia. }
  assert (Hle : (i + 1) * b <= 8 * nlen x) by nia.
  assert (Hr1 : r1 <= nlen x) by lia.
  assert (Hr01 : r0 <= r1) by nia.
  replace (ceil_div (b - (8 * r0 - i * b)) 8) with (r1 - r0).
  2:{ unfold ceil_div. destruct (N.eq_dec (b - (8 * r0 - i * b)) 0) as [E|E].
      - rewrite E. change ((0 + 8 - 1) / 8) with 0. nia.
      - apply (N.div_unique _ _ _ ((b - (8 * r0 - i * b) + 7) - 8 * (r1 - r0))); nia. }
  assert (IT : forall j, j <= r1 - r0 ->
    N.iter j (fun '(inn, bits, total) =>
                (inn + 1, bits + 8, total * 256 + b2n (nth (N.to_nat inn) x x00)))
      (r0, 8 * r0 - i * b, of_be (firstn (N.to_nat r0) x))
    = (r0 + j, 8 * (r0 + j) - i * b, of_be (firstn (N.to_nat (r0 + j)) x))).
  { intros j. induction j as [|j IHj] using N.peano_ind; intros Hj.
    - cbn [N.iter]. rewrite N.add_0_r. reflexivity.
    - rewrite N.iter_succ. rewrite IHj by lia.
      replace (N.to_nat (r0 + N.succ j)) with (S (N.to_nat (r0 + j))) by lia.
      rewrite (firstn_S_nth x _ (nth (N.to_nat (r0 + j)) x x00)).
      + rewrite of_be_snoc.
        replace (r0 + N.succ j) with (r0 + j + 1) by lia.
        replace (8 * (r0 + j) - i * b + 8) with (8 * (r0 + j + 1) - i * b) by lia. reflexivity.
      + apply nth_error_nth'. unfold nlen in Hr1. lia. }
  rewrite IT by lia. clear IT. cbv beta iota.
  replace (r0 + (r1 - r0)) with r1 by lia.
  unfold st. fold r1.
  replace (8 * r1 - i * b - b) with (8 * r1 - (i + 1) * b) by lia.
  rewrite of_be_firstn by (unfold nlen in Hr1; lia).
  rewrite N.div_div by apply pow2_nz. rewrite <- N.pow_add_r.
  unfold digits. rewrite nrange_snoc, map_app. cbn [map].
  unfold digit at 3.
  replace (8 * (nlen x - N.of_nat (N.to_nat r1)) + (8 * r1 - (i + 1) * b))
    with (8 * nlen x - (i + 1) * b) by (rewrite Nnat.N2Nat.id; nia).
  reflexivity.
Qed.
