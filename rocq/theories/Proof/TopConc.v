(** Concurrent calls. *)
From Coq Require Import String Permutation.
From Verif Require Import Spec.Fips205 Spec.Fips205Hash.
From Verif Require Import Model.Api Spec.Vocab Spec.VocabConc Proof.Summary Proof.CallsP Proof.TopCorrect Proof.TopSafety
  Proof.TopFips.
Import ListNotations.
Open Scope list_scope.
Open Scope N_scope.

(** ** Calls that make at most one request *)
Section Shape.
Context {A : Type}.
Definition quiet (f : forall r : Rng, RM r A) : Prop := exists m : M A, forall r g, f r g = (g, m).
Definition asks1 (f : forall r : Rng, RM r A) : Prop :=
  exists t n (K : outcome bytes -> M A), forall r g,
    f r g = (fst (try_fill r g n), (t ++ ERng n :: trace (K (snd (try_fill r g n))), result (K (snd (try_fill r g n))))).
Definition shy (f : forall r : Rng, RM r A) : Prop := quiet f \/ asks1 f.
End Shape.

Lemma shy_lift {A} (m : M A) : shy (fun r => rlift m).
Proof. left. exists m. reflexivity. Qed.

Lemma shy_fill n msg : shy (fun r => fill_or (r := r) n msg).
Proof.
  right. exists [], n, (fun o => ([], match o with Val b => Val b | Err _ => Err msg | Panic q => Panic q end)).
  intros r g. unfold fill_or. destruct (try_fill r g n) as [g' o]. reflexivity.
Qed.

Lemma shy_bind_r {A B} (f : forall r, RM r A) (h : A -> M B) :
  shy f -> shy (fun r => rbind (f r) (fun a => rlift (h a))).
Proof.
  intros [[m E]|[t [n [K E]]]].
  - left. exists (bind m h). intros r g. unfold rbind, rlift, bind. rewrite E.
    destruct m as [t [a|e|q]]; [|reflexivity..]. destruct (h a) as [t' o]. reflexivity.
  - right. exists t, n, (fun o => bind (K o) h). intros r g. unfold rbind. rewrite E.
    set (o := snd (try_fill r g n)). destruct (K o) as [t' [a|e|q]]; cbn [trace result bind fst snd]; [|reflexivity..].
    unfold rlift. destruct (h a) as [t'' o']. cbn [trace result fst snd bind]. rewrite <- app_assoc. reflexivity.
Qed.

Lemma shy_bind_l {A B} (m : M A) (k : A -> forall r, RM r B) :
  (forall a, shy (k a)) -> shy (fun r => rbind (rlift m) (fun a => k a r)).
Proof.
  intros Hk. destruct m as [t [a|e|q]].
  - destruct (Hk a) as [[m' E]|[t' [n [K E]]]].
    + left. exists (t ++ trace m', result m'). intros r g. unfold rbind, rlift. rewrite E.
      destruct m' as [t' o]. reflexivity.
    + right. exists (t ++ t'), n, K. intros r g. unfold rbind, rlift. rewrite E. rewrite app_assoc. reflexivity.
  - left. exists (t, Err e). reflexivity.
  - left. exists (t, Panic q). reflexivity.
Qed.

Lemma shy_if {A} (b : bool) (f g : forall r, RM r A) : shy f -> shy g -> shy (fun r => if b then f r else g r).
Proof. intros F G. destruct b; assumption. Qed.

Lemma shy_ext {A} (f f' : forall r, RM r A) : (forall r g, f r g = f' r g) -> shy f -> shy f'.
Proof.
  intros X [[m E]|[t [n [K E]]]]; [left; exists m|right; exists t, n, K]; intros r g; rewrite <- X; apply E.
Qed.

Section Calls.
Context {T : Target} {P : Prims}.

Lemma shy_rand {A} (b : bool) (z : bytes) msg (h : bytes -> M A) :
  shy (fun r => c <-- rlift (branch b) ;;
                o <-- (if c then fill_or (nlen z) msg else rlift (ret z)) ;;
                rlift (h o)).
Proof.
  apply (shy_bind_l (branch b) (fun c r => rbind (if c then fill_or (nlen z) msg else rlift (ret z)) (fun o => rlift (h o)))).
  intros c. apply (shy_bind_r (fun r => if c then fill_or (nlen z) msg else rlift (ret z))).
  apply shy_if; [apply shy_fill|apply shy_lift].
Qed.

Lemma shy_sign_rng p hs mp sk b : shy (fun r => slh_sign_with_rng p hs r mp sk b).
Proof. apply shy_rand. Qed.

Lemma shy_ser p (f : forall r, RM r SlhDsaSig) : shy f -> shy (fun r => map_serialize p (f r)).
Proof. intros F. apply (shy_bind_r f (fun sg => serialize p sg)). exact F. Qed.

Lemma shy_sign p sk m ctx b : shy (fun r => try_sign_with_rng p r sk m ctx b).
Proof.
  unfold try_sign_with_rng. refine (shy_bind_l _ _ _). intros c.
  refine (shy_if _ _ _ _ _); [apply shy_lift|]. apply shy_ser, shy_sign_rng.
Qed.

Lemma shy_hash_sign p sk m ctx ph b : shy (fun r => try_hash_sign_with_rng p r sk m ctx ph b).
Proof.
  unfold try_hash_sign_with_rng. refine (shy_bind_l _ _ _). intros c.
  refine (shy_if _ _ _ _ _); [apply shy_lift|]. cbv zeta.
  refine (shy_bind_l _ (fun res r => let '(oid, phm, l) := res in rbind (rlift (slice phm 0 l)) _) _). intros [[oid phm] l].
  refine (shy_bind_l _ _ _). intros d. apply shy_ser, shy_sign_rng.
Qed.

Lemma shy_raw p sk m b : shy (fun r => raw_sign p r sk m b).
Proof.
  unfold raw_sign, map_serialize. cbv zeta. refine (shy_bind_l _ _ _). intros c.
  set (F := fun r => rbind (if c then fill_or (r := r) (nlen (sk_pk_seed sk)) "Alg17: rng failed"%string else rlift (ret (sk_pk_seed sk)))
             (fun o => rlift (slh_sign_internal p (HASHERS p) [m] sk o))).
  apply (shy_ext (fun r => rbind (F r) (fun sg => rlift (serialize p sg)))).
  - intros r g. unfold F, rbind. destruct c.
    + destruct (fill_or _ _ g) as [g' [t [a|e|q]]]; [|reflexivity..].
      unfold rlift. destruct (slh_sign_internal _ _ _ _ _) as [t' [a'|e'|q']]; [|reflexivity..].
      destruct (serialize p a') as [t'' o]. rewrite app_assoc. reflexivity.
    + unfold rlift. destruct (ret _) as [t [a|e|q]]; [|reflexivity..].
      destruct (slh_sign_internal _ _ _ _ _) as [t' [a'|e'|q']]; [|reflexivity..].
      destruct (serialize p a') as [t'' o]. rewrite app_assoc. reflexivity.
  - refine (shy_bind_r F _ _). unfold F.
    refine (shy_bind_r (fun r => if c then fill_or _ _ else rlift (ret _)) _ _).
    refine (shy_if _ _ _ _ _); [apply shy_fill|apply shy_lift].
Qed.

Lemma shy_perform s c : c <> TKeygen -> shy (perform s c).
Proof.
  intros NK. destruct c as [|sk m ctx b|sk m ctx ph b|sk m b|pk m sig ctx|pk m sig ctx ph|pk m sig]; [contradiction| | | | | |].
  - exact (shy_bind_r _ (fun sig => ret (OSig sig)) (shy_sign (param_set s) sk m ctx b)).
  - exact (shy_bind_r _ (fun sig => ret (OSig sig)) (shy_hash_sign (param_set s) sk m ctx (ph_arg ph) b)).
  - exact (shy_bind_r _ (fun sig => ret (OSig sig)) (shy_raw (param_set s) sk m b)).
  - exact (shy_bind_r _ (fun b => ret (OVerdict b)) (shy_lift (verify (param_set s) pk m sig ctx))).
  - exact (shy_bind_r _ (fun b => ret (OVerdict b)) (shy_lift (hash_verify (param_set s) pk m sig ctx (ph_arg ph)))).
  - exact (shy_bind_r _ (fun b => ret (OVerdict b)) (shy_lift (raw_verify (param_set s) pk m sig))).
Qed.

(** a signing call that completes made no request, or one *)
Lemma completes_shy s i c log asks o :
  c <> TKeygen -> completes s i c log asks o -> (forall n b, In (n, Val b) asks -> nlen b = n) ->
  (asks = [] /\ forall r g, call (perform s c r) g = o /\ gen_after (perform s c r) g = g) \/
  (exists n a, asks = [(n, a)] /\
     forall r g g', try_fill r g n = (g', a) -> call (perform s c r) g = o /\ gen_after (perform s c r) g = g').
Proof.
  intros NK [_ [C [D G]]] WL. unfold call, trace_of, gen_after in *.
  destruct (shy_perform s c NK) as [[m E]|[t [n [K E]]]].
  - left. rewrite E in C, G. cbn [fst snd] in C, G. apply map_eq_nil in G. subst asks. split; [reflexivity|].
    intros r g. rewrite E. split; [exact C|reflexivity].
  - right. rewrite E in C, D, G. cbn [fst snd] in C, D, G.
    unfold trace in D at 1. cbn [fst] in D. unfold draws in D. rewrite flat_map_app in D. cbn [flat_map app] in D.
    destruct asks as [|[n1 a1] asks].
    { exfalso. cbn [map] in D. destruct (flat_map _ t); discriminate D. }
    assert (LA : asks = []).
    { cbn [map snd] in G. cbn [try_fill script] in G. apply (map_eq_nil snd).
      destruct a1 as [b|e|q]; exact G. }
    subst asks. cbn [map fst snd] in D, C. exists n1, a1. split; [reflexivity|].
    assert (N1 : n = n1).
    { destruct (flat_map _ t) as [|x l]; cbn [app] in D; injection D as D1 D2; [exact D1|].
      exfalso. destruct l; discriminate D2. }
    subst n1. intros r g g' F. rewrite E, F. cbn [fst snd]. split; [|reflexivity].
    assert (X : snd (try_fill script [a1] n) = a1).
    { cbn [try_fill script script_fill]. destruct a1 as [b|e|q]; cbn [snd script_fill]; [|reflexivity..].
      rewrite (WL n b (or_introl eq_refl)), N.eqb_refl. reflexivity. }
    rewrite X in C. exact C.
Qed.
End Calls.

(** ** The log *)
Lemma served_len r g log g' : served r g log g' ->
  forall i n b, In (Ask i n (Val b)) log -> nlen b = n.
Proof.
  induction 1 as [g|i g log g' _ IH|i g log g' _ IH|i n o g g1 log g' F _ IH]; intros j k b I.
  - destruct I.
  - destruct I as [I|I]; [discriminate I|exact (IH _ _ _ I)].
  - destruct I as [I|I]; [discriminate I|exact (IH _ _ _ I)].
  - destruct I as [I|I]; [|exact (IH _ _ _ I)]. injection I as _ <- ->. exact (try_fill_len r _ _ _ _ F).
Qed.

Lemma in_own i log e : In e (own i log) <-> In e log /\ thread e = i.
Proof. unfold own. rewrite filter_In, Nat.eqb_eq. reflexivity. Qed.

Lemma own_app i l1 l2 : own i (l1 ++ l2) = own i l1 ++ own i l2.
Proof. apply filter_app. Qed.

Lemma asks_in_log {T : Target} {P : Prims} s i c log asks o n a :
  completes s i c log asks o -> In (n, a) asks -> In (Ask i n a) log.
Proof.
  intros [E _] I. apply (in_own i). rewrite E. right. apply in_or_app. left.
  exact (in_map (fun x => Ask i (fst x) (snd x)) _ _ I).
Qed.

(** the moments at which signing calls take effect *)
Definition is_ask (e : happening) : bool := match e with Ask _ _ _ => true | _ => false end.
Definition asks_in (log : list happening) (i : nat) : bool := existsb is_ask (own i log).
Definition moment (q : nat -> bool) (e : happening) : list nat :=
  match e with
  | Begin i => if q i then [] else [i]
  | Ask i _ _ => [i]
  | End_ i => []
  end.
Definition moments (q : nat -> bool) (log : list happening) : list nat := flat_map (moment q) log.

Lemma count_moments q i log :
  count_occ Nat.eq_dec (moments q log) i = count_occ Nat.eq_dec (moments q (own i log)) i.
Proof.
  induction log as [|e log IH]; [reflexivity|]. unfold moments, own in *. cbn [flat_map filter].
  rewrite count_occ_app, IH. destruct (Nat.eqb (thread e) i) eqn:E.
  - cbn [flat_map]. rewrite count_occ_app. reflexivity.
  - assert (X : count_occ Nat.eq_dec (moment q e) i = 0%nat); [|rewrite X; reflexivity].
    apply Nat.eqb_neq in E. apply count_occ_not_In. intros I. apply E.
    destruct e as [j|j n o|j]; cbn [moment thread] in *.
    + destruct (q j); [destruct I|destruct I as [I|[]]; exact I].
    + destruct I as [I|[]]; exact I.
    + destruct I.
Qed.

Lemma own_split i log l1 l2 :
  own i log = l1 ++ l2 -> exists L1 L2, log = L1 ++ L2 /\ own i L1 = l1 /\ own i L2 = l2.
Proof.
  revert l1. induction log as [|e log IH]; intros l1 E.
  - exists [], []. destruct l1; [|discriminate E]. cbn [app] in E. split; [reflexivity|]. split; [reflexivity|exact E].
  - unfold own in E. cbn [filter] in E. fold (own i log) in E.
    destruct (Nat.eqb (thread e) i) eqn:X.
    + destruct l1 as [|x l1].
      * exists [], (e :: log). split; [reflexivity|]. split; [reflexivity|].
        unfold own. cbn [filter]. rewrite X. exact E.
      * cbn [app] in E. injection E as <- E. destruct (IH _ E) as [L1 [L2 [-> [E1 E2]]]].
        exists (e :: L1), L2. split; [reflexivity|]. split; [|exact E2].
        unfold own. cbn [filter]. rewrite X. f_equal. exact E1.
    + destruct (IH _ E) as [L1 [L2 [-> [E1 E2]]]]. exists (e :: L1), L2. split; [reflexivity|]. split; [|exact E2].
      unfold own. cbn [filter]. rewrite X. exact E1.
Qed.

Section Lin.
Context {T : Target} {P : Prims} (s : set_name) (r : Rng) (g0 : rng_st r).
Context (calls : list tcall) (log : list happening) (g : rng_st r) (outs : list (outcome tout)).
Context (CC : concurrent s r g0 calls log g outs).
Context (NK : forall c, In c calls -> c <> TKeygen).

Let q := asks_in log.

Lemma lookup i : (i < length calls)%nat ->
  exists c o, nth_error calls i = Some c /\ nth_error outs i = Some o.
Proof.
  intros L. destruct CC as [_ [_ [LO _]]].
  destruct (nth_error calls i) as [c|] eqn:E1; [|apply nth_error_None in E1; lia].
  destruct (nth_error outs i) as [o|] eqn:E2; [|apply nth_error_None in E2; lia].
  exists c, o. split; reflexivity.
Qed.

Lemma sees i c o : nth_error calls i = Some c -> nth_error outs i = Some o ->
  (own i log = [Begin i; End_ i] /\ q i = false /\
     forall r g, call (perform s c r) g = o /\ gen_after (perform s c r) g = g) \/
  (exists n a, own i log = [Begin i; Ask i n a; End_ i] /\ q i = true /\
     forall r g g', try_fill r g n = (g', a) -> call (perform s c r) g = o /\ gen_after (perform s c r) g = g').
Proof.
  intros E1 E2. destruct CC as [SV [_ [_ CM]]]. destruct (CM i c o E1 E2) as [asks K].
  assert (WL : forall n b, In (n, Val b) asks -> nlen b = n).
  { intros n b I. exact (served_len _ _ _ _ SV _ _ _ (asks_in_log _ _ _ _ _ _ _ _ K I)). }
  pose proof (proj1 K) as O.
  destruct (completes_shy s i c log asks o (NK c (nth_error_In _ _ E1)) K WL) as [[-> Q]|[n [a [-> Q]]]].
  - left. split; [exact O|]. split; [|exact Q]. unfold q, asks_in. rewrite O. reflexivity.
  - right. exists n, a. split; [exact O|]. split; [|exact Q]. unfold q, asks_in. rewrite O. reflexivity.
Qed.

Lemma moments_perm : Permutation (moments q log) (seq 0 (length calls)).
Proof.
  apply (Permutation_count_occ Nat.eq_dec). intros i. destruct (Nat.lt_ge_cases i (length calls)) as [L|L].
  - rewrite (proj1 (NoDup_count_occ' Nat.eq_dec _) (seq_NoDup _ _) i) by (apply in_seq; lia).
    rewrite count_moments. destruct (lookup i L) as [c [o [E1 E2]]].
    destruct (sees i c o E1 E2) as [[O [Q _]]|[n [a [O [Q _]]]]];
      rewrite O; unfold moments; cbn [flat_map moment app]; rewrite Q; cbn [app count_occ];
      (destruct (Nat.eq_dec i i) as [_|X]; [reflexivity|contradiction]).
  - transitivity 0%nat; [|symmetry]; apply count_occ_not_In.
    + intros I. apply in_flat_map in I. destruct I as [e [Ie Im]].
      assert (X : thread e = i).
      { destruct e as [j|j n o|j]; cbn [moment thread] in *.
        + destruct (q j); [destruct Im|destruct Im as [I|[]]; exact I].
        + destruct Im as [I|[]]; exact I.
        + destruct Im. }
      destruct CC as [_ [B _]]. specialize (B e Ie). lia.
    + intros I. apply in_seq in I. lia.
Qed.

Definition pair_at (d : tcall * outcome tout) (i : nat) : tcall * outcome tout :=
  (nth i calls (fst d), nth i outs (snd d)).

Lemma moments_seq d l ga gb : (forall e, In e l -> In e log) -> served r ga l gb ->
  sequential s r ga (map (pair_at d) (moments q l)) gb.
Proof.
  intros I SV. revert I. induction SV as [ga|i ga l gb _ IH|i ga l gb _ IH|i n o ga g1 l gb F _ IH]; intros I.
  - constructor.
  - specialize (IH (fun e H => I e (or_intror H))). unfold moments. cbn [flat_map moment].
    destruct (q i) eqn:Q; [exact IH|]. cbn [app map].
    pose proof (proj1 (proj2 CC) _ (I _ (or_introl eq_refl))) as L. cbn [thread] in L.
    destruct (lookup i L) as [c [o [E1 E2]]].
    unfold pair_at at 1. rewrite (nth_error_nth _ _ (fst d) E1), (nth_error_nth _ _ (snd d) E2).
    destruct (sees i c o E1 E2) as [[_ [_ K]]|[n [a [_ [Q' _]]]]]; [|congruence].
    destruct (K r ga) as [K1 K2]. rewrite <- K1. apply seq_cons. rewrite K2. exact IH.
  - exact (IH (fun e H => I e (or_intror H))).
  - specialize (IH (fun e H => I e (or_intror H))). unfold moments. cbn [flat_map moment app map].
    pose proof (I _ (or_introl eq_refl)) as II.
    pose proof (proj1 (proj2 CC) _ II) as L. cbn [thread] in L.
    destruct (lookup i L) as [c [oo [E1 E2]]].
    unfold pair_at at 1. rewrite (nth_error_nth _ _ (fst d) E1), (nth_error_nth _ _ (snd d) E2).
    assert (IO : In (Ask i n o) (own i log)) by (apply in_own; split; [exact II|reflexivity]).
    destruct (sees i c oo E1 E2) as [[O _]|[n' [a [O [_ K]]]]]; rewrite O in IO.
    + exfalso. destruct IO as [X|[X|[]]]; discriminate X.
    + assert (X : Ask i n' a = Ask i n o).
      { destruct IO as [X|[X|[X|[]]]]; [discriminate X|exact X|discriminate X]. }
      injection X as -> ->. destruct (K r ga g1 F) as [K1 K2]. rewrite <- K1. apply seq_cons. rewrite K2. exact IH.
Qed.

Lemma moments_order i j : precedes log (End_ i) (Begin j) -> precedes (moments q log) i j.
Proof.
  intros [A [B [E [IA IB]]]].
  assert (Li : (i < length calls)%nat).
  { apply (proj1 (proj2 CC) (End_ i)). rewrite E. apply in_or_app. left. exact IA. }
  assert (Lj : (j < length calls)%nat).
  { apply (proj1 (proj2 CC) (Begin j)). rewrite E. apply in_or_app. right. exact IB. }
  destruct (lookup i Li) as [ci [oi [Ei Oi]]]. destruct (lookup j Lj) as [cj [oj [Ej Oj]]].
  exists (moments q A), (moments q B). split; [rewrite E; apply flat_map_app|]. split.
  - assert (IO : In (End_ i) (own i A)) by (apply in_own; split; [exact IA|reflexivity]).
    destruct (sees i _ _ Ei Oi) as [[O [Q _]]|[n [a [O [Q _]]]]]; rewrite E, own_app in O.
    + assert (X : In (Begin i) (own i A)).
      { destruct (own i A) as [|x l]; [destruct IO|]. cbn [app] in O. injection O as -> _. left. reflexivity. }
      apply in_own in X. apply in_flat_map. exists (Begin i). split; [apply X|]. cbn [moment]. rewrite Q. left. reflexivity.
    + assert (X : In (Ask i n a) (own i A)).
      { destruct (own i A) as [|x [|y l]]; [destruct IO| |].
        - cbn [app] in O. injection O as -> _. destruct IO as [X|[]]. discriminate X.
        - cbn [app] in O. injection O as -> -> _. right. left. reflexivity. }
      apply in_own in X. apply in_flat_map. exists (Ask i n a). split; [apply X|]. left. reflexivity.
  - assert (IO : In (Begin j) (own j B)) by (apply in_own; split; [exact IB|reflexivity]).
    assert (EA : own j A = []).
    { destruct (own j A) as [|x l] eqn:EA; [reflexivity|]. exfalso.
      destruct (sees j _ _ Ej Oj) as [[O _]|[n [a [O _]]]]; rewrite E, own_app, EA in O; cbn [app] in O;
        injection O as -> O.
      + assert (X : In (Begin j) [End_ j]) by (rewrite <- O; apply in_or_app; right; exact IO).
        destruct X as [X|[]]. discriminate X.
      + assert (X : In (Begin j) [Ask j n a; End_ j]) by (rewrite <- O; apply in_or_app; right; exact IO).
        destruct X as [X|[X|[]]]; discriminate X. }
    destruct (sees j _ _ Ej Oj) as [[O [Q _]]|[n [a [O [Q _]]]]]; rewrite E, own_app, EA in O; cbn [app] in O.
    + apply in_flat_map. exists (Begin j). split; [exact IB|]. cbn [moment]. rewrite Q. left. reflexivity.
    + assert (X : In (Ask j n a) (own j B)) by (rewrite O; right; left; reflexivity).
      apply in_own in X. apply in_flat_map. exists (Ask j n a). split; [apply X|]. left. reflexivity.
Qed.
End Lin.

Lemma prop_concurrent_signing_is_linearizable :
  forall (T : Target) (P : Prims) (s : set_name) (r : Rng) (g0 : rng_st r) (calls : list tcall)
         (log : list happening) (g : rng_st r) (outs : list (outcome tout)) (d : tcall * outcome tout),
    concurrent s r g0 calls log g outs ->
    (forall c, In c calls -> c <> TKeygen) ->
    exists order : list nat,
      Permutation order (seq 0 (length calls)) /\
      sequential s r g0 (map (fun i => (nth i calls (fst d), nth i outs (snd d))) order) g /\
      (forall i j, precedes log (End_ i) (Begin j) -> precedes order i j).
Proof.
  intros T P s r g0 calls log g outs d CC NK. exists (moments (asks_in log) log).
  split; [exact (moments_perm s r g0 calls log g outs CC NK)|].
  split; [|exact (moments_order s r g0 calls log g outs CC NK)].
  exact (moments_seq s r g0 calls log g outs CC NK d log g0 g (fun e H => H) (proj1 CC)).
Qed.

(** ** What each call returns *)
Lemma answers_own i log : answers i log = flat_map (fun e => match e with Ask _ _ o => [o] | _ => [] end) (own i log).
Proof.
  induction log as [|e log IH]; [reflexivity|]. unfold answers, own in *. cbn [flat_map filter]. rewrite IH.
  destruct e as [j|j n o|j]; cbn [thread]; destruct (Nat.eqb j i); reflexivity.
Qed.

Lemma answers_completes {T : Target} {P : Prims} s i c log asks o :
  completes s i c log asks o -> answers i log = map snd asks.
Proof.
  intros [E _]. rewrite answers_own, E. cbn [flat_map app]. rewrite flat_map_app. cbn [flat_map app].
  rewrite app_nil_r. clear E. induction asks as [|[n a] asks IH]; [reflexivity|].
  cbn [map flat_map app fst snd]. rewrite IH. reflexivity.
Qed.

Lemma wrap_call {r : Rng} {A B} (f : RM r A) (h : A -> B) g :
  call (rbind f (fun a => rlift (ret (h a)))) g =
    match call f g with Val a => Val (h a) | Err e => Err e | Panic q => Panic q end /\
  draws (trace_of (rbind f (fun a => rlift (ret (h a)))) g) = draws (trace_of f g) /\
  gen_after (rbind f (fun a => rlift (ret (h a)))) g = gen_after f g.
Proof.
  unfold call, trace_of, gen_after, rbind. destruct (f g) as [g' [t [a|e|q]]]; cbn; rewrite ?app_nil_r; auto.
Qed.

Lemma draws_keygen {T : Target} {P : Prims} s (r : Rng) (g : rng_st r) pk sk :
  call (try_keygen_with_rng (param_set s) r) g = Val (pk, sk) ->
  let n := seed_bytes s in
  exists a b c g1 g2 g3, try_fill r g n = (g1, Val a) /\ try_fill r g1 n = (g2, Val b) /\ try_fill r g2 n = (g3, Val c) /\
    gen_after (try_keygen_with_rng (param_set s) r) g = g3 /\
    exported s (Val (pk, sk)) = Some (Fips205.slh_keygen_internal (fips_params s) (fips_hash s) a b c).
Proof.
  intros E n. subst n. rewrite <- param_n.
  pose proof (keygen_is _ (param_PF s) g) as D. unfold keygen_desc in D. cbv zeta in D.
  unfold call in E. unfold gen_after.
  destruct (try_fill r g (cN (param_set s))) as [g1 [a|e|q]] eqn:E1; cbn [fst snd] in D;
    [|destruct D as [_ [D _]]; rewrite E in D; discriminate D..].
  destruct (try_fill r g1 (cN (param_set s))) as [g2 [b|e|q]] eqn:E2; cbn [fst snd] in D;
    [|destruct D as [_ [D _]]; rewrite E in D; discriminate D..].
  destruct (try_fill r g2 (cN (param_set s))) as [g3 [c|e|q]] eqn:E3; cbn [fst snd] in D;
    [|destruct D as [_ [D _]]; rewrite E in D; discriminate D..].
  destruct D as [D1 [D2 _]]. exists a, b, c, g1, g2, g3.
  split; [reflexivity|]. split; [exact E2|]. split; [exact E3|]. split; [exact D1|].
  rewrite <- E, D2. apply exported_key; eapply try_fill_len; eassumption.
Qed.

Lemma script_draw l n l' b : try_fill script l n = (l', Val b) -> l = Val b :: l'.
Proof.
  destruct l as [|[x|e|q] l]; cbn [try_fill script script_fill]; try discriminate.
  destruct (nlen x =? n); [|discriminate]. intros X. injection X as -> ->. reflexivity.
Qed.

Lemma one_ask {T : Target} {P : Prims} s (f : RM script bytes) sk mp hedged asks :
  sign_desc (param_set s) script (map snd asks) sk mp hedged (f (map snd asks)) ->
  (forall n b, In (n, Val b) asks -> nlen b = n) ->
  draws (trace_of f (map snd asks)) = map fst asks -> gen_after f (map snd asks) = [] ->
  addrnd s script (map snd asks) hedged = randomness (map snd asks) /\ length asks = if hedged then 1%nat else 0%nat.
Proof.
  intros D WL E G. pose proof (sign_desc_draws _ _ _ _ _ _ _ D) as X. unfold trace_of in E. rewrite X in E.
  unfold addrnd. rewrite <- param_n. destruct hedged.
  - destruct asks as [|[n a] asks]; [discriminate E|]. cbn [map fst] in E. injection E as EN EA.
    symmetry in EA. apply map_eq_nil in EA. subst asks n. cbn [map snd randomness length].
    split; [|reflexivity]. apply f_equal. cbn [try_fill script script_fill].
    destruct a as [b|e|q]; cbn [script_fill snd]; [|reflexivity..].
    rewrite (WL _ b (or_introl eq_refl)), N.eqb_refl. reflexivity.
  - symmetry in E. apply map_eq_nil in E. subst asks. split; reflexivity.
Qed.

(** a call without requests *)
Lemma pure_wrap {A} (m : M A) (h : A -> tout) (l : list (outcome bytes)) o :
  call (rbind (r := script) (rlift m) (fun a => rlift (ret (h a)))) l = o ->
  gen_after (rbind (r := script) (rlift m) (fun a => rlift (ret (h a)))) l = [] ->
  o = match result m with Val a => Val (h a) | Err e => Err e | Panic q => Panic q end /\ l = [].
Proof.
  destruct (wrap_call (r := script) (rlift m) h l) as [W1 [_ W3]]. rewrite W1, W3.
  unfold call, gen_after, rlift. cbn [fst snd]. intros <- E. split; [reflexivity|exact E].
Qed.

Lemma prop_concurrent_calls_are_fips :
  forall (T : Target) (P : Prims) (s : set_name) (r : Rng) (g0 : rng_st r) (calls : list tcall)
         (log : list happening) (g : rng_st r) (outs : list (outcome tout)),
    concurrent s r g0 calls log g outs ->
    forall i c o, nth_error calls i = Some c -> nth_error outs i = Some o ->
    match c with
    | TKeygen =>
        forall pk sk, o = Val (OKeys pk sk) ->
          key_pair s pk sk /\
          exists SKseed SKprf PKseed, answers i log = [Val SKseed; Val SKprf; Val PKseed] /\
            exported s (Val (pk, sk)) =
              Some (Fips205.slh_keygen_internal (fips_params s) (fips_hash s) SKseed SKprf PKseed)
    | TSign sk m ctx hedged =>
        forall pk SK, key_pair s pk sk -> result (sk_into_bytes (param_set s) sk) = Val SK ->
          sig_of o = Fips205.slh_sign (fips_params s) (fips_hash s) m ctx SK (randomness (answers i log)) /\
          forall sig, o = Val (OSig sig) ->
            result (verify (param_set s) pk m sig ctx) = Val true /\
            length (answers i log) = if hedged then 1%nat else 0%nat
    | THashSign sk m ctx ph hedged =>
        forall pk SK, key_pair s pk sk -> result (sk_into_bytes (param_set s) sk) = Val SK ->
          sig_of o = Fips205.hash_slh_sign (fips_params s) (fips_hash s) m ctx (PH_fn ph) SK (randomness (answers i log)) /\
          forall sig, o = Val (OSig sig) ->
            result (hash_verify (param_set s) pk m sig ctx (ph_arg ph)) = Val true /\
            length (answers i log) = if hedged then 1%nat else 0%nat
    | TRawSign sk m hedged =>
        forall pk SK, key_pair s pk sk -> result (sk_into_bytes (param_set s) sk) = Val SK ->
          sig_of o = match randomness (answers i log) with
                     | Some None => None
                     | Some (Some b) => Some (Fips205.slh_sign_internal (fips_params s) (fips_hash s) m SK (Some b))
                     | None => Some (Fips205.slh_sign_internal (fips_params s) (fips_hash s) m SK None)
                     end /\
          forall sig, o = Val (OSig sig) ->
            result (raw_verify (param_set s) pk m sig) = Val true /\
            length (answers i log) = if hedged then 1%nat else 0%nat
    | TVerify pk m sig ctx =>
        forall PK, pk_typed s pk -> result (pk_into_bytes (param_set s) pk) = Val PK -> nlen sig = sig_size s ->
          o = Val (OVerdict (Fips205.slh_verify (fips_params s) (fips_hash s) m sig ctx PK)) /\ answers i log = []
    | THashVerify pk m sig ctx ph =>
        forall PK, pk_typed s pk -> result (pk_into_bytes (param_set s) pk) = Val PK -> nlen sig = sig_size s ->
          o = Val (OVerdict (Fips205.hash_slh_verify (fips_params s) (fips_hash s) m sig ctx (PH_fn ph) PK)) /\
          answers i log = []
    | TRawVerify pk m sig =>
        forall PK, pk_typed s pk -> result (pk_into_bytes (param_set s) pk) = Val PK -> nlen sig = sig_size s ->
          o = Val (OVerdict (Fips205.slh_verify_internal (fips_params s) (fips_hash s) m sig PK)) /\
          answers i log = []
    end.
Proof.
  intros T P s r g0 calls log g outs [SV [_ [_ CM]]] i c o Ec Eo.
  destruct (CM i c o Ec Eo) as [asks K]. rewrite (answers_completes _ _ _ _ _ _ K).
  assert (WL : forall n b, In (n, Val b) asks -> nlen b = n).
  { intros n b I. exact (served_len _ _ _ _ SV _ _ _ (asks_in_log _ _ _ _ _ _ _ _ K I)). }
  destruct K as [_ [C [D G]]]. cbv zeta in C, D, G.
  assert (Ty : forall pk sk, key_pair s pk sk -> sk_typed s sk).
  { intros pk sk KP. apply wf_typed_sk. exact (proj1 (key_pair_facts _ _ _ KP)). }
  rewrite map_length.
  destruct c as [|sk m ctx hedged|sk m ctx ph hedged|sk m hedged|pk m sig ctx|pk m sig ctx ph|pk m sig]; cbn [perform] in C, D, G.
  - set (f := try_keygen_with_rng (param_set s) script) in *.
    destruct (wrap_call f (fun kp => OKeys (fst kp) (snd kp)) (map snd asks)) as [W1 [W2 W3]].
    rewrite W1 in C. rewrite W3 in G. intros pk sk Eq. rewrite Eq in C.
    destruct (call f (map snd asks)) as [[pk' sk']|e|x] eqn:Ek; [|discriminate C..].
    injection C as E1 E2. cbn [fst snd] in E1, E2. rewrite E1, E2 in Ek.
    split; [exact (kp_generated s script _ pk sk Ek)|].
    destruct (draws_keygen s script _ pk sk Ek) as [a [b [c [g1 [g2 [g3 [F1 [F2 [F3 [GA X]]]]]]]]]].
    exists a, b, c. split; [|exact X].
    apply script_draw in F1, F2, F3. unfold f in G. rewrite GA in G. rewrite F1, F2, F3, G. reflexivity.
  - set (f := try_sign_with_rng (param_set s) script sk m ctx hedged) in *.
    destruct (wrap_call f OSig (map snd asks)) as [W1 [W2 W3]].
    rewrite W1 in C. rewrite W2 in D. rewrite W3 in G. intros pk SK KP ES.
    assert (S : sig_of o = ok (call f (map snd asks))).
    { rewrite <- C. destruct (call f (map snd asks)); reflexivity. }
    pose proof (prop_sign_is_fips T P s script (map snd asks) sk SK m ctx hedged (Ty _ _ KP) ES) as FS.
    destruct (255 <? nlen ctx) eqn:L.
    + assert (FN : forall x, Fips205.slh_sign (fips_params s) (fips_hash s) m ctx SK x = None)
        by (intros x; unfold Fips205.slh_sign; rewrite L; reflexivity).
      rewrite FN in FS. rewrite FN, S. split; [exact FS|]. intros sig Eq. rewrite Eq in S. cbn [sig_of] in S.
      unfold f in S. rewrite FS in S. discriminate S.
    + apply N.ltb_ge in L.
      destruct (one_ask s f sk _ hedged asks
                  (try_sign_desc _ (param_PF s) _ sk m ctx hedged (typed_sk _ _ (Ty _ _ KP)) L) WL D G) as [R LA].
      split; [rewrite S; unfold f; rewrite FS, R; reflexivity|].
      intros sig Eq. split; [|exact LA]. rewrite Eq in C.
      destruct (call f (map snd asks)) as [sig'|e|x] eqn:Ek; [|discriminate C..].
      assert (E2 : sig' = sig) by (injection C as E2; exact E2). rewrite E2 in Ek.
      exact (proj2 (proj1 (prop_pure_signatures_verify T P s pk sk KP script (map snd asks) m ctx hedged L) sig Ek)).
  - set (f := try_hash_sign_with_rng (param_set s) script sk m ctx (ph_arg ph) hedged) in *.
    destruct (wrap_call f OSig (map snd asks)) as [W1 [W2 W3]].
    rewrite W1 in C. rewrite W2 in D. rewrite W3 in G. intros pk SK KP ES.
    assert (S : sig_of o = ok (call f (map snd asks))).
    { rewrite <- C. destruct (call f (map snd asks)); reflexivity. }
    pose proof (prop_hash_sign_is_fips T P s script (map snd asks) sk SK m ctx ph hedged (Ty _ _ KP) ES) as FS.
    destruct (255 <? nlen ctx) eqn:L.
    + assert (FN : forall x, Fips205.hash_slh_sign (fips_params s) (fips_hash s) m ctx (PH_fn ph) SK x = None)
        by (intros x; unfold Fips205.hash_slh_sign; rewrite L; reflexivity).
      rewrite FN in FS. rewrite FN, S. split; [exact FS|]. intros sig Eq. rewrite Eq in S. cbn [sig_of] in S.
      unfold f in S. rewrite FS in S. discriminate S.
    + apply N.ltb_ge in L.
      destruct (one_ask s f sk _ hedged asks
                  (try_hash_sign_desc _ (param_PF s) _ sk m ctx (ph_arg ph) hedged (typed_sk _ _ (Ty _ _ KP)) L) WL D G) as [R LA].
      split; [rewrite S; unfold f; rewrite FS, R; reflexivity|].
      intros sig Eq. split; [|exact LA]. rewrite Eq in C.
      destruct (call f (map snd asks)) as [sig'|e|x] eqn:Ek; [|discriminate C..].
      assert (E2 : sig' = sig) by (injection C as E2; exact E2). rewrite E2 in Ek.
      exact (proj2 (proj1 (prop_prehash_signatures_verify T P s pk sk KP script (map snd asks) m ctx ph hedged L) sig Ek)).
  - set (f := raw_sign (param_set s) script sk m hedged) in *.
    destruct (wrap_call f OSig (map snd asks)) as [W1 [W2 W3]].
    rewrite W1 in C. rewrite W2 in D. rewrite W3 in G. intros pk SK KP ES.
    assert (S : sig_of o = ok (call f (map snd asks))).
    { rewrite <- C. destruct (call f (map snd asks)); reflexivity. }
    pose proof (prop_raw_sign_is_fips T P s script (map snd asks) sk SK m hedged (Ty _ _ KP) ES) as FS.
    destruct (one_ask s f sk _ hedged asks
                (raw_sign_desc _ (param_PF s) _ sk m hedged (typed_sk _ _ (Ty _ _ KP))) WL D G) as [R LA].
    split; [rewrite S; unfold f; rewrite FS, R; reflexivity|].
    intros sig Eq. split; [|exact LA]. rewrite Eq in C.
    destruct (call f (map snd asks)) as [sig'|e|x] eqn:Ek; [|discriminate C..].
    assert (E2 : sig' = sig) by (injection C as E2; exact E2). rewrite E2 in Ek.
    exact (proj2 (proj1 (prop_raw_signatures_verify T P s pk sk KP script (map snd asks) m hedged) sig Ek)).
  - intros PK W E L. destruct (pure_wrap _ _ _ _ C G) as [Co Ca]. split; [|exact Ca].
    rewrite (prop_verify_is_fips T P s pk PK m sig ctx W E L) in Co. exact Co.
  - intros PK W E L. destruct (pure_wrap _ _ _ _ C G) as [Co Ca]. split; [|exact Ca].
    rewrite (prop_hash_verify_is_fips T P s pk PK m sig ctx ph W E L) in Co. exact Co.
  - intros PK W E L. destruct (pure_wrap _ _ _ _ C G) as [Co Ca]. split; [|exact Ca].
    rewrite (prop_raw_verify_is_fips T P s pk PK m sig W E L) in Co. exact Co.
Qed.

(** a hedged signing call whose request is answered *)
Lemma completes_hedged {T : Target} {P : Prims} s sk m ctx i log b :
  sk_typed s sk -> nlen ctx <= 255 -> nlen b = seed_bytes s ->
  own i log = [Begin i; Ask i (seed_bytes s) (Val b); End_ i] ->
  exists sig, completes s i (TSign sk m ctx true) log [(seed_bytes s, Val b)] (Val (OSig sig)).
Proof.
  intros W L LB O. apply typed_sk in W. rewrite <- param_n in *.
  pose proof (try_sign_desc (r := script) _ (param_PF s) [Val b] sk m ctx true W L) as D.
  pose proof (sign_desc_draws _ _ _ _ _ _ _ D) as DR. destruct D as [D1 [D2 _]].
  assert (F : try_fill script [Val b] (cN (param_set s)) = ([], Val b)).
  { cbn [try_fill script script_fill]. rewrite LB, N.eqb_refl. reflexivity. }
  unfold draw in D1, D2. rewrite F in D1, D2. cbn [fst snd] in D1, D2.
  eexists. split; [exact O|]. cbv zeta. cbn [map fst snd perform].
  destruct (wrap_call (try_sign_with_rng (param_set s) script sk m ctx true) OSig [Val b]) as [W1 [W2 W3]].
  rewrite W1, W2, W3. unfold call, trace_of, gen_after. rewrite D2, DR, D1.
  split; [reflexivity|]. split; reflexivity.
Qed.

(** ** Key generation is not linearizable *)
Lemma completes_keygen {T : Target} {P : Prims} s i log a b c :
  nlen a = seed_bytes s -> nlen b = seed_bytes s -> nlen c = seed_bytes s ->
  own i log = [Begin i; Ask i (seed_bytes s) (Val a); Ask i (seed_bytes s) (Val b); Ask i (seed_bytes s) (Val c); End_ i] ->
  exists pk sk, sk_seed sk = a /\ sk_prf sk = b /\
    completes s i TKeygen log [(seed_bytes s, Val a); (seed_bytes s, Val b); (seed_bytes s, Val c)] (Val (OKeys pk sk)).
Proof.
  intros La Lb Lc O. rewrite <- param_n in *.
  pose proof (keygen_is (r := script) _ (param_PF s) [Val a; Val b; Val c]) as D. unfold keygen_desc in D. cbv zeta in D.
  assert (F1 : try_fill script [Val a; Val b; Val c] (cN (param_set s)) = ([Val b; Val c], Val a))
    by (cbn [try_fill script script_fill]; rewrite La, N.eqb_refl; reflexivity).
  assert (F2 : try_fill script [Val b; Val c] (cN (param_set s)) = ([Val c], Val b))
    by (cbn [try_fill script script_fill]; rewrite Lb, N.eqb_refl; reflexivity).
  assert (F3 : try_fill script [Val c] (cN (param_set s)) = ([], Val c))
    by (cbn [try_fill script script_fill]; rewrite Lc, N.eqb_refl; reflexivity).
  rewrite F1 in D. cbn [fst snd] in D. rewrite F2 in D. cbn [fst snd] in D. rewrite F3 in D. cbn [fst snd] in D.
  destruct D as [D1 [D2 D3]].
  eexists. eexists. split; [|split]; cycle 2.
  { split; [exact O|]. cbv zeta. cbn [map fst snd perform].
    destruct (wrap_call (try_keygen_with_rng (param_set s) script) (fun kp => OKeys (fst kp) (snd kp)) [Val a; Val b; Val c]) as [W1 [W2 W3]].
    rewrite W1, W2, W3. unfold call, trace_of, gen_after. rewrite D1, D2.
    split; [reflexivity|]. split; [|reflexivity].
    rewrite <- draws_calls, D3. change (?x :: ?y :: ?z :: ?Z) with ([x; y; z] ++ Z) at 1.
    rewrite draws_app, (draws_allH (Fun.prootC _ _ _ _)) by apply allH_prootC. reflexivity. }
  all: reflexivity.
Qed.

Lemma nrepeat_distinct s (x y : byte) : x <> y -> nrepeat x (seed_bytes s) <> nrepeat y (seed_bytes s).
Proof.
  intros D E. apply D. apply (f_equal (fun l => nth 0 l x)) in E. destruct s; exact E.
Qed.

Section NotLin.
Context (s : set_name).
Notation v k := (nrepeat (n2b k) (seed_bytes s)).
Definition crossed : list happening :=
  [Begin 0; Begin 1; Ask 0 (seed_bytes s) (Val (v 0)); Ask 1 (seed_bytes s) (Val (v 1)); Ask 0 (seed_bytes s) (Val (v 2));
   Ask 1 (seed_bytes s) (Val (v 3)); Ask 0 (seed_bytes s) (Val (v 4)); Ask 1 (seed_bytes s) (Val (v 5)); End_ 0; End_ 1].
End NotLin.

(** a generator that counts its requests *)
Definition count_fill (g : N) (n : N) : N * outcome bytes := (g + 1, Val (nrepeat (n2b g) n)).
Lemma count_fill_len g n g' b : count_fill g n = (g', Val b) -> nlen b = n.
Proof. unfold count_fill. intros E. injection E as _ <-. apply nlen_nrepeat. Qed.
Definition counting : Rng := mkRng N count_fill count_fill_len.

Lemma seq_first {T : Target} {P : Prims} s r g c o l g' :
  sequential s r g ((c, o) :: l) g' -> call (perform s c r) g = o.
Proof. intros S. inversion S. reflexivity. Qed.

Lemma counting_first {T : Target} {P : Prims} s :
  exists pk sk, call (perform s TKeygen counting) 0 = Val (OKeys pk sk) /\
    sk_seed sk = nrepeat (n2b 0) (seed_bytes s) /\ sk_prf sk = nrepeat (n2b 1) (seed_bytes s).
Proof.
  rewrite <- param_n. pose proof (keygen_is (r := counting) _ (param_PF s) 0) as D. unfold keygen_desc in D. cbv zeta in D.
  change (try_fill counting 0 (cN (param_set s))) with (0 + 1, Val (nrepeat (n2b 0) (cN (param_set s)))) in D. cbn [fst snd] in D.
  change (try_fill counting (0 + 1) (cN (param_set s))) with (0 + 1 + 1, Val (nrepeat (n2b (0 + 1)) (cN (param_set s)))) in D.
  cbn [fst snd] in D.
  change (try_fill counting (0 + 1 + 1) (cN (param_set s))) with (0 + 1 + 1 + 1, Val (nrepeat (n2b (0 + 1 + 1)) (cN (param_set s)))) in D.
  cbn [fst snd] in D. destruct D as [_ [D _]].
  eexists. eexists. split.
  - cbn [perform]. destruct (wrap_call (try_keygen_with_rng (param_set s) counting) (fun kp => OKeys (fst kp) (snd kp)) 0) as [W _].
    rewrite W. unfold call. rewrite D. reflexivity.
  - split; reflexivity.
Qed.

Lemma crossed_outs (T : Target) (P : Prims) s :
  exists pk0 sk0 pk1 sk1,
    concurrent s counting 0 [TKeygen; TKeygen] (crossed s) (0 + 1 + 1 + 1 + 1 + 1 + 1) [Val (OKeys pk0 sk0); Val (OKeys pk1 sk1)] /\
    sk_seed sk0 = nrepeat (n2b 0) (seed_bytes s) /\ sk_prf sk0 = nrepeat (n2b 2) (seed_bytes s) /\
    sk_seed sk1 = nrepeat (n2b 1) (seed_bytes s) /\ sk_prf sk1 = nrepeat (n2b 3) (seed_bytes s).
Proof.
  pose (v := fun k => nrepeat (n2b k) (seed_bytes s)).
  assert (LV : forall k, nlen (v k) = seed_bytes s) by (intros k; apply nlen_nrepeat).
  destruct (completes_keygen s 0 (crossed s) (v 0) (v 2) (v 4) (LV _) (LV _) (LV _) eq_refl) as (pk0 & sk0 & S0 & F0 & C0).
  destruct (completes_keygen s 1 (crossed s) (v 1) (v 3) (v 5) (LV _) (LV _) (LV _) eq_refl) as (pk1 & sk1 & S1 & F1 & C1).
  exists pk0, sk0, pk1, sk1. split; [|exact (conj S0 (conj F0 (conj S1 F1)))].
    split; [|split; [|split]].
    + unfold crossed. apply served_begin. apply served_begin.
      eapply served_ask; [reflexivity|]. eapply served_ask; [reflexivity|]. eapply served_ask; [reflexivity|].
      eapply served_ask; [reflexivity|]. eapply served_ask; [reflexivity|]. eapply served_ask; [reflexivity|].
      apply served_end. apply served_end. apply served_nil.
    + intros e I. unfold crossed in I. cbn [In] in I. cbn [length].
      repeat (destruct I as [<-|I]; [cbn [thread]; lia|]). destruct I.
    + reflexivity.
    + intros [|[|i]] c o E1 E2; cbn [nth_error] in E1, E2.
      * injection E1 as <-. injection E2 as <-. eexists. exact C0.
      * injection E1 as <-. injection E2 as <-. eexists. exact C1.
      * destruct i; discriminate E1.
Qed.

Lemma crossed_keygen (T : Target) (P : Prims) s :
  exists (r : Rng) (g0 : rng_st r) log g pk0 sk0 pk1 sk1,
    concurrent s r g0 [TKeygen; TKeygen] log g [Val (OKeys pk0 sk0); Val (OKeys pk1 sk1)] /\
    sk_seed sk0 = nrepeat (n2b 0) (seed_bytes s) /\ sk_prf sk0 = nrepeat (n2b 2) (seed_bytes s) /\
    sk_seed sk1 = nrepeat (n2b 1) (seed_bytes s) /\ sk_prf sk1 = nrepeat (n2b 3) (seed_bytes s).
Proof.
  destruct (crossed_outs T P s) as (pk0 & sk0 & pk1 & sk1 & R). do 4 eexists. exists pk0, sk0, pk1, sk1. exact R.
Qed.

Lemma prop_concurrent_keygen_is_not_linearizable :
  forall (T : Target) (P : Prims) (s : set_name) (d : tcall * outcome tout),
    exists (r : Rng) (g0 : rng_st r) (log : list happening) (g : rng_st r) (outs : list (outcome tout)),
      concurrent s r g0 [TKeygen; TKeygen] log g outs /\
      forall order g', Permutation order [0; 1]%nat ->
        ~ sequential s r g0 (map (fun i => (nth i [TKeygen; TKeygen] (fst d), nth i outs (snd d))) order) g'.
Proof.
  intros T P s d. destruct (crossed_outs T P s) as (pk0 & sk0 & pk1 & sk1 & C & _ & F0 & S1 & _).
  do 5 eexists. split; [exact C|].
  intros order g' Pm S. destruct (counting_first s) as (pk & sk & E & A & B).
    assert (O : order = [0; 1]%nat \/ order = [1; 0]%nat).
    { apply Permutation_sym, Permutation_length_2_inv in Pm. exact Pm. }
    destruct O as [-> | ->]; cbn [map nth] in S; apply seq_first in S; rewrite E in S;
      apply (f_equal (fun o => match o with Val (OKeys _ k) => (sk_seed k, sk_prf k) | _ => ([], []) end)) in S;
      apply pair_equal_spec in S; destruct S as [X1 X2].
    + rewrite B, F0 in X2. revert X2. apply nrepeat_distinct. discriminate.
    + rewrite A, S1 in X1. revert X1. apply nrepeat_distinct. discriminate.
Qed.
