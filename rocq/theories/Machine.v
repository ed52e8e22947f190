(** The machine the Rust code runs on, as far as the properties need it: checked integer
    arithmetic, panics, error returns, loops, and the trace of observable events.
    Not a model of any single Rust function; it models the Rust operations the code uses. *)
From Coq Require Strings.String.
From Verif Require Export Bytes Model.Types.

Notation string := Coq.Strings.String.string.
Declare Scope m_scope.
Delimit Scope m_scope with m.

(** ** Build target
    [overflow_checks]: rustc -C overflow-checks (on in debug, off in release by default).
    [debug_assertions]: whether debug_assert! is compiled in.
    [usize_bits]: width of usize.
    [nesting_limit]: how many activations of a recursive function the stack holds. The two recursive
    functions of the crate, xmss_node and fors_node, panic in the model when they nest deeper. *)
Class Target := {
  overflow_checks : bool;
  debug_assertions : bool;
  usize_bits : N;
  usize_bits_min : 16 <= usize_bits;
  nesting_limit : nat;
  nesting_limit_min : (14 <= nesting_limit)%nat }.

(** ** Events
    Keyed-hash calls carry all their inputs; the remaining constructors are what an observer of
    control flow and memory addresses learns. *)
Inductive hkind := KF | KH | KTl | KTlen | KPRF.

Inductive event :=
| EHash (k : hkind) (pkseed : bytes) (a : Adrs) (inputs : list bytes)
| EHmsg (r pkseed pkroot : bytes) (m : list bytes)
| EPrfMsg (skprf optrand : bytes) (m : list bytes)
| ERng (n : N)                       (* request of n bytes to the random generator *)
| EBranch (b : bool)                 (* outcome of a conditional *)
| ELoop (lo hi : N)                  (* bounds of a counted loop *)
| EIndex (i len : N)                 (* array access at index i of len elements *)
| ESlice (lo hi len : N).            (* slice lo..hi of len elements *)

(** ** Outcomes *)
Inductive panic_reason :=
| PAdd | PSub | PMul | PShl | PShr | PDiv
| PIndex | PSlice | PCopyLen | PAssert | PUnwrap | PFuel | PRng.

Inductive outcome (A : Type) :=
| Val (a : A)
| Err (msg : string)                 (* Result::Err(&'static str) *)
| Panic (r : panic_reason).
Arguments Val {A} a.
Arguments Err {A} msg.
Arguments Panic {A} r.

Definition M (A : Type) : Type := list event * outcome A.

Definition trace {A} (m : M A) : list event := fst m.
Definition result {A} (m : M A) : outcome A := snd m.

Definition ret {A} (a : A) : M A := ([], Val a).
Definition err {A} (s : string) : M A := ([], Err s).
Definition panic {A} (r : panic_reason) : M A := ([], Panic r).
Definition tick (e : event) : M unit := ([e], Val tt).

Definition bind {A B} (m : M A) (f : A -> M B) : M B :=
  match m with
  | (t, Val a) => let (t', o) := f a in (t ++ t', o)
  | (t, Err s) => (t, Err s)
  | (t, Panic r) => (t, Panic r)
  end.

Notation "x <- m ;; k" := (bind m (fun x => k))
  (at level 100, m at next level, right associativity) : m_scope.
Notation "' p <- m ;; k" := (bind m (fun x => let p := x in k))
  (at level 100, p pattern, m at next level, right associativity) : m_scope.
Notation "m ;;; k" := (bind m (fun _ => k))
  (at level 100, right associativity) : m_scope.
Open Scope m_scope.

(** a conditional whose outcome is observable *)
Definition branch (b : bool) : M bool := tick (EBranch b) ;;; ret b.

(** [==] on byte arrays (src/lib.rs:381, src/hypertree.rs:160). The compiled comparison may stop at the first
    difference, so the observer sees where that is. *)
Fixpoint same_bytes (a b : bytes) : M bool :=
  match a, b with
  | [], [] => ret true
  | x :: a', y :: b' => c <- branch (byte_eqb x y) ;; if c then same_bytes a' b' else ret false
  | _, _ => ret false
  end.

Section Ops.
Context {T : Target}.

(** ** Integer types and checked operations *)
Inductive ity := U32 | U64 | Usize.
Definition bits (t : ity) : N :=
  match t with U32 => 32 | U64 => 64 | Usize => usize_bits end.

Definition checked (p : panic_reason) (ok : bool) (good wrapped : N) : M N :=
  if ok then ret good else if overflow_checks then panic p else ret wrapped.

(** a + b *)
Definition add (t : ity) (a b : N) : M N :=
  checked PAdd (a + b <? 2 ^ bits t) (a + b) ((a + b) mod 2 ^ bits t).
(** a - b *)
Definition sub (t : ity) (a b : N) : M N :=
  checked PSub (b <=? a) (a - b) ((2 ^ bits t + a - b) mod 2 ^ bits t).
(** a * b *)
Definition mul (t : ity) (a b : N) : M N :=
  checked PMul (a * b <? 2 ^ bits t) (a * b) ((a * b) mod 2 ^ bits t).
(** a << s: bits shifted out are lost silently; only the shift amount is checked *)
Definition shl (t : ity) (a s : N) : M N :=
  checked PShl (s <? bits t) (N.shiftl a s mod 2 ^ bits t)
          (N.shiftl a (s mod bits t) mod 2 ^ bits t).
(** a >> s *)
Definition shr (t : ity) (a s : N) : M N :=
  checked PShr (s <? bits t) (N.shiftr a s) (N.shiftr a (s mod bits t)).
(** a / b: division by zero panics in every build *)
Definition div (a b : N) : M N := if b =? 0 then panic PDiv else ret (a / b).
(** the [as] cast to an unsigned type *)
Definition cast (t : ity) (a : N) : N := a mod 2 ^ bits t.
(** u32::try_from(x).unwrap() *)
Definition try_u32_unwrap (x : N) : M N := if x <? 2 ^ 32 then ret x else panic PUnwrap.
(** u64::MAX, u32::MAX *)
Definition max_of (t : ity) : N := 2 ^ bits t - 1.

(** ** Assertions *)
Definition debug_assert (c : M bool) : M unit :=
  if debug_assertions then (b <- c ;; if b then ret tt else panic PAssert) else ret tt.

End Ops.

(** ** Slices and arrays *)

(** l[i] *)
Definition index {A} (l : list A) (i : N) : M A :=
  tick (EIndex i (nlen l)) ;;;
  match nth_error l (N.to_nat i) with Some x => ret x | None => panic PIndex end.

Definition upd_list {A} (l : list A) (i : N) (v : A) : list A :=
  firstn (N.to_nat i) l ++ v :: skipn (N.to_nat i + 1) l.

(** l[i] = v *)
Definition upd {A} (l : list A) (i : N) (v : A) : M (list A) :=
  tick (EIndex i (nlen l)) ;;;
  if i <? nlen l then ret (upd_list l i v) else panic PIndex.

(** &l[lo..hi] *)
Definition slice {A} (l : list A) (lo hi : N) : M (list A) :=
  tick (ESlice lo hi (nlen l)) ;;;
  if (lo <=? hi) && (hi <=? nlen l) then ret (sub_bytes l lo hi) else panic PSlice.

(** dst.copy_from_slice(src), returning the new contents of dst *)
Definition copy_from_slice {A} (dst src : list A) : M (list A) :=
  if nlen dst =? nlen src then ret src else panic PCopyLen.

(** l with the elements from lo on replaced by s *)
Definition splice {A} (l : list A) (lo : N) (s : list A) : list A :=
  firstn (N.to_nat lo) l ++ s ++ skipn (N.to_nat lo + length s) l.

(** l[lo..hi].copy_from_slice(src), returning the new l *)
Definition copy_into {A} (l : list A) (lo hi : N) (src : list A) : M (list A) :=
  d <- slice l lo hi ;;
  s <- copy_from_slice d src ;;
  ret (splice l lo s).

(** ** Loops *)

Fixpoint for_n {S} (n : nat) (i : N) (body : N -> S -> M S) (s : S) : M S :=
  match n with
  | O => ret s
  | Datatypes.S n' => s' <- body i s ;; for_n n' (i + 1) body s'
  end.

(** for i in lo..hi { s = body(i, s) } *)
Definition for_range {S} (lo hi : N) (body : N -> S -> M S) (s : S) : M S :=
  tick (ELoop lo hi) ;;; for_n (N.to_nat (hi - lo)) lo body s.

(** a counted loop whose body may return from the function: [inr r] *)
Fixpoint for_n_ret {S R} (n : nat) (i : N) (body : N -> S -> M (S + R)) (s : S) : M (S + R) :=
  match n with
  | O => ret (inl s)
  | Datatypes.S n' =>
      x <- body i s ;;
      match x with inl s' => for_n_ret n' (i + 1) body s' | inr r => ret (inr r) end
  end.

Definition for_range_ret {S R} (lo hi : N) (body : N -> S -> M (S + R)) (s : S) : M (S + R) :=
  tick (ELoop lo hi) ;;; for_n_ret (N.to_nat (hi - lo)) lo body s.

(** for x in l.iter() { s = body(x, s) } *)
Fixpoint for_list_body {X S} (l : list X) (body : X -> S -> M S) (s : S) : M S :=
  match l with
  | [] => ret s
  | x :: l' => s' <- body x s ;; for_list_body l' body s'
  end.

Definition for_list {X S} (l : list X) (body : X -> S -> M S) (s : S) : M S :=
  tick (ELoop 0 (nlen l)) ;;; for_list_body l body s.

(** for x in l.iter_mut() { *x = ...; s = ... }: returns the new elements and state *)
Fixpoint map_mut_body {X S} (l : list X) (body : X -> S -> M (X * S)) (s : S) : M (list X * S) :=
  match l with
  | [] => ret ([], s)
  | x :: l' =>
      '(x', s') <- body x s ;;
      '(r, s'') <- map_mut_body l' body s' ;;
      ret (x' :: r, s'')
  end.

Definition map_mut {X S} (l : list X) (body : X -> S -> M (X * S)) (s : S) : M (list X * S) :=
  tick (ELoop 0 (nlen l)) ;;; map_mut_body l body s.

(** while cond(s) { s = body(s) }: fuel exhaustion is an explicit panic that the theorems
    exclude *)
Fixpoint while {S} (fuel : nat) (cond : S -> bool) (body : S -> M S) (s : S) : M S :=
  match fuel with
  | O => panic PFuel
  | Datatypes.S fuel' =>
      c <- branch (cond s) ;;
      if c then s' <- body s ;; while fuel' cond body s' else ret s
  end.

(** ** Reasoning *)

Definition vals {A} (m : M A) (a : A) : Prop := result m = Val a.

Lemma vals_inj {A} (m : M A) a b : vals m a -> vals m b -> a = b.
Proof. unfold vals. congruence. Qed.

Lemma vals_ret {A} (a : A) : vals (ret a) a.
Proof. reflexivity. Qed.

Lemma vals_bind {A B} (m : M A) (f : A -> M B) a b :
  vals m a -> vals (f a) b -> vals (bind m f) b.
Proof.
  unfold vals, result, bind. destruct m as [t o]; cbn. intros -> H.
  destruct (f a) as [t' o']; exact H.
Qed.

Lemma vals_bind_inv {A B} (m : M A) (f : A -> M B) b :
  vals (bind m f) b -> exists a, vals m a /\ vals (f a) b.
Proof.
  unfold vals, result, bind. destruct m as [t [a|s|r]]; cbn; try discriminate.
  destruct (f a) as [t' o'] eqn:E; cbn; intros H. exists a. rewrite E. auto.
Qed.

Lemma result_bind {A B} (m : M A) (f : A -> M B) :
  result (bind m f) = match result m with
                      | Val a => result (f a) | Err s => Err s | Panic r => Panic r end.
Proof.
  unfold result, bind. destruct m as [t [a|s|r]]; cbn; try reflexivity.
  destruct (f a) as [t' o']; reflexivity.
Qed.

Lemma trace_bind {A B} (m : M A) (f : A -> M B) a :
  vals m a -> trace (bind m f) = trace m ++ trace (f a).
Proof.
  unfold vals, result, trace, bind. destruct m as [t o]; cbn. intros ->.
  destruct (f a) as [t' o']; reflexivity.
Qed.

Lemma bind_assoc {A B C} (m : M A) (f : A -> M B) (g : B -> M C) :
  bind (bind m f) g = bind m (fun x => bind (f x) g).
Proof.
  destruct m as [t [a|s|r]]; cbn; try reflexivity.
  destruct (f a) as [t' [b|s|r]]; cbn; try reflexivity.
  destruct (g b) as [t'' o]; cbn. rewrite app_assoc. reflexivity.
Qed.

Lemma bind_ret_l {A B} (a : A) (f : A -> M B) : bind (ret a) f = f a.
Proof. unfold bind, ret. destruct (f a) as [t o]; reflexivity. Qed.

Lemma bind_ret_r {A} (m : M A) : bind m ret = m.
Proof.
  destruct m as [t [a|s|r]]; cbn; try reflexivity. rewrite app_nil_r. reflexivity.
Qed.

Lemma vals_tick_bind {A} e (f : unit -> M A) a : vals (f tt) a -> vals (bind (tick e) f) a.
Proof. intros H. eapply vals_bind; [reflexivity|exact H]. Qed.

Lemma vals_branch b : vals (branch b) b.
Proof. reflexivity. Qed.

Section OpLemmas.
Context {T : Target}.

Lemma add_ok t a b : a + b < 2 ^ bits t -> add t a b = ret (a + b).
Proof. unfold add, checked. intros H. apply N.ltb_lt in H. rewrite H. reflexivity. Qed.
Lemma sub_ok t a b : b <= a -> sub t a b = ret (a - b).
Proof. unfold sub, checked. intros H. apply N.leb_le in H. rewrite H. reflexivity. Qed.
Lemma mul_ok t a b : a * b < 2 ^ bits t -> mul t a b = ret (a * b).
Proof. unfold mul, checked. intros H. apply N.ltb_lt in H. rewrite H. reflexivity. Qed.
Lemma shl_ok t a s : s < bits t -> shl t a s = ret (N.shiftl a s mod 2 ^ bits t).
Proof. unfold shl, checked. intros H. apply N.ltb_lt in H. rewrite H. reflexivity. Qed.
Lemma shr_ok t a s : s < bits t -> shr t a s = ret (N.shiftr a s).
Proof. unfold shr, checked. intros H. apply N.ltb_lt in H. rewrite H. reflexivity. Qed.
Lemma div_ok a b : b <> 0 -> div a b = ret (a / b).
Proof. unfold div. intros H. apply N.eqb_neq in H. rewrite H. reflexivity. Qed.
Lemma try_u32_ok x : x < 2 ^ 32 -> try_u32_unwrap x = ret x.
Proof. unfold try_u32_unwrap. intros H. apply N.ltb_lt in H. rewrite H. reflexivity. Qed.

Lemma usize_16 : 2 ^ 16 <= 2 ^ bits Usize.
Proof. apply N.pow_le_mono_r; [lia|]. exact usize_bits_min. Qed.

Lemma vals_debug_assert c : vals c true -> vals (debug_assert c) tt.
Proof.
  unfold debug_assert. intros H. destruct debug_assertions; [|reflexivity].
  eapply vals_bind; [exact H|reflexivity].
Qed.

End OpLemmas.

Lemma vals_index {A} (l : list A) i x :
  nth_error l (N.to_nat i) = Some x -> vals (index l i) x.
Proof. intros H. unfold index. apply vals_tick_bind. rewrite H. reflexivity. Qed.

Lemma vals_upd {A} (l : list A) i v : i < nlen l -> vals (upd l i v) (upd_list l i v).
Proof.
  intros H. unfold upd. apply vals_tick_bind. apply N.ltb_lt in H. rewrite H. reflexivity.
Qed.

Lemma vals_slice {A} (l : list A) lo hi :
  lo <= hi -> hi <= nlen l -> vals (slice l lo hi) (sub_bytes l lo hi).
Proof.
  intros H1 H2. unfold slice. apply vals_tick_bind.
  apply N.leb_le in H1, H2. rewrite H1, H2. reflexivity.
Qed.

Lemma vals_copy {A} (d s : list A) : nlen d = nlen s -> vals (copy_from_slice d s) s.
Proof. intros H. unfold copy_from_slice. apply N.eqb_eq in H. rewrite H. reflexivity. Qed.

Lemma vals_copy_into {A} (l : list A) lo hi s :
  lo <= hi -> hi <= nlen l -> nlen s = hi - lo -> vals (copy_into l lo hi s) (splice l lo s).
Proof.
  intros H1 H2 H3. unfold copy_into.
  eapply vals_bind; [apply vals_slice; assumption|].
  eapply vals_bind; [apply vals_copy; rewrite nlen_sub_bytes by assumption; congruence|].
  reflexivity.
Qed.

(** loops: the state before iteration i is [st i] *)
Lemma vals_for_n {S} (body : N -> S -> M S) (st : N -> S) n lo :
  (forall i, lo <= i < lo + N.of_nat n -> vals (body i (st i)) (st (i + 1))) ->
  vals (for_n n lo body (st lo)) (st (lo + N.of_nat n)).
Proof.
  revert lo; induction n as [|n IH]; intros lo H; cbn [for_n].
  - rewrite N.add_0_r. reflexivity.
  - eapply vals_bind; [apply H; lia|].
    replace (lo + N.of_nat (Datatypes.S n)) with (lo + 1 + N.of_nat n) by lia.
    apply IH. intros i Hi. apply H. lia.
Qed.

Lemma vals_for_range {S} (body : N -> S -> M S) (st : N -> S) lo hi s0 s1 :
  lo <= hi -> s0 = st lo -> s1 = st hi ->
  (forall i, lo <= i < hi -> vals (body i (st i)) (st (i + 1))) ->
  vals (for_range lo hi body s0) s1.
Proof.
  intros Hle -> -> H. unfold for_range. apply vals_tick_bind.
  replace hi with (lo + N.of_nat (N.to_nat (hi - lo))) at 2 by lia.
  apply vals_for_n. intros i Hi. apply H. lia.
Qed.

Lemma vals_for_n_ret {S R} (body : N -> S -> M (S + R)) (st : N -> S) n lo :
  (forall i, lo <= i < lo + N.of_nat n -> vals (body i (st i)) (inl (st (i + 1)))) ->
  vals (for_n_ret n lo body (st lo)) (inl (st (lo + N.of_nat n))).
Proof.
  revert lo; induction n as [|n IH]; intros lo H; cbn [for_n_ret].
  - rewrite N.add_0_r. reflexivity.
  - eapply vals_bind; [apply H; lia|]. cbn.
    replace (lo + N.of_nat (Datatypes.S n)) with (lo + 1 + N.of_nat n) by lia.
    apply IH. intros i Hi. apply H. lia.
Qed.

Lemma vals_for_range_ret {S R} (body : N -> S -> M (S + R)) (st : N -> S) lo hi s0 s1 :
  lo <= hi -> s0 = st lo -> s1 = inl (st hi) ->
  (forall i, lo <= i < hi -> vals (body i (st i)) (inl (st (i + 1)))) ->
  vals (for_range_ret lo hi body s0) s1.
Proof.
  intros Hle -> -> H. unfold for_range_ret. apply vals_tick_bind.
  replace hi with (lo + N.of_nat (N.to_nat (hi - lo))) at 2 by lia.
  apply vals_for_n_ret. intros i Hi. apply H. lia.
Qed.

Lemma vals_for_list_body {X S} (l : list X) (body : X -> S -> M S) (g : S -> X -> S) s :
  (forall x s', In x l -> vals (body x s') (g s' x)) ->
  vals (for_list_body l body s) (fold_left g l s).
Proof.
  revert s; induction l as [|x l IH]; intros s H; cbn [for_list_body fold_left]; [reflexivity|].
  eapply vals_bind; [apply H; left; reflexivity|]. apply IH. intros y s' Hy. apply H. right; exact Hy.
Qed.

Lemma vals_for_list {X S} (l : list X) (body : X -> S -> M S) (g : S -> X -> S) s :
  (forall x s', In x l -> vals (body x s') (g s' x)) ->
  vals (for_list l body s) (fold_left g l s).
Proof. intros H. unfold for_list. apply vals_tick_bind. apply vals_for_list_body; exact H. Qed.
