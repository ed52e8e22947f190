(** Counting: powers of the number of times a value occurs in a tuple, summed over all tuples. *)
From Verif Require Import Bytes Machine.
Import ListNotations.
Open Scope list_scope.
Open Scope N_scope.

Definition sum {A} (f : A -> N) (l : list A) : N := fold_right N.add 0 (map f l).

Lemma sum_cons {A} (f : A -> N) x l : sum f (x :: l) = f x + sum f l.
Proof. reflexivity. Qed.
Lemma sum_app {A} (f : A -> N) l r : sum f (l ++ r) = sum f l + sum f r.
Proof. induction l as [|x l IH]; [reflexivity|]. cbn [app]. rewrite !sum_cons, IH. lia. Qed.
Lemma sum_map {A B} (g : A -> B) (f : B -> N) l : sum f (map g l) = sum (fun x => f (g x)) l.
Proof. unfold sum. rewrite map_map. reflexivity. Qed.
Lemma sum_flat {A B} (g : A -> list B) (f : B -> N) l : sum f (flat_map g l) = sum (fun x => sum f (g x)) l.
Proof. induction l as [|x l IH]; [reflexivity|]. cbn [flat_map]. rewrite sum_app, sum_cons, IH. reflexivity. Qed.
Lemma sum_ext {A} (f g : A -> N) l : (forall x, In x l -> f x = g x) -> sum f l = sum g l.
Proof. intros E. unfold sum. rewrite (map_ext_in f g l E). reflexivity. Qed.
Lemma sum_le {A} (f g : A -> N) l : (forall x, In x l -> f x <= g x) -> sum f l <= sum g l.
Proof.
  induction l as [|x l IH]; intros Hl; [apply N.le_refl|]. rewrite !sum_cons.
  pose proof (Hl x (or_introl eq_refl)). specialize (IH (fun y Iy => Hl y (or_intror Iy))). lia.
Qed.
Lemma sum_plus {A} (f g : A -> N) l : sum (fun x => f x + g x) l = sum f l + sum g l.
Proof. induction l as [|x l IH]; [reflexivity|]. rewrite !sum_cons, IH. lia. Qed.
Lemma sum_scale {A} c (f : A -> N) l : sum (fun x => c * f x) l = c * sum f l.
Proof. induction l as [|x l IH]; [symmetry; apply N.mul_0_r|]. rewrite !sum_cons, IH. lia. Qed.
Lemma sum_const {A} c (l : list A) : sum (fun _ => c) l = nlen l * c.
Proof. induction l as [|x l IH]; [reflexivity|]. rewrite sum_cons, nlen_cons, IH. lia. Qed.
Lemma sum_swap {A B} (f : A -> B -> N) l r : sum (fun x => sum (f x) r) l = sum (fun y => sum (fun x => f x y) l) r.
Proof.
  induction l as [|x l IH].
  - change (0 = sum (fun _ : B => 0) r). rewrite sum_const. symmetry. apply N.mul_0_r.
  - rewrite sum_cons, IH. rewrite <- sum_plus. apply sum_ext. intros y _. reflexivity.
Qed.
Lemma nlen_flat_sum {A B} (g : A -> list B) l : nlen (flat_map g l) = sum (fun x => nlen (g x)) l.
Proof. induction l as [|x l IH]; [reflexivity|]. cbn [flat_map]. rewrite nlen_app, sum_cons, IH. reflexivity. Qed.

(** *** falling factorials and Stirling numbers *)
Fixpoint ff (x : N) (j : nat) : N := match j with O => 1 | S j => ff x j * (x - N.of_nat j) end.

Lemma ff_big x j : x < N.of_nat j -> ff x j = 0.
Proof.
  induction j as [|j IH]; intros Hx; [lia|]. cbn [ff].
  destruct (N.lt_ge_cases x (N.of_nat j)) as [Hj|Hj]; [rewrite IH by exact Hj; reflexivity|].
  replace (x - N.of_nat j) with 0 by lia. apply N.mul_0_r.
Qed.
Lemma ff_mul x j : x * ff x j = ff x (S j) + N.of_nat j * ff x j.
Proof.
  cbn [ff]. destruct (N.lt_ge_cases x (N.of_nat j)) as [Hj|Hj]; [rewrite (ff_big x j Hj); lia|].
  replace x with ((x - N.of_nat j) + N.of_nat j) at 1 by lia. set (A := ff x j). set (B := x - N.of_nat j). clearbody A B. lia.
Qed.
Lemma ff_shift x j : ff (x + 1) (S j) = (x + 1) * ff x j.
Proof.
  induction j as [|j IH]; [cbn [ff]; lia|]. cbn [ff] in IH. cbn [ff]. rewrite IH.
  replace (x + 1 - N.of_nat (S j)) with (x - N.of_nat j) by lia. lia.
Qed.
Lemma ff_succ x j : ff (x + 1) (S j) = ff x (S j) + N.of_nat (S j) * ff x j.
Proof. rewrite ff_shift. pose proof (ff_mul x j). lia. Qed.
Lemma ff_pow x j : ff x j <= x ^ N.of_nat j.
Proof.
  induction j as [|j IH]; [apply N.le_refl|]. cbn [ff]. rewrite Nat2N.inj_succ, N.pow_succ_r', N.mul_comm.
  apply N.mul_le_mono; [lia|exact IH].
Qed.

(** rows of Stirling numbers of the second kind *)
Fixpoint next_row (j prev : N) (r : list N) : list N :=
  match r with [] => [prev] | c :: r => (prev + j * c) :: next_row (j + 1) c r end.
Fixpoint row (k : nat) : list N := match k with O => [1] | S k => next_row 0 0 (row k) end.

(** sum of r_i * f (j + i) *)
Fixpoint dot (f : nat -> N) (j : nat) (r : list N) : N :=
  match r with [] => 0 | c :: r => c * f j + dot f (S j) r end.

Lemma dot_next x r : forall j prev, dot (ff x) j (next_row (N.of_nat j) prev r) = prev * ff x j + x * dot (ff x) j r.
Proof.
  induction r as [|c r IH]; intros j prev; cbn [next_row dot]; [lia|].
  replace (N.of_nat j + 1) with (N.of_nat (S j)) by lia. rewrite IH. pose proof (ff_mul x j).
  set (A := ff x j) in *. set (B := ff x (S j)) in *. set (D := dot (ff x) (S j) r) in *. clearbody A B D. nia.
Qed.
Lemma pow_row x k : x ^ N.of_nat k = dot (ff x) 0 (row k).
Proof.
  induction k as [|k IH]; [reflexivity|]. cbn [row]. change 0 with (N.of_nat 0) at 2. rewrite dot_next, N.mul_0_l, N.add_0_l.
  rewrite Nat2N.inj_succ, N.pow_succ_r', IH. reflexivity.
Qed.
Lemma length_next r : forall j prev, length (next_row j prev r) = S (length r).
Proof. induction r as [|c r IH]; intros; cbn [next_row length]; [reflexivity|]. rewrite IH. reflexivity. Qed.
Lemma length_row k : length (row k) = S k.
Proof. induction k as [|k IH]; [reflexivity|]. cbn [row]. rewrite length_next, IH. reflexivity. Qed.

Lemma sum_dot {A} (f : A -> nat -> N) l r : forall j, sum (fun x => dot (f x) j r) l = dot (fun i => sum (fun x => f x i) l) j r.
Proof.
  induction r as [|c r IH]; intros j; cbn [dot].
  - rewrite sum_const. apply N.mul_0_r.
  - rewrite sum_plus, sum_scale, IH. reflexivity.
Qed.
Lemma dot_scale c f r : forall j, c * dot f j r = dot (fun i => c * f i) j r.
Proof. induction r as [|d r IH]; intros j; cbn [dot]; [apply N.mul_0_r|]. rewrite <- IH. lia. Qed.
Lemma dot_le f g r : forall j, (forall i, (j <= i < j + length r)%nat -> f i <= g i) -> dot f j r <= dot g j r.
Proof.
  induction r as [|d r IH]; intros j Hi; cbn [dot]; [apply N.le_refl|].
  apply N.add_le_mono; [apply N.mul_le_mono_l, Hi; cbn; lia|]. apply IH. intros i Hr. apply Hi. cbn [length]. lia.
Qed.

(** *** tuples *)
Section Tuples.
Context {D X : Type} (U : list D) (is : D -> X -> bool).

Fixpoint tuples (q : nat) : list (list D) :=
  match q with O => [[]] | S q => flat_map (fun d => map (cons d) (tuples q)) U end.

Lemma In_tuples ds : Forall (fun d => In d U) ds -> In ds (tuples (length ds)).
Proof.
  induction 1 as [|d ds I _ IH]; [left; reflexivity|]. cbn [length tuples]. apply in_flat_map. exists d. split; [exact I|].
  apply in_map. exact IH.
Qed.
Lemma tuples_In q : forall ds, In ds (tuples q) -> length ds = q /\ Forall (fun d => In d U) ds.
Proof.
  induction q as [|q IH]; intros ds I; cbn [tuples] in I.
  - destruct I as [<-|[]]. split; [reflexivity|constructor].
  - apply in_flat_map in I. destruct I as (d & Id & I). apply in_map_iff in I. destruct I as (r & <- & Ir).
    destruct (IH r Ir) as [L F]. split; [cbn; lia|constructor; assumption].
Qed.
Lemma nlen_tuples q : nlen (tuples q) = nlen U ^ N.of_nat q.
Proof.
  induction q as [|q IH]; [reflexivity|]. cbn [tuples]. rewrite nlen_flat_sum.
  rewrite (sum_ext _ (fun _ => nlen (tuples q))) by (intros d _; apply nlen_map). rewrite sum_const, IH.
  rewrite Nat2N.inj_succ, N.pow_succ_r'. reflexivity.
Qed.

(** occurrences of x *)
Definition occ (x : X) (ds : list D) : N := nlen (filter (fun d => is d x) ds).

Lemma occ_cons x d ds : occ x (d :: ds) = occ x ds + (if is d x then 1 else 0).
Proof. unfold occ. cbn [filter]. destruct (is d x); [rewrite nlen_cons|]; lia. Qed.

Lemma sum_if x (a b : N) l : sum (fun d => if is d x then a + b else a) l = nlen l * a + occ x l * b.
Proof.
  induction l as [|d l IH]; [reflexivity|]. rewrite sum_cons, occ_cons, nlen_cons, IH. destruct (is d x); lia.
Qed.

(** the factorial moments *)
Lemma moments x : forall q j,
  sum (fun ds => ff (occ x ds) j) (tuples q) * nlen U ^ N.of_nat j =
  ff (N.of_nat q) j * occ x U ^ N.of_nat j * nlen U ^ N.of_nat q.
Proof.
  induction q as [|q IH]; intros j.
  - cbn [tuples]. unfold sum. cbn [map fold_right]. change (occ x []) with 0. destruct j as [|j]; [reflexivity|].
    rewrite !(ff_big _ (S j)) by lia. rewrite !N.mul_0_l. reflexivity.
  - destruct j as [|j].
    + change (fun ds => ff (occ x ds) 0) with (fun _ : list D => 1). rewrite sum_const, nlen_tuples.
      change (ff (N.of_nat (S q)) 0) with 1. change (N.of_nat 0) with 0. rewrite !N.pow_0_r. lia.
    + cbn [tuples]. rewrite sum_flat.
      rewrite (sum_ext _ (fun d => if is d x then
        sum (fun ds => ff (occ x ds) (S j)) (tuples q) + N.of_nat (S j) * sum (fun ds => ff (occ x ds) j) (tuples q)
        else sum (fun ds => ff (occ x ds) (S j)) (tuples q))).
      2:{ intros d _. rewrite sum_map. destruct (is d x) eqn:E.
          - rewrite <- sum_scale, <- sum_plus. apply sum_ext. intros ds _. rewrite occ_cons, E. apply ff_succ.
          - apply sum_ext. intros ds _. rewrite occ_cons, E, N.add_0_r. reflexivity. }
      rewrite sum_if. pose proof (IH (S j)) as I1. pose proof (IH j) as I0.
      replace (N.of_nat (S q)) with (N.of_nat q + 1) by lia. rewrite ff_succ.
      replace (N.of_nat (S j)) with (N.of_nat j + 1) in * by lia. rewrite !N.pow_add_r, !N.pow_1_r in *.
      set (F1 := sum _ (tuples q)) in *. set (F0 := sum (fun ds => ff (occ x ds) j) (tuples q)) in *.
      set (u := nlen U) in *. set (c := occ x U) in *. set (uj := u ^ N.of_nat j) in *. set (cj := c ^ N.of_nat j) in *.
      set (uq := u ^ N.of_nat q) in *. set (g1 := ff (N.of_nat q) (S j)) in *. set (g0 := ff (N.of_nat q) j) in *.
      set (J := N.of_nat j) in *. clearbody F1 F0 u c uj cj uq g1 g0 J.
      transitivity (u * (F1 * (uj * u)) + c * (J + 1) * u * (F0 * uj)); [lia|]. rewrite I1, I0. lia.
Qed.

(** if each value is taken by at most C of the elements of U, the sum of the k-th powers is bounded *)
Lemma power_sum x k q Cb Q : occ x U <= Cb -> N.of_nat q <= Q ->
  sum (fun ds => occ x ds ^ N.of_nat k) (tuples q) * nlen U ^ N.of_nat k <=
  dot (fun j => Q ^ N.of_nat j * Cb ^ N.of_nat j * nlen U ^ N.of_nat (k - j)) 0 (row k) * nlen U ^ N.of_nat q.
Proof.
  intros HC HQ. rewrite (sum_ext _ (fun ds => dot (ff (occ x ds)) 0 (row k))) by (intros ds _; apply pow_row).
  rewrite (sum_dot (fun ds => ff (occ x ds))). rewrite N.mul_comm, dot_scale.
  rewrite (N.mul_comm (dot _ _ _)), dot_scale.
  apply dot_le. rewrite length_row. intros j [_ Hj].
  replace (nlen U ^ N.of_nat k) with (nlen U ^ N.of_nat j * nlen U ^ N.of_nat (k - j))
    by (rewrite <- N.pow_add_r; f_equal; lia).
  pose proof (moments x q j) as Mj. set (Z := nlen U ^ N.of_nat (k - j)).
  set (F := sum _ _) in *. set (uj := nlen U ^ N.of_nat j) in *. set (uq := nlen U ^ N.of_nat q) in *.
  transitivity (F * uj * Z); [apply N.eq_le_incl; lia|]. rewrite Mj.
  transitivity (Q ^ N.of_nat j * Cb ^ N.of_nat j * uq * Z); [|apply N.eq_le_incl; lia].
  apply N.mul_le_mono_r, N.mul_le_mono_r. apply N.mul_le_mono.
  - transitivity (N.of_nat q ^ N.of_nat j); [apply ff_pow|]. apply N.pow_le_mono_l. exact HQ.
  - apply N.pow_le_mono_l. exact HC.
Qed.
End Tuples.

(** summing over elements by value *)
Lemma sum_by_value {D X : Type} (is : D -> X -> bool) (xs : list X) (g : X -> N) (key : D -> X) :
  NoDup xs -> (forall d x, is d x = true <-> key d = x) -> forall ds, (forall d, In d ds -> In (key d) xs) ->
  sum (fun d => g (key d)) ds = sum (fun x => occ is x ds * g x) xs.
Proof.
  intros ND Hk. induction ds as [|d ds IH]; intros Hi.
  - symmetry. change (sum (fun _ : X => 0) xs = 0). rewrite sum_const. apply N.mul_0_r.
  - rewrite sum_cons, IH by (intros y Iy; apply Hi; right; exact Iy).
    rewrite (sum_ext (fun x => occ is x (d :: ds) * g x) (fun x => (if is d x then g x else 0) + occ is x ds * g x)).
    2:{ intros x _. rewrite occ_cons. destruct (is d x); lia. }
    rewrite sum_plus. f_equal. pose proof (Hi d (or_introl eq_refl)) as I. clear IH Hi.
    induction ND as [|x xs Nx ND IH]; [contradiction|]. rewrite sum_cons.
    destruct (is d x) eqn:E.
    + apply Hk in E. subst x. rewrite (sum_ext _ (fun _ => 0)), sum_const; [lia|].
      intros y Iy. destruct (is d y) eqn:E; [|reflexivity]. apply Hk in E. subst y. contradiction.
    + rewrite N.add_0_l. apply IH. destruct I as [->|I]; [|exact I]. exfalso.
      rewrite (proj2 (Hk d (key d)) eq_refl) in E. discriminate.
Qed.
