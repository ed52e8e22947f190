(** Model of the timing harness, dudect/src/main.rs. The runner of the dudect-bencher crate calls each
    closure once and measures it; here a closure is a computation whose trace is what is measured. *)
From Verif Require Export Model.Api.
Import ListNotations.
Open Scope list_scope.
Open Scope N_scope.

(** dudect/src/main.rs:7-25 [TestRng]: the value it returns is fixed, so there is no state; a buffer of
    another length makes copy_from_slice panic. The other three methods are never called. *)
Definition test_fill (z : bytes) (st : unit) (len : N) : unit * outcome bytes :=
  if nlen z =? len then (st, Val z) else (st, Panic PCopyLen).

Lemma test_fill_len z st len st' b : test_fill z st len = (st', Val b) -> nlen b = len.
Proof.
  unfold test_fill. destruct (nlen z =? len) eqn:E; [|discriminate]. apply N.eqb_eq in E. congruence.
Qed.

(** dudect/src/main.rs:7-25 [TestRng] as a generator *)
Definition TestRng (z : bytes) : Rng := mkRng unit (test_fill z) (test_fill_len z).

(** dudect/src/main.rs:36 *)
Definition dudect_message : bytes := map n2b (nrange 8).
(** dudect/src/main.rs:37 *)
Definition z_left : bytes := nrepeat (n2b 170) 16.
(** dudect/src/main.rs:38 *)
Definition z_right : bytes := nrepeat (n2b 85) 16.

Section Dudect.
Context {T : Target} {P : Prims}.
Notation p := slh_dsa_sha2_128s.

(** dudect/src/main.rs:53-56, the body of the inner loop; the key pair and the ignored result of signing
    are returned, so that one can talk about them *)
Definition dudect_round (z : bytes) : RM (TestRng z) (SlhPublicKey * SlhPrivateKey * option bytes) :=
  fun g =>
    let (g, kp) := try_keygen_with_rng p (TestRng z) g in
    (kp <-- rlift (expect kp) ;;
     fun g =>
       let '(g, (t, o)) := try_sign_with_rng p (TestRng z) (snd kp) dudect_message [x00] true g in
       (g, (t, match o with
               | Val sig => Val (fst kp, snd kp, Some sig)
               | Err _ => Val (fst kp, snd kp, None)
               | Panic q => Panic q
               end))) g.

(** dudect/src/main.rs:51-58, the closure that is measured; ITERATIONS_INNER is 2 *)
Definition dudect_closure (z : bytes) : M (list (SlhPublicKey * SlhPrivateKey * option bytes)) :=
  snd ((a <-- dudect_round z ;; b <-- dudect_round z ;; rlift (ret [a; b])) (tt : rng_st (TestRng z))).

(** dudect/src/main.rs:40-47: class and value of the i-th measurement, i < n; true is Class::Left *)
Definition dudect_inputs (n : N) : list (bool * bytes) :=
  map (fun i => if N.even i then (true, z_left) else (false, z_right)) (nrange n).

(** dudect/src/main.rs:49-60 with n for ITERATIONS_OUTER: the measurements, in order; a panic ends the
    program *)
Fixpoint dudect_measure (l : list (bool * bytes)) : outcome (list (bool * list event)) :=
  match l with
  | [] => Val []
  | (class, z) :: l =>
      match dudect_closure z with
      | (t, Val _) =>
          match dudect_measure l with Val r => Val ((class, t) :: r) | Err e => Err e | Panic q => Panic q end
      | (_, Err e) => Err e
      | (_, Panic q) => Panic q
      end
  end.

(** dudect/src/main.rs:31-61 [keygen_and_sign] *)
Definition keygen_and_sign (n : N) : outcome (list (bool * list event)) := dudect_measure (dudect_inputs n).
End Dudect.
