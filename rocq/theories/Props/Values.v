(** Private-key values that are cloned, moved, erased and dropped. *)
From Coq Require Import String.
From Verif Require Import Spec.Fips205 Spec.Fips205Hash.
From Verif Require Import Model.Api Spec.Vocab Model.Values Spec.VocabMem Spec.VocabOwn Proof.TopZero Proof.TopOwn Proof.Toy Proof.ToyKeys.
Import ListNotations.
Open Scope list_scope.
Open Scope N_scope.

(** C88. Copies of a private key are independent, and dropped ones leave nothing. A Rust program may
    create private-key values, clone them, move them, zeroize them and drop them in any order. At
    every point each value it owns still holds exactly its key: zeroizing or dropping one copy never
    affects another. Every byte that ever belonged to a value is zero, unless it belongs to a value
    that is still alive or to a place from which a value was moved away. No other memory is changed.
    (Moving does leave a copy behind: after the moved value has been dropped, the whole key is still
    at the old place. ZeroizeOnDrop does not cover moves.) *)
Theorem key_values_independent :
  forall (s : set_name) (lay : SkLayout) (mem0 mem : memory) (live : list (N * SlhPrivateKey)) (used left : list N),
    disjoint_fields s lay -> key_history s lay mem0 mem live used left ->
    (forall a sk, In (a, sk) live -> stored lay a sk mem /\ load_sk (param_set s) lay a mem = sk) /\
    (forall a x, In a used -> in_private_key s lay a x ->
       (forall b sk, In (b, sk) live -> ~ in_private_key s lay b x) ->
       (forall b, In b left -> ~ in_private_key s lay b x) -> mem x = x00) /\
    (forall x, (forall a, In a used -> ~ in_private_key s lay a x) -> mem x = mem0 x).
Proof. exact prop_key_values_independent. Qed.
Print Assumptions key_values_independent.

(** a key at 100 is cloned to 200, the original moved to 300, the clone zeroized and dropped: the key is still at 300, and
    nothing is left at 200 *)
Example key_values_independent_applies :
  let s := SHA2_128s in let lay := mkSkLayout 0 16 32 48 in let sk := tsk SHA2_128s in
  let mem0 : memory := fun _ => n2b 7 in
  disjoint_fields s lay /\
  exists mem, key_history s lay mem0 mem [(300, sk)] [300; 200; 100] [100] /\
    load_sk (param_set s) lay 300 mem = sk /\ mem 215 = x00 /\ mem 264 = n2b 7.
Proof.
  exact (conj (proj1 (values_toy _ (toy_sk_typed toy_prims SHA2_128s))) (proj2 (values_toy _ (toy_sk_typed toy_prims SHA2_128s)))).
Qed.

(** Beside C88: moving a private key leaves a copy at the old place, which nothing erases. *)
Theorem moved_keys_leave_copies :
  forall (s : set_name) (lay : SkLayout) (mem0 mem : memory) (live : list (N * SlhPrivateKey)) (used left : list N)
         (a b : N) (sk : SlhPrivateKey),
    disjoint_fields s lay -> key_history s lay mem0 mem ((a, sk) :: live) used left ->
    free s lay ((a, sk) :: live) b ->
    let mem' := key_step (param_set s) lay (KDrop b) (key_step (param_set s) lay (KMove a b) mem) in
    key_history s lay mem0 mem' live (b :: used) (a :: left) /\ stored lay a sk mem'.
Proof. exact prop_moved_keys_leave_copies. Qed.
Print Assumptions moved_keys_leave_copies.

Example moved_keys_leave_copies_applies :
  let lay := mkSkLayout 0 16 32 48 in let sk := tsk SHA2_128s in
  exists mem, key_history SHA2_128s lay (fun _ => x00) mem [(100, sk)] [100] [] /\
    free SHA2_128s lay [(100, sk)] 300 /\ sk_prf sk <> nrepeat x00 16.
Proof.
  cbv zeta. set (lay := mkSkLayout 0 16 32 48).
  pose proof (keys_next SHA2_128s lay (fun _ => x00) _ _ _ _ _ _ (keys_start _ _ _)
    (own_create SHA2_128s lay 100 (tsk SHA2_128s) [] (toy_sk_typed toy_prims SHA2_128s) (fun _ _ _ I => match I with end))) as H1.
  cbn [app puts abandons] in H1. eexists. split; [exact H1|]. split.
  - intros c k x [E|[]]. apply pair_equal_spec in E. destruct E as [<- _].
    unfold in_private_key, within, lay. change (seed_bytes SHA2_128s) with 16. cbn [at_sk_seed at_sk_prf at_pk_seed at_pk_root]. lia.
  - intros E. apply (f_equal (fun l => nth 0 l x00)) in E. lazy in E. discriminate E.
Qed.
