(** What an observer of a C call learns anyway: the words of the statement on leakage through the C
    interface. *)
From Verif Require Spec.Fips205.
From Verif Require Import Machine Model.Api Model.FfiMem Spec.Fips205Hash Spec.Vocab Spec.VocabPublic.
Import ListNotations.
Open Scope list_scope.
Open Scope N_scope.

(** two calls of the same function with the same pointers null, and messages of the same length *)
Definition same_null (a b : N) : Prop := a = 0 <-> b = 0.
Definition same_call (op1 op2 : c_op) : Prop :=
  match op1, op2 with
  | CKeygen pub1 priv1, CKeygen pub2 priv2 => same_null pub1 pub2 /\ same_null priv1 priv2
  | CSign buf1 len1 sk1 out1, CSign buf2 len2 sk2 out2 =>
      len1 = len2 /\ same_null buf1 buf2 /\ same_null sk1 sk2 /\ same_null out1 out2
  | _, _ => False
  end.

(** the number of requests a run made to the system generator *)
Definition requests (t : list event) : nat :=
  length (filter (fun e => match e with ERng _ => true | _ => false end) t).

(** After a call that returned code 0: what everyone learns who later verifies the signature now in memory
    with the public half of the private key; nothing for key generation. *)
Definition c_public {P : Prims} (op : c_op) (M M' : cmem) : bytes * list bytes :=
  match op with
  | CSign buf len sk out =>
      public_view SHA2_128f (mkPk (load M (sk + 32) 16) (load M (sk + 48) 16))
        (Fips205.pure_M' (load M buf (Z.to_N len)) []) (load M' out 17088)
  | _ => ([], [])
  end.

(** After a signing call that refused the private key: how many bytes of the root in the key struct agree with
    the root that belongs to its seeds, before the first difference. *)
Definition c_refused_at {P : Prims} (op : c_op) (M : cmem) : N :=
  match op with
  | CSign _ _ sk _ => agreeing_root_bytes SHA2_128f (load M sk 64)
  | _ => 0
  end.
