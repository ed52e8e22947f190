(** Words used in the statements about erasure, and nothing else. *)
From Verif Require Import Spec.Fips205Hash Model.Zeroize Spec.Vocab.
Open Scope N_scope.

(** the bytes l are found at address a *)
Definition found (mem : memory) (a : N) (l : bytes) : Prop :=
  forall i, i < nlen l -> mem (a + i) = nth (N.to_nat i) l x00.

(** address x is one of the len bytes that start at a *)
Definition within (a len x : N) : Prop := a <= x < a + len.

(** two regions share no byte *)
Definition apart (a1 l1 a2 l2 : N) : Prop := a1 + l1 <= a2 \/ a2 + l2 <= a1.

(** address x belongs to a field of the private key at a *)
Definition in_private_key (s : set_name) (lay : SkLayout) (a x : N) : Prop :=
  within (a + at_sk_seed lay) (seed_bytes s) x \/ within (a + at_sk_prf lay) (seed_bytes s) x \/
  within (a + at_pk_seed lay) (seed_bytes s) x \/ within (a + at_pk_root lay) (seed_bytes s) x.
Definition in_public_key (s : set_name) (lay : PkLayout) (a x : N) : Prop :=
  within (a + pk_at_seed lay) (seed_bytes s) x \/ within (a + pk_at_root lay) (seed_bytes s) x.

(** a possible layout: the four fields do not overlap *)
Definition disjoint_fields (s : set_name) (lay : SkLayout) : Prop :=
  let n := seed_bytes s in
  apart (at_sk_seed lay) n (at_sk_prf lay) n /\ apart (at_sk_seed lay) n (at_pk_seed lay) n /\
  apart (at_sk_seed lay) n (at_pk_root lay) n /\ apart (at_sk_prf lay) n (at_pk_seed lay) n /\
  apart (at_sk_prf lay) n (at_pk_root lay) n /\ apart (at_pk_seed lay) n (at_pk_root lay) n.

(** the private key value sk is stored at address a *)
Definition stored (lay : SkLayout) (a : N) (sk : SlhPrivateKey) (mem : memory) : Prop :=
  found mem (a + at_sk_seed lay) (sk_seed sk) /\ found mem (a + at_sk_prf lay) (sk_prf sk) /\
  found mem (a + at_pk_seed lay) (sk_pk_seed sk) /\ found mem (a + at_pk_root lay) (sk_pk_root sk).

(** the public key value pk is stored at address a *)
Definition stored_public (lay : PkLayout) (a : N) (pk : SlhPublicKey) (mem : memory) : Prop :=
  found mem (a + pk_at_seed lay) (pk_seed pk) /\ found mem (a + pk_at_root lay) (pk_root pk).
