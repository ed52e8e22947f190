(** FIPS 202: SHAKE128 and SHAKE256 on byte strings, transcribed from the standard. The crate takes
    these functions from the external crate sha3; the theorems hold for arbitrary functions in their
    place ([Model.Prims]) and so for these. *)
From Verif Require Import Bytes.

(** the state: 25 lanes of 64 bits, lane (x, y) at position 5 y + x; bit z of a lane has weight 2^z *)
Definition state : Type := list N.
Definition lane (A : state) (x y : N) : N := nth (N.to_nat (5 * (y mod 5) + x mod 5)) A 0.
Definition tabulate (f : N -> N -> N) : state := map (fun i => f (i mod 5) (i / 5)) (nrange 25).

Definition rotl (n x : N) : N := N.lor (N.shiftl x n mod 2 ^ 64) (N.shiftr x (64 - n)).

(** section 3.2.1 *)
Definition theta (A : state) : state :=
  let C := map (fun x => N.lxor (lane A x 0) (N.lxor (lane A x 1) (N.lxor (lane A x 2)
                           (N.lxor (lane A x 3) (lane A x 4))))) (nrange 5) in
  let c := fun x => nth (N.to_nat (x mod 5)) C 0 in
  let D := map (fun x => N.lxor (c (x + 4)) (rotl 1 (c (x + 1)))) (nrange 5) in
  tabulate (fun x y => N.lxor (lane A x y) (nth (N.to_nat x) D 0)).

(** section 3.2.2, Table 2: the offsets modulo 64 *)
Definition offsets : list N :=
  [0; 1; 62; 28; 27;
   36; 44; 6; 55; 20;
   3; 10; 43; 25; 39;
   41; 45; 15; 21; 8;
   18; 2; 61; 56; 14].
Definition rho (A : state) : state :=
  tabulate (fun x y => rotl (nth (N.to_nat (5 * y + x)) offsets 0) (lane A x y)).

(** section 3.2.3 *)
Definition pi (A : state) : state := tabulate (fun x y => lane A (x + 3 * y) x).

(** section 3.2.4 *)
Definition chi (A : state) : state :=
  tabulate (fun x y => N.lxor (lane A x y)
                         (N.land (N.lxor (lane A (x + 1) y) (2 ^ 64 - 1)) (lane A (x + 2) y))).

(** section 3.2.5: the round constants *)
Definition RC : list N :=
  [0x0000000000000001; 0x0000000000008082; 0x800000000000808a; 0x8000000080008000;
   0x000000000000808b; 0x0000000080000001; 0x8000000080008081; 0x8000000000008009;
   0x000000000000008a; 0x0000000000000088; 0x0000000080008009; 0x000000008000000a;
   0x000000008000808b; 0x800000000000008b; 0x8000000000008089; 0x8000000000008003;
   0x8000000000008002; 0x8000000000000080; 0x000000000000800a; 0x800000008000000a;
   0x8000000080008081; 0x8000000000008080; 0x0000000080000001; 0x8000000080008008].
Definition iota (rc : N) (A : state) : state :=
  match A with [] => [] | a :: r => N.lxor a rc :: r end.

(** section 3.3: KECCAK-p[1600, 24] *)
Definition keccak_p (A : state) : state :=
  fold_left (fun A rc => iota rc (chi (pi (rho (theta A))))) RC A.

(** section 3.1.2: conversion of strings to states and back, eight bytes per lane *)
Definition le_lane (b : bytes) : N := of_be (rev b).
Definition lane_bytes (x : N) : bytes := rev (be_bytes 8 x).
Definition state_bytes (A : state) : bytes := flat_map (fun i => lane_bytes (nth (N.to_nat i) A 0)) (nrange 25).

Section Sponge.
(** the rate in bytes *)
Context (rate : N).

(** section 5.1 with the suffix 1111 of section 6.2: first byte 0x1f, last byte or-ed with 0x80 *)
Definition pad (M : bytes) : bytes :=
  let q := rate - nlen M mod rate in
  M ++ (if q =? 1 then [Coq.Init.Byte.x9f]
        else [Coq.Init.Byte.x1f] ++ nrepeat x00 (q - 2) ++ [Coq.Init.Byte.x80]).

(** Algorithm 8, steps 5 and 6: absorbing *)
Definition absorb_block (A : state) (B : bytes) : state :=
  keccak_p (map (fun i => N.lxor (nth (N.to_nat i) A 0)
                            (le_lane (sub_bytes B (8 * i) (8 * i + 8)))) (nrange 25)).
Definition absorb (M : bytes) : state :=
  let p := pad M in
  fold_left (fun A i => absorb_block A (sub_bytes p (i * rate) (i * rate + rate)))
            (nrange (nlen p / rate)) (nrepeat 0 25).

(** steps 7 to 10: squeezing *)
Fixpoint squeeze (count : nat) (A : state) : bytes :=
  match count with
  | O => []
  | S c => firstn (N.to_nat rate) (state_bytes A) ++ squeeze c (keccak_p A)
  end.

Definition sponge (M : bytes) (d : N) : bytes :=
  firstn (N.to_nat d) (squeeze (N.to_nat ((d + rate - 1) / rate)) (absorb M)).

Lemma length_state_bytes A : length (state_bytes A) = 200%nat.
Proof.
  unfold state_bytes.
  assert (G : forall l, length (flat_map (fun i => lane_bytes (nth (N.to_nat i) A 0)) l) = (8 * length l)%nat).
  { induction l as [|i l IH]; [reflexivity|]. cbn [flat_map length]. rewrite app_length, IH.
    unfold lane_bytes. rewrite rev_length, length_be_bytes. lia. }
  rewrite G. reflexivity.
Qed.

Lemma length_squeeze c A : rate <= 200 -> length (squeeze c A) = (c * N.to_nat rate)%nat.
Proof.
  intros R. revert A. induction c as [|c IH]; intros A; [reflexivity|].
  cbn [squeeze]. rewrite app_length, IH, firstn_length, length_state_bytes. lia.
Qed.

Lemma sponge_len (M : bytes) (d : N) : 0 < rate <= 200 -> nlen (sponge M d) = d.
Proof.
  intros R. unfold sponge, nlen. rewrite firstn_length, length_squeeze by lia.
  enough (d <= (d + rate - 1) / rate * rate) by nia.
  pose proof (N.div_mod (d + rate - 1) rate ltac:(lia)) as E.
  pose proof (N.mod_lt (d + rate - 1) rate ltac:(lia)). nia.
Qed.

End Sponge.

(** section 6.2: capacity 256 and 512 bits *)
Definition SHAKE128 (M : bytes) (d : N) : bytes := sponge 168 M d.
Definition SHAKE256 (M : bytes) (d : N) : bytes := sponge 136 M d.
