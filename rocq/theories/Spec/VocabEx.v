(** The example programs shipped with the crate: words used in the statements about them. *)
From Coq Require Import String.
From Verif Require Spec.Fips205.
From Verif Require Import Machine Model.Api Model.FfiMem Spec.Fips205Hash Spec.Vocab Spec.VocabC Spec.VocabForge Spec.VocabBind.
Import ListNotations.
Open Scope list_scope.
Open Scope N_scope.

(** [answers os n g bs g']: from state g on, the generator answers requests of n bytes with the strings bs,
    one after the other, and is then in state g' *)
Inductive answers (os : Rng) (n : N) : rng_st os -> list bytes -> rng_st os -> Prop :=
| answers_none g : answers os n g [] g
| answers_next g b g1 bs g2 : gives os g n b g1 -> answers os n g1 bs g2 -> answers os n g (b :: bs) g2.

(** one of the next k requests of n bytes is refused *)
Definition fails_within (os : Rng) (n k : N) (g : rng_st os) : Prop :=
  exists bs g', answers os n g bs g' /\ nlen bs < k /\ refuses os g' n.

(** the four local variables of ffi/tests/baseline.c are four separate objects in memory *)
Definition locals (M : cmem) (public private sig message : N) : Prop :=
  (public <> 0 /\ public + 32 <= mem_top M) /\ (private <> 0 /\ private + 64 <= mem_top M) /\
  (sig <> 0 /\ sig + 17088 <= mem_top M) /\ (message <> 0 /\ message + 3 <= mem_top M) /\
  apart public 32 private 64 /\ apart public 32 sig 17088 /\ apart private 64 sig 17088 /\
  apart message 3 public 32 /\ apart message 3 private 64 /\ apart message 3 sig 17088.

(** one signature is accepted under pk for two different framed messages; by C61 this takes one of the
    three things listed *)
Definition accepted_for_two {T : Target} {P : Prims} (s : set_name) (pk : SlhPublicKey) (M1 M2 : bytes) : Prop :=
  M1 <> M2 /\
  exists sig t1 t2,
    accepting_run s pk M1 sig t1 /\ accepting_run s pk M2 sig t2 /\
    ((forall i, i < t_k (table2 s) -> fors_leaf s pk M1 sig i = fors_leaf s pk M2 sig i) \/
     collision s (pk_seed pk) t1 t2 \/
     earlier_chain_value s pk t1 M1 sig sig).

(** a byte string in hexadecimal, two lower-case digits per byte; the end of a line *)
Definition hex_digits (b : byte) : string :=
  let digit d := substring (N.to_nat d) 1 "0123456789abcdef"%string in (digit (b2n b / 16) ++ digit (b2n b mod 16))%string.
Definition in_hex (bs : bytes) : string := List.fold_right (fun b s => (hex_digits b ++ s)%string) EmptyString bs.
Definition line_end : string := String (Ascii.ascii_of_N 10) EmptyString.
