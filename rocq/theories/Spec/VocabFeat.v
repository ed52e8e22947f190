(** Words for the property about cargo features. *)
From Verif Require Import Bytes Model.Features Spec.Fips205Hash.

(** every name that a compiled item uses is compiled *)
Definition names_resolve (F : features) : Prop :=
  forall i j, cfg i F = true -> In j (refs i) -> cfg j F = true.

(** the item is public or used, directly or not, by a public one *)
Inductive live (F : features) : item -> Prop :=
  | live_public i : public i = true -> cfg i F = true -> live F i
  | live_used i j : live F i -> In j (refs i) -> cfg j F = true -> live F j.

(** what #![deny(dead_code)] demands (lib.rs:4) *)
Definition no_dead_code (F : features) : Prop := forall i, cfg i F = true -> live F i.
