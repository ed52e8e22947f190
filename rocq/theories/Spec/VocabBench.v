(** Labels of the benchmarks. *)
From Coq Require Import String List NArith.
From Verif Require Import Spec.Fips205Hash.
Import ListNotations.
Open Scope list_scope.

(** the name of a parameter set in the labels, padded to ten characters *)
Definition short_name (s : set_name) : string :=
  match s with
  | SHA2_128s => "sha2_128s " | SHA2_128f => "sha2_128f " | SHA2_192s => "sha2_192s " | SHA2_192f => "sha2_192f "
  | SHA2_256s => "sha2_256s " | SHA2_256f => "sha2_256f "
  | SHAKE_128s => "shake_128s" | SHAKE_128f => "shake_128f" | SHAKE_192s => "shake_192s" | SHAKE_192f => "shake_192f"
  | SHAKE_256s => "shake_256s" | SHAKE_256f => "shake_256f"
  end%string.

Definition keygen_label (s : set_name) : string := (short_name s ++ " keygen")%string.
Definition sign_label (s : set_name) : string := (short_name s ++ " sign  ")%string.
Definition verify_label (s : set_name) : string := (short_name s ++ " verify")%string.

(** the order of the report *)
Definition bench_sets : list set_name :=
  [SHA2_128f; SHA2_192f; SHA2_256f; SHAKE_128f; SHAKE_192f; SHAKE_256f;
   SHA2_128s; SHA2_192s; SHA2_256s; SHAKE_128s; SHAKE_192s; SHAKE_256s].
Definition bench_labels : list string :=
  map keygen_label bench_sets ++ map sign_label bench_sets ++ map verify_label bench_sets.
