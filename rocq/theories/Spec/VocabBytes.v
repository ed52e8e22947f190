(** The number of bytes handed to the keyed hash functions: words used in the statement about long messages. *)
From Verif Require Import Machine Model.Api Spec.Fips205Hash Spec.Vocab Spec.VocabWork.
Import ListNotations.
Open Scope list_scope.
Open Scope N_scope.

(** the lengths of all arguments of a hash call; an address has 32 bytes *)
Definition handed (e : event) : N :=
  match e with
  | EHash _ seed _ inputs => nlen seed + 32 + total (map nlen inputs)
  | EHmsg r seed root m => nlen r + nlen seed + nlen root + total (map nlen m)
  | EPrfMsg prf rand m => nlen prf + nlen rand + total (map nlen m)
  | _ => 0
  end.
Definition bytes_handed (t : list event) : N := total (map handed t).

(** arguments of the largest call that does not take the message: T on len chain ends or k FORS roots *)
Definition largest_call (s : set_name) : N :=
  let t := table2 s in t_n t + 32 + N.max (chains s) (t_k t) * t_n t.
