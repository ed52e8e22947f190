(** Which hash function an address is for, and on how many strings of n bytes (FIPS 205, section 4.2): words used
    in the statement about the shape of hash calls. *)
From Verif Require Spec.Fips205.
From Verif Require Import Machine Model.Api Spec.Fips205Hash Spec.Vocab.
Import ListNotations.
Open Scope list_scope.
Open Scope N_scope.

(** by address type: WOTS_HASH 0, WOTS_PK 1, TREE 2, FORS_TREE 3, FORS_ROOTS 4, WOTS_PRF 5, FORS_PRF 6. KTl and
    KTlen are the two uses of T: on the ends of the len chains and on the k FORS roots *)
Definition role (s : set_name) (a : Adrs) : option (hkind * N) :=
  let t := table2 s in
  match a_type a with
  | 0 => Some (KF, 1)
  | 1 => Some (KTl, 2 * t_n t + 3)
  | 2 => Some (KH, 2)
  | 3 => if a_word2 a =? 0 then Some (KF, 1) else Some (KH, 2)
  | 4 => Some (KTlen, t_k t)
  | 5 | 6 => Some (KPRF, 1)
  | _ => None
  end.
