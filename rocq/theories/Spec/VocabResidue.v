(** Words used in the statements about copies of key material that key generation and import leave behind. *)
From Verif Require Import Spec.Fips205Hash Model.Residue Spec.Vocab Spec.VocabMem.
Import ListNotations.
Open Scope N_scope.

(** address x belongs to one of the three by-value parameters, or to the key value built from them before it is
    returned *)
Definition in_call (s : set_name) (lay : SkLayout) (pl : Places) (x : N) : Prop :=
  within (pl_seed pl) (seed_bytes s) x \/ within (pl_prf pl) (seed_bytes s) x \/ within (pl_pkseed pl) (seed_bytes s) x \/
  in_private_key s lay (pl_built pl) x.
(** address x belongs to the local arrays of key generation *)
Definition in_locals (s : set_name) (lo : GenPlaces) (x : N) : Prop :=
  within (lo_seed lo) (seed_bytes s) x \/ within (lo_prf lo) (seed_bytes s) x \/ within (lo_pkseed lo) (seed_bytes s) x.

(** no two of the regions share a byte *)
Definition all_apart (regions : list (N -> Prop)) : Prop := ForallOrdPairs (fun A B : N -> Prop => forall x, A x -> ~ B x) regions.
Definition call_regions (s : set_name) (lay : SkLayout) (pl : Places) : list (N -> Prop) :=
  [within (pl_seed pl) (seed_bytes s); within (pl_prf pl) (seed_bytes s); within (pl_pkseed pl) (seed_bytes s);
   in_private_key s lay (pl_built pl); in_private_key s lay (pl_out pl)].
Definition keygen_places (s : set_name) (lay : SkLayout) (lo : GenPlaces) (pl : Places) : Prop :=
  disjoint_fields s lay /\
  all_apart ([within (lo_seed lo) (seed_bytes s); within (lo_prf lo) (seed_bytes s); within (lo_pkseed lo) (seed_bytes s)] ++
             call_regions s lay pl).
Definition import_places (s : set_name) (lay : SkLayout) (im : ImportPlaces) (pl : Places) : Prop :=
  disjoint_fields s lay /\
  all_apart ([in_private_key s lay (im_sk im); in_private_key s lay (im_test im)] ++ call_regions s lay pl).
Definition export_places (s : set_name) (lay : SkLayout) (ex : ExportPlaces) (a : N) : Prop :=
  disjoint_fields s lay /\
  all_apart [in_private_key s lay a; in_private_key s lay (ex_self ex); within (ex_bytes ex) (sk_size s); within (ex_out ex) (sk_size s)].
Definition c_keygen_places (s : set_name) (lay : SkLayout) (lo : GenPlaces) (pl : Places) (ex : ExportPlaces) : Prop :=
  disjoint_fields s lay /\
  all_apart ([within (lo_seed lo) (seed_bytes s); within (lo_prf lo) (seed_bytes s); within (lo_pkseed lo) (seed_bytes s)] ++
             call_regions s lay pl ++
             [in_private_key s lay (ex_self ex); within (ex_bytes ex) (sk_size s); within (ex_out ex) (sk_size s)]).
Definition c_sign_places (s : set_name) (lay : SkLayout) (im : ImportPlaces) (pl : Places) (key_at sig_at : N) : Prop :=
  disjoint_fields s lay /\
  all_apart ([within key_at (sk_size s); within sig_at (sig_size s)] ++
             [in_private_key s lay (im_sk im); in_private_key s lay (im_test im)] ++ call_regions s lay pl).
(** what a C program does to erase the private key it was given: 64 bytes of zero *)
Definition wiped (s : set_name) (a : N) (mem : memory) : memory := write_bytes a (nrepeat x00 (sk_size s)) mem.
