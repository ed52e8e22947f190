(** Model of src/hypertree.rs. *)
From Coq Require Import String.
From Verif Require Export Machine Model.Xmss.
Import ListNotations.
Open Scope list_scope.
Open Scope N_scope.

Section Hypertree.
Context {T : Target} (p : Params) (hs : Hashers).
Let n := cN p.

(** src/hypertree.rs:13-91 [ht_sign] *)
Definition ht_sign (m skseed pkseed : bytes) (idx_tree idx_leaf : N) : M (list XmssSig) :=
  d32 <- try_u32_unwrap (cD p) ;;
  hp32 <- try_u32_unwrap (cHP p) ;;
  let adrs := adrs_default in
  let adrs := set_tree_address adrs idx_tree in
  sig_tmp <- xmss_sign p hs m skseed idx_leaf pkseed adrs ;;
  let sig_ht := zero_ht_sig p in
  sig_ht <- upd sig_ht 0 sig_tmp ;;
  root <- xmss_pk_from_sig p hs idx_leaf sig_tmp m pkseed adrs ;;
  '(sig_ht, _, _, _) <- for_range 1 d32
    (fun j '(sig_ht, root, adrs, idx_tree) =>
       one <- shl U64 1 hp32 ;;
       mask <- sub U64 one 1 ;;
       let v := N.land idx_tree mask in
       c <- branch (v <? 2 ^ 32) ;;
       idx_leaf <- (if c then ret v else err "Alg11: oversized idx leaf"%string) ;;
       idx_tree <- shr U64 idx_tree hp32 ;;
       let adrs := set_layer_address adrs j in
       let adrs := set_tree_address adrs idx_tree in
       sig_tmp <- xmss_sign p hs root skseed idx_leaf pkseed adrs ;;
       sig_ht <- upd sig_ht (cast Usize j) sig_tmp ;;
       d1 <- sub U32 d32 1 ;;
       c <- branch (j <? d1) ;;
       root <- (if c then xmss_pk_from_sig p hs idx_leaf sig_tmp root pkseed adrs
                else ret root) ;;
       ret (sig_ht, root, adrs, idx_tree))
    (sig_ht, root, adrs, idx_tree) ;;
  ret sig_ht.

(** src/hypertree.rs:100-161 [ht_verify] *)
Definition ht_verify (m : bytes) (sig_ht : list XmssSig) (pkseed : bytes)
    (idx_tree idx_leaf : N) (pkroot : bytes) : M bool :=
  d32 <- try_u32_unwrap (cD p) ;;
  hp32 <- try_u32_unwrap (cHP p) ;;
  let adrs := adrs_default in
  let adrs := set_tree_address adrs idx_tree in
  sig_tmp <- index sig_ht 0 ;;
  node <- xmss_pk_from_sig p hs idx_leaf sig_tmp m pkseed adrs ;;
  r <- for_range_ret 1 d32
    (fun j '(node, adrs, idx_tree) =>
       one <- shl U64 1 hp32 ;;
       mask <- sub U64 one 1 ;;
       let v := N.land idx_tree mask in
       c <- branch (v <? 2 ^ 32) ;;
       if c then
         let idx_leaf := v in
         idx_tree <- shr U64 idx_tree hp32 ;;
         let adrs := set_layer_address adrs j in
         let adrs := set_tree_address adrs idx_tree in
         sig_tmp <- index sig_ht (cast Usize j) ;;
         node <- xmss_pk_from_sig p hs idx_leaf sig_tmp node pkseed adrs ;;
         ret (inl (node, adrs, idx_tree))
       else ret (inr false))
    (node, adrs, idx_tree) ;;
  match r with
  | inl (node, _, _) => same_bytes node pkroot
  | inr b => ret b
  end.

End Hypertree.
