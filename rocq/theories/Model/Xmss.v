(** Model of src/xmss.rs. *)
From Verif Require Export Machine Model.Wots.

Section Xmss.
Context {T : Target} (p : Params) (hs : Hashers).
Let n := cN p.

(** src/xmss.rs:13-69 [xmss_node]. [fuel] is the number of further activations the stack holds; running
    out is a panic, excluded by the theorems. *)
Fixpoint xmss_node_fuel (fuel : nat) (skseed : bytes) (i z : N) (pkseed : bytes) (adrs : Adrs)
  : M bytes :=
  match fuel with
  | O => panic PFuel
  | S fuel' =>
      c <- branch (z =? 0) ;;
      if c then
        let adrs := set_type_and_clear adrs WOTS_HASH in
        let adrs := set_key_pair_address adrs i in
        wots_pkgen p hs skseed pkseed adrs
      else
        i2 <- mul U32 2 i ;;
        z1 <- sub U32 z 1 ;;
        lnode <- xmss_node_fuel fuel' skseed i2 z1 pkseed adrs ;;
        i2' <- mul U32 2 i ;;
        i21 <- add U32 i2' 1 ;;
        z1' <- sub U32 z 1 ;;
        rnode <- xmss_node_fuel fuel' skseed i21 z1' pkseed adrs ;;
        let adrs := set_type_and_clear adrs TREE in
        let adrs := set_tree_height adrs z in
        let adrs := set_tree_index adrs i in
        call_h hs pkseed adrs lnode rnode
  end.

(** src/xmss.rs:13-69 [xmss_node], as the rest of the program calls it *)
Definition xmss_node (skseed : bytes) (i z : N) (pkseed : bytes) (adrs : Adrs) : M bytes :=
  xmss_node_fuel nesting_limit skseed i z pkseed adrs.

(** src/xmss.rs:78-123 [xmss_sign] *)
Definition xmss_sign (m skseed : bytes) (idx : N) (pkseed : bytes) (adrs : Adrs) : M XmssSig :=
  hp32 <- try_u32_unwrap (cHP p) ;;
  let auth := nrepeat (nrepeat x00 n) (cHP p) in
  auth <- for_range 0 hp32
    (fun j auth =>
       s <- shr U32 idx j ;;
       let k := N.lxor s 1 in
       nd <- xmss_node skseed k j pkseed adrs ;;
       upd auth (cast Usize j) nd)
    auth ;;
  let adrs := set_type_and_clear adrs WOTS_HASH in
  let adrs := set_key_pair_address adrs idx in
  sig <- wots_sign p hs m skseed pkseed adrs ;;
  ret (mkXmssSig sig auth).

(** src/xmss.rs:132-203 [xmss_pk_from_sig]; get_wots_sig/get_xmss_auth are src/types.rs:97-101 *)
Definition xmss_pk_from_sig (idx : N) (sig_xmss : XmssSig) (m pkseed : bytes) (adrs : Adrs)
  : M bytes :=
  hp32 <- try_u32_unwrap (cHP p) ;;
  let adrs := set_type_and_clear adrs WOTS_HASH in
  let adrs := set_key_pair_address adrs idx in
  let sig := sig_wots sig_xmss in
  let auth := xmss_auth sig_xmss in
  node_0 <- wots_pk_from_sig p hs sig m pkseed adrs ;;
  let adrs := set_type_and_clear adrs TREE in
  let adrs := set_tree_index adrs idx in
  '(node_0, _) <- for_range 0 hp32
    (fun k '(node_0, adrs) =>
       k1 <- add U32 k 1 ;;
       let adrs := set_tree_height adrs k1 in
       s <- shr U32 idx k ;;
       c <- branch (N.land s 1 =? 0) ;;
       if c then
         tmp <- div (get_tree_index adrs) 2 ;;
         let adrs := set_tree_index adrs tmp in
         a <- index auth (cast Usize k) ;;
         node_1 <- call_h hs pkseed adrs node_0 a ;;
         ret (node_1, adrs)
       else
         t1 <- sub U32 (get_tree_index adrs) 1 ;;
         tmp <- div t1 2 ;;
         let adrs := set_tree_index adrs tmp in
         a <- index auth (cast Usize k) ;;
         node_1 <- call_h hs pkseed adrs a node_0 ;;
         ret (node_1, adrs))
    (node_0, adrs) ;;
  ret node_0.

End Xmss.
