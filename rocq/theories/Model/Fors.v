(** Model of src/fors.rs. *)
From Verif Require Export Machine Model.Wots.

Section Fors.
Context {T : Target} (p : Params) (hs : Hashers).
Let n := cN p.

(** src/fors.rs:12-29 [fors_sk_gen] *)
Definition fors_sk_gen (skseed pkseed : bytes) (adrs : Adrs) (idx : N) : M bytes :=
  let sk_adrs := set_type_and_clear adrs FORS_PRF in
  let sk_adrs := set_key_pair_address sk_adrs (get_key_pair_address adrs) in
  let sk_adrs := set_tree_index sk_adrs idx in
  call_prf hs pkseed skseed sk_adrs.

(** src/fors.rs:39-93 [fors_node]; [fuel] is the number of further activations the stack holds, as in
    xmss_node *)
Fixpoint fors_node_fuel (fuel : nat) (skseed : bytes) (i z : N) (pkseed : bytes) (adrs : Adrs)
  : M bytes :=
  match fuel with
  | O => panic PFuel
  | S fuel' =>
      c <- branch (z =? 0) ;;
      if c then
        sk <- fors_sk_gen skseed pkseed adrs i ;;
        let adrs := set_tree_height adrs 0 in
        let adrs := set_tree_index adrs i in
        call_f hs pkseed adrs sk
      else
        i2 <- mul U32 2 i ;;
        z1 <- sub U32 z 1 ;;
        lnode <- fors_node_fuel fuel' skseed i2 z1 pkseed adrs ;;
        i2' <- mul U32 2 i ;;
        i21 <- add U32 i2' 1 ;;
        z1' <- sub U32 z 1 ;;
        rnode <- fors_node_fuel fuel' skseed i21 z1' pkseed adrs ;;
        let adrs := set_tree_height adrs z in
        let adrs := set_tree_index adrs i in
        call_h hs pkseed adrs lnode rnode
  end.

(** src/fors.rs:39-93 [fors_node], as the rest of the program calls it *)
Definition fors_node (skseed : bytes) (i z : N) (pkseed : bytes) (adrs : Adrs) : M bytes :=
  fors_node_fuel nesting_limit skseed i z pkseed adrs.

(** src/fors.rs:102-163 [fors_sign] *)
Definition fors_sign (md skseed : bytes) (adrs : Adrs) (pkseed : bytes) : M ForsSig :=
  a32 <- try_u32_unwrap (cA p) ;;
  k32 <- try_u32_unwrap (cK p) ;;
  let sig_fors := zero_fors_sig p in
  let indices := nrepeat 0 (cK p) in
  indices <- base_2b md a32 k32 indices ;;
  for_range 0 k32
    (fun i sig_fors =>
       s <- shl U32 i a32 ;;
       ix <- index indices (cast Usize i) ;;
       g <- add U32 s ix ;;
       sk <- fors_sk_gen skseed pkseed adrs g ;;
       pkv <- upd (private_key_value sig_fors) (cast Usize i) sk ;;
       let sig_fors := mkForsSig pkv (fors_auth sig_fors) in
       for_range 0 a32
         (fun j sig_fors =>
            ix <- index indices (cast Usize i) ;;
            sx <- shr U32 ix j ;;
            let s := N.lxor sx 1 in
            aj <- sub U32 a32 j ;;
            si <- shl U32 i aj ;;
            g <- add U32 si s ;;
            nd <- fors_node skseed g j pkseed adrs ;;
            tr <- index (fors_auth sig_fors) (cast Usize i) ;;
            tr <- upd tr (cast Usize j) nd ;;
            au <- upd (fors_auth sig_fors) (cast Usize i) tr ;;
            ret (mkForsSig (private_key_value sig_fors) au))
         sig_fors)
    sig_fors.

(** src/fors.rs:172-263 [fors_pk_from_sig] *)
Definition fors_pk_from_sig (sig_fors : ForsSig) (md pkseed : bytes) (adrs : Adrs) : M bytes :=
  a32 <- try_u32_unwrap (cA p) ;;
  k32 <- try_u32_unwrap (cK p) ;;
  let indices := nrepeat 0 (cK p) in
  indices <- base_2b md a32 k32 indices ;;
  let root := nrepeat (nrepeat x00 n) (cK p) in
  '(root, adrs) <- for_range 0 k32
    (fun i '(root, adrs) =>
       sk <- index (private_key_value sig_fors) (cast Usize i) ;;
       let adrs := set_tree_height adrs 0 in
       s <- shl U32 i a32 ;;
       ix <- index indices (cast Usize i) ;;
       g <- add U32 s ix ;;
       let adrs := set_tree_index adrs g in
       node_0 <- call_f hs pkseed adrs sk ;;
       auth <- index (fors_auth sig_fors) (cast Usize i) ;;
       '(node_0, adrs) <- for_range 0 a32
         (fun j '(node_0, adrs) =>
            j1 <- add U32 j 1 ;;
            let adrs := set_tree_height adrs j1 in
            ix <- index indices (cast Usize i) ;;
            s <- shr U32 ix j ;;
            c <- branch (N.land s 1 =? 0) ;;
            if c then
              tmp <- div (get_tree_index adrs) 2 ;;
              let adrs := set_tree_index adrs tmp in
              a <- index auth (cast Usize j) ;;
              node_1 <- call_h hs pkseed adrs node_0 a ;;
              ret (node_1, adrs)
            else
              t1 <- sub U32 (get_tree_index adrs) 1 ;;
              tmp <- div t1 2 ;;
              let adrs := set_tree_index adrs tmp in
              a <- index auth (cast Usize j) ;;
              node_1 <- call_h hs pkseed adrs a node_0 ;;
              ret (node_1, adrs))
         (node_0, adrs) ;;
       root <- upd root (cast Usize i) node_0 ;;
       ret (root, adrs))
    (root, adrs) ;;
  let fors_pk_adrs := set_type_and_clear adrs FORS_ROOTS in
  let fors_pk_adrs := set_key_pair_address fors_pk_adrs (get_key_pair_address adrs) in
  call_t_len hs pkseed fors_pk_adrs root.

End Fors.
