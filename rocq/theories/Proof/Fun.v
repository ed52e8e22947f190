(** The functions computed by the code, written as closed mathematical expressions over numeric
    addresses, together with the exact list of hash calls each of them makes. *)
From Verif Require Export Proof.HelpersP Proof.Runs.
From Verif Require Import Spec.Fips205.

(** the address with layer l, tree t, type ty and the three last words a, b, c *)
Definition adr (l t ty a b c : N) : Adrs :=
  mkAdrs (be_bytes 4 l) (nrepeat x00 4) (sub_bytes (be_bytes 8 t) 0 4) (sub_bytes (be_bytes 8 t) 4 8)
         (be_bytes 4 ty) (be_bytes 4 a) (be_bytes 4 b) (be_bytes 4 c).

(** ** Merkle trees, generically: [leaf i], [nd z i left right] *)
Section Tree.
Context (leaf : N -> bytes) (nd : N -> N -> bytes -> bytes -> bytes).
Context (leafC : N -> list event) (ndC : N -> N -> bytes -> bytes -> event).

Fixpoint mnode (z : nat) (i : N) : bytes :=
  match z with
  | O => leaf i
  | S z' => nd (N.of_nat z) i (mnode z' (2 * i)) (mnode z' (2 * i + 1))
  end.

Fixpoint mnodeC (z : nat) (i : N) : list event :=
  match z with
  | O => leafC i
  | S z' => mnodeC z' (2 * i) ++ mnodeC z' (2 * i + 1)
            ++ [ndC (N.of_nat z) i (mnode z' (2 * i)) (mnode z' (2 * i + 1))]
  end.

(** one step up from height k *)
Definition up {X} (g : N -> N -> bytes -> bytes -> X) (idx k : N) (x y : bytes) : X :=
  if N.even (idx / 2 ^ k) then g (k + 1) (idx / 2 ^ (k + 1)) x y
  else g (k + 1) (idx / 2 ^ (k + 1)) y x.

Fixpoint climb (auth : N -> bytes) (idx : N) (cnt : nat) (k : N) (x : bytes) : bytes :=
  match cnt with
  | O => x
  | S c => climb auth idx c (k + 1) (up nd idx k x (auth k))
  end.

Fixpoint climbC (auth : N -> bytes) (idx : N) (cnt : nat) (k : N) (x : bytes) : list event :=
  match cnt with
  | O => []
  | S c => up ndC idx k x (auth k) :: climbC auth idx c (k + 1) (up nd idx k x (auth k))
  end.

(** sibling at height k on the path from idx *)
Definition sibling (idx k : N) : bytes := mnode (N.to_nat k) (N.lxor (idx / 2 ^ k) 1).
Definition siblingC (idx k : N) : list event := mnodeC (N.to_nat k) (N.lxor (idx / 2 ^ k) 1).

End Tree.

Section Fun.
Context (p : Params) (hf : HashFns) (ps : bytes).
Let n := cN p.

Definition wA (l t kp i : N) (j : N) : Adrs := adr l t 0 kp i j.

Fixpoint chainF (A : N -> Adrs) (s : N) (cnt : nat) (x : bytes) : bytes :=
  match cnt with
  | O => x
  | S c => chainF A (s + 1) c (F hf ps (flat (A s)) x)
  end.

Fixpoint chainC (A : N -> Adrs) (s : N) (cnt : nat) (x : bytes) : list event :=
  match cnt with
  | O => []
  | S c => EHash KF ps (A s) [x] :: chainC A (s + 1) c (F hf ps (flat (A s)) x)
  end.

(** message and checksum digits *)
Definition csum (m : bytes) : N := fold_left (fun c d => c + (15 - d)) (digits m 4 (2 * n)) 0.
Definition wdigits (m : bytes) : list N :=
  digits m 4 (2 * n) ++ digits (be_bytes 2 (csum m * 16)) 4 3.
Definition wdig (m : bytes) (i : N) : N := nth (N.to_nat i) (wdigits m) 0.

(** verifying side of WOTS+: needs no secret *)
Definition wtips (l t kp : N) (sig : list bytes) (m : bytes) : list bytes :=
  map (fun i => chainF (wA l t kp i) (wdig m i) (N.to_nat (15 - wdig m i)) (nth (N.to_nat i) sig []))
      (nrange (cLEN p)).
Definition wcomp (l t kp : N) (tips : list bytes) : bytes := T_l hf ps (flat (adr l t 1 kp 0 0)) (concat tips).
Definition wcompC (l t kp : N) (tips : list bytes) : event := EHash KTl ps (adr l t 1 kp 0 0) tips.
Definition wpk (l t kp : N) (sig : list bytes) (m : bytes) : bytes := wcomp l t kp (wtips l t kp sig m).
Definition wpkC (l t kp : N) (sig : list bytes) (m : bytes) : list event :=
  flat_map (fun i => chainC (wA l t kp i) (wdig m i) (N.to_nat (15 - wdig m i)) (nth (N.to_nat i) sig []))
           (nrange (cLEN p))
  ++ [wcompC l t kp (wtips l t kp sig m)].

(** XMSS tree nodes *)
Definition xnd (l t z i : N) (x y : bytes) : bytes := H hf ps (flat (adr l t 2 0 z i)) (x ++ y).
Definition xndC (l t z i : N) (x y : bytes) : event := EHash KH ps (adr l t 2 0 z i) [x; y].

Definition xpk (l t idx : N) (sg : XmssSig) (m : bytes) : bytes :=
  climb (xnd l t) (fun k => nth (N.to_nat k) (xmss_auth sg) []) idx (N.to_nat (cHP p)) 0
        (wpk l t idx (sig_wots sg) m).
Definition xpkC (l t idx : N) (sg : XmssSig) (m : bytes) : list event :=
  wpkC l t idx (sig_wots sg) m ++
  climbC (xnd l t) (xndC l t) (fun k => nth (N.to_nat k) (xmss_auth sg) []) idx (N.to_nat (cHP p)) 0
         (wpk l t idx (sig_wots sg) m).

(** hypertree coordinates *)
Definition tree_at (idx_tree : N) (j : nat) : N := idx_tree / 2 ^ (cHP p * N.of_nat j).
Definition leaf_at (idx_tree idx_leaf : N) (j : nat) : N :=
  match j with O => idx_leaf | S j' => tree_at idx_tree j' mod 2 ^ cHP p end.

(** the value the verifier has after layers 0 .. j-1 *)
Fixpoint hval (t0 l0 : N) (sigs : nat -> XmssSig) (m : bytes) (j : nat) : bytes :=
  match j with
  | O => m
  | S j' => xpk (N.of_nat j') (tree_at t0 j') (leaf_at t0 l0 j') (sigs j') (hval t0 l0 sigs m j')
  end.
Definition hvalC (t0 l0 : N) (sigs : nat -> XmssSig) (m : bytes) (j : nat) : list event :=
  xpkC (N.of_nat j) (tree_at t0 j) (leaf_at t0 l0 j) (sigs j) (hval t0 l0 sigs m j).

(** FORS, verifying side *)
Definition fA (t kp z i : N) : Adrs := adr 0 t 3 kp z i.
Definition fnd (t kp z i : N) (x y : bytes) : bytes := H hf ps (flat (fA t kp z i)) (x ++ y).
Definition fndC (t kp z i : N) (x y : bytes) : event := EHash KH ps (fA t kp z i) [x; y].
Definition fidx (md : bytes) (i : N) : N := i * 2 ^ cA p + digit md (cA p) i.
Definition flv (t kp i : N) (sk : bytes) : bytes := F hf ps (flat (fA t kp 0 i)) sk.
Definition flvC (t kp i : N) (sk : bytes) : event := EHash KF ps (fA t kp 0 i) [sk].
Definition froot (t kp g : N) (sk : bytes) (auth : list bytes) : bytes :=
  climb (fnd t kp) (fun k => nth (N.to_nat k) auth []) g (N.to_nat (cA p)) 0 (flv t kp g sk).
Definition frootC (t kp g : N) (sk : bytes) (auth : list bytes) : list event :=
  flvC t kp g sk ::
  climbC (fnd t kp) (fndC t kp) (fun k => nth (N.to_nat k) auth []) g (N.to_nat (cA p)) 0 (flv t kp g sk).
Definition fcomp (t kp : N) (roots : list bytes) : bytes := T_l hf ps (flat (adr 0 t 4 kp 0 0)) (concat roots).
Definition fcompC (t kp : N) (roots : list bytes) : event := EHash KTlen ps (adr 0 t 4 kp 0 0) roots.
Definition froots (t kp : N) (fs : ForsSig) (md : bytes) : list bytes :=
  map (fun i => froot t kp (fidx md i) (nth (N.to_nat i) (private_key_value fs) [])
                  (nth (N.to_nat i) (fors_auth fs) [])) (nrange (cK p)).
Definition fpk (t kp : N) (fs : ForsSig) (md : bytes) : bytes := fcomp t kp (froots t kp fs md).
Definition fpkC (t kp : N) (fs : ForsSig) (md : bytes) : list event :=
  flat_map (fun i => frootC t kp (fidx md i) (nth (N.to_nat i) (private_key_value fs) [])
                       (nth (N.to_nat i) (fors_auth fs) [])) (nrange (cK p))
  ++ [fcompC t kp (froots t kp fs md)].

(** digest *)
Definition dg1 : N := (cK p * cA p + 7) / 8.
Definition dg2 : N := (cH p - cHP p + 7) / 8.
Definition dg3 : N := (cHP p + 7) / 8.
Definition dg_md (digest : bytes) : bytes := sub_bytes digest 0 dg1.
Definition dg_tree (digest : bytes) : N :=
  of_be (sub_bytes digest dg1 (dg1 + dg2)) mod 2 ^ (cH p - cHP p).
Definition dg_leaf (digest : bytes) : N :=
  of_be (sub_bytes digest (dg1 + dg2) (dg1 + dg2 + dg3)) mod 2 ^ cHP p.

(** the whole verification after the message digest *)
Definition vroot (digest : bytes) (sg : SlhDsaSig) : bytes :=
  hval (dg_tree digest) (dg_leaf digest) (fun j => nth j (ht_sig sg) (mkXmssSig [] []))
       (fpk (dg_tree digest) (dg_leaf digest) (fors_sig sg) (dg_md digest)) (N.to_nat (cD p)).
Definition vrootC (digest : bytes) (sg : SlhDsaSig) : list event :=
  fpkC (dg_tree digest) (dg_leaf digest) (fors_sig sg) (dg_md digest) ++
  flat_map (fun j => hvalC (dg_tree digest) (dg_leaf digest)
                       (fun j => nth j (ht_sig sg) (mkXmssSig [] []))
                       (fpk (dg_tree digest) (dg_leaf digest) (fors_sig sg) (dg_md digest)) j)
           (seq 0 (N.to_nat (cD p))).

(** *** secret side *)
Context (ss : bytes).

Definition wsk (l t kp i : N) : bytes := PRF hf ps ss (flat (adr l t 5 kp i 0)).
Definition wskC (l t kp i : N) : event := EHash KPRF ps (adr l t 5 kp i 0) [ss].
(** value at step s of chain i of key pair (l, t, kp) *)
Definition wval (l t kp i s : N) : bytes := chainF (wA l t kp i) 0 (N.to_nat s) (wsk l t kp i).
Definition wvalC (l t kp i s : N) : list event :=
  wskC l t kp i :: chainC (wA l t kp i) 0 (N.to_nat s) (wsk l t kp i).
Definition wends (l t kp : N) : list bytes := map (fun i => wval l t kp i 15) (nrange (cLEN p)).
Definition wleaf (l t kp : N) : bytes := wcomp l t kp (wends l t kp).
Definition wleafC (l t kp : N) : list event :=
  flat_map (fun i => wvalC l t kp i 15) (nrange (cLEN p)) ++ [wcompC l t kp (wends l t kp)].
Definition wsig (l t kp : N) (m : bytes) : list bytes :=
  map (fun i => wval l t kp i (wdig m i)) (nrange (cLEN p)).
Definition wsigC (l t kp : N) (m : bytes) : list event :=
  flat_map (fun i => wvalC l t kp i (wdig m i)) (nrange (cLEN p)).

Definition xnode (l t : N) (z : nat) (i : N) : bytes := mnode (wleaf l t) (xnd l t) z i.
Definition xnodeC (l t : N) (z : nat) (i : N) : list event :=
  mnodeC (wleaf l t) (xnd l t) (wleafC l t) (xndC l t) z i.
Definition xauth (l t idx : N) : list bytes :=
  map (sibling (wleaf l t) (xnd l t) idx) (nrange (cHP p)).
Definition xsig (l t idx : N) (m : bytes) : XmssSig := mkXmssSig (wsig l t idx m) (xauth l t idx).
Definition xsigC (l t idx : N) (m : bytes) : list event :=
  flat_map (siblingC (wleaf l t) (xnd l t) (wleafC l t) (xndC l t) idx) (nrange (cHP p))
  ++ wsigC l t idx m.

(** message signed at layer j, as the signer computes it *)
Fixpoint hmsg (t0 l0 : N) (m : bytes) (j : nat) : bytes :=
  match j with
  | O => m
  | S j' => let x := hmsg t0 l0 m j' in
            xpk (N.of_nat j') (tree_at t0 j') (leaf_at t0 l0 j')
                (xsig (N.of_nat j') (tree_at t0 j') (leaf_at t0 l0 j') x) x
  end.
Definition hsig_at (t0 l0 : N) (m : bytes) (j : nat) : XmssSig :=
  xsig (N.of_nat j) (tree_at t0 j) (leaf_at t0 l0 j) (hmsg t0 l0 m j).
Definition hsig (t0 l0 : N) (m : bytes) : list XmssSig :=
  map (hsig_at t0 l0 m) (seq 0 (N.to_nat (cD p))).
(** calls of the signer at layer j: the XMSS signature, then its root (except at the top) *)
Definition hsigC_at (t0 l0 : N) (m : bytes) (j : nat) : list event :=
  xsigC (N.of_nat j) (tree_at t0 j) (leaf_at t0 l0 j) (hmsg t0 l0 m j).
Definition hrootC_at (t0 l0 : N) (m : bytes) (j : nat) : list event :=
  xpkC (N.of_nat j) (tree_at t0 j) (leaf_at t0 l0 j) (hsig_at t0 l0 m j) (hmsg t0 l0 m j).
Definition hlayerC (t0 l0 : N) (m : bytes) (j : nat) : list event :=
  hsigC_at t0 l0 m j ++ (if (S j <? N.to_nat (cD p))%nat then hrootC_at t0 l0 m j else []).
Definition hsigC (t0 l0 : N) (m : bytes) : list event :=
  flat_map (hlayerC t0 l0 m) (seq 0 (N.to_nat (cD p))).

Definition fsk (t kp i : N) : bytes := PRF hf ps ss (flat (adr 0 t 6 kp 0 i)).
Definition fskC (t kp i : N) : event := EHash KPRF ps (adr 0 t 6 kp 0 i) [ss].
Definition fleaf (t kp i : N) : bytes := flv t kp i (fsk t kp i).
Definition fleafC (t kp i : N) : list event := [fskC t kp i; flvC t kp i (fsk t kp i)].
Definition fnode (t kp : N) (z : nat) (i : N) : bytes := mnode (fleaf t kp) (fnd t kp) z i.
Definition fnodeC (t kp : N) (z : nat) (i : N) : list event :=
  mnodeC (fleaf t kp) (fnd t kp) (fleafC t kp) (fndC t kp) z i.
Definition fauth (t kp g : N) : list bytes := map (sibling (fleaf t kp) (fnd t kp) g) (nrange (cA p)).
Definition fsig (t kp : N) (md : bytes) : ForsSig :=
  mkForsSig (map (fun i => fsk t kp (fidx md i)) (nrange (cK p)))
            (map (fun i => fauth t kp (fidx md i)) (nrange (cK p))).
Definition fsigC (t kp : N) (md : bytes) : list event :=
  flat_map (fun i => fskC t kp (fidx md i) ::
              flat_map (siblingC (fleaf t kp) (fnd t kp) (fleafC t kp) (fndC t kp) (fidx md i))
                       (nrange (cA p)))
           (nrange (cK p)).

(** public root and signature tail for a digest *)
Definition proot : bytes := xnode (cD p - 1) 0 (N.to_nat (cHP p)) 0.
Definition prootC : list event := xnodeC (cD p - 1) 0 (N.to_nat (cHP p)) 0.
Definition fpk_honest (digest : bytes) : bytes :=
  fpk (dg_tree digest) (dg_leaf digest) (fsig (dg_tree digest) (dg_leaf digest) (dg_md digest))
      (dg_md digest).
Definition sig_fors_of (digest : bytes) : ForsSig :=
  fsig (dg_tree digest) (dg_leaf digest) (dg_md digest).
Definition sig_ht_of (digest : bytes) : list XmssSig :=
  hsig (dg_tree digest) (dg_leaf digest) (fpk_honest digest).
Definition sig_tailC (digest : bytes) : list event :=
  fsigC (dg_tree digest) (dg_leaf digest) (dg_md digest) ++
  fpkC (dg_tree digest) (dg_leaf digest) (sig_fors_of digest) (dg_md digest) ++
  hsigC (dg_tree digest) (dg_leaf digest) (fpk_honest digest).

End Fun.
