(** Accepted and rejected private-key strings exist, for the Examples about key import. *)
From Coq Require Import String.
From Verif Require Import Spec.Fips205 Spec.Fips205Hash.
From Verif Require Import Model.Api Proof.Facts Proof.HashP Proof.Fun Proof.SlhP Proof.SerP Proof.ApiP
  Spec.Vocab Proof.Summary Proof.TopCorrect Proof.TopSafety Proof.TopKeys Proof.Toy.
Import ListNotations.
Open Scope list_scope.
Open Scope N_scope.

Lemma toy_import (T : Target) (P : Prims) s :
  (exists bs sk, nlen bs = sk_size s /\ result (sk_try_from_bytes (param_set s) bs) = Val sk) /\
  (exists bs, nlen bs = sk_size s /\
     result (sk_try_from_bytes (param_set s) bs) = Err "Corrupted key"%string).
Proof.
  split.
  - destruct (proj1 (prop_private_key_round_trip T P s) _ _ (toy_key_pair T P s)) as [bs [_ [L E]]].
    exists bs, (snd (toy_key s)). split; [exact L|exact E].
  - pose proof (toy_sk_typed P s) as W. pose proof (param_PF s) as HP.
    destruct (key_pair_facts s _ _ (toy_key_pair T P s)) as [_ [C _]].
    set (k := snd (toy_key s)) in *. clearbody k.
    pose proof (PF_n_range _ HP) as Hn. rewrite param_n in Hn.
    assert (D : exists x, nlen x = seed_bytes s /\ x <> sk_pk_root k).
    { destruct (list_eq_dec Byte.byte_eq_dec (sk_pk_root k) (nrepeat (n2b 0) (seed_bytes s))) as [E|E].
      - exists (nrepeat (n2b 1) (seed_bytes s)). split; [apply nlen_nrepeat|]. rewrite E.
        unfold nrepeat. destruct (N.to_nat (seed_bytes s)) eqn:Z; [lia|]. discriminate.
      - exists (nrepeat (n2b 0) (seed_bytes s)). split; [apply nlen_nrepeat|congruence]. }
    destruct D as [x [Lx Nx]].
    set (k2 := mkSk (sk_seed k) (sk_prf k) (sk_pk_seed k) x).
    assert (W2 : wf_sk (param_set s) k2).
    { apply typed_sk. destruct W as [W1 [W2 [W3 W4]]]. repeat split; assumption. }
    exists (sk_bytes k2). pose proof (nlen_sk_bytes _ HP _ W2) as L.
    split; [rewrite <- param_sk; exact L|].
    destruct (import_total _ HP _ L) as [[V C2]|[V C2]]; [|exact V].
    exfalso. rewrite (sk_of_bytes_bytes _ _ W2) in C2. apply Nx.
    unfold consistent in C, C2. cbn [k2 sk_pk_root sk_seed sk_pk_seed] in C2. congruence.
Qed.

Lemma toy_prf_import (T : Target) (P : Prims) s :
  exists pre prf1 prf2 post sk1, prf1 <> prf2 /\
    nlen pre = seed_bytes s /\ nlen prf1 = seed_bytes s /\ nlen prf2 = seed_bytes s /\
    nlen post = 2 * seed_bytes s /\
    result (sk_try_from_bytes (param_set s) (pre ++ prf1 ++ post)) = Val sk1.
Proof.
  pose proof (toy_sk_typed P s) as W. pose proof (param_PF s) as HP.
  destruct (proj1 (prop_private_key_round_trip T P s) _ _ (toy_key_pair T P s)) as [bs [E0 [L E]]].
  rewrite (proj1 (runs_sk_into_bytes _ HP _ (typed_sk _ _ W))) in E0.
  assert (E1 : sk_bytes (snd (toy_key s)) = bs) by congruence. clear E0. subst bs.
  assert (Ep : sk_prf (snd (toy_key s)) = nrepeat (n2b 1) (seed_bytes s)).
  { rewrite <- param_n. reflexivity. }
  set (k := snd (toy_key s)) in *. clearbody k.
  pose proof (PF_n_range _ HP) as Hn. rewrite param_n in Hn.
  destruct W as [W1 [W2 [W3 W4]]].
  exists (sk_seed k), (sk_prf k), (nrepeat (n2b 0) (seed_bytes s)), (sk_pk_seed k ++ sk_pk_root k), k.
  split. { rewrite Ep. unfold nrepeat. destruct (N.to_nat (seed_bytes s)) eqn:Z; [lia|]. discriminate. }
  split; [exact W1|]. split; [exact W2|]. split; [apply nlen_nrepeat|].
  split; [rewrite nlen_app; lia|]. exact E.
Qed.
