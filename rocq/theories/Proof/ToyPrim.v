(** With hash functions that ignore their input, verification runs that contain a second preimage. Used only
    by an Example. *)
From Verif Require Import Spec.Fips205 Spec.Fips205Hash.
From Verif Require Import Model.Api Proof.Facts Proof.HelpersP Proof.HashP Proof.Fun Proof.WotsP Proof.SlhP Proof.SerP Proof.ApiP
  Spec.Vocab Proof.Summary Spec.VocabForge Spec.VocabBind Spec.VocabPublic Proof.TopPair Proof.Toy Proof.ToyForge.
Import ListNotations.
Open Scope list_scope.
Open Scope N_scope.

Definition odd_sig (b : N) : bytes := nrepeat (n2b 1) 16 ++ [n2b b] ++ nrepeat (n2b 0) 17071.
Definition weak_pk : SlhPublicKey := fst (toy_key (P := weak_prims) SHA2_128f).
Definition odd_run (b : N) : list event :=
  trace (raw_verify (T := debug64) (P := weak_prims) (param_set SHA2_128f) weak_pk [n2b 9] (odd_sig b)).

Lemma odd_len b : nlen (odd_sig b) = sig_size SHA2_128f.
Proof. unfold odd_sig. rewrite !nlen_app, !nlen_nrepeat. reflexivity. Qed.

Lemma odd_accepted b : accepting_run (T := debug64) (P := weak_prims) SHA2_128f weak_pk [n2b 9] (odd_sig b) (odd_run b).
Proof.
  unfold odd_run. exact (accepts_raw (T := debug64) (P := weak_prims) SHA2_128f weak_pk [n2b 9] (odd_sig b) (odd_len b)
    (weak_accepts debug64 [n2b 9] (odd_sig b) (odd_len b))).
Qed.

Lemma odd_no_7 : ~ In (n2b 7) (odd_sig 2).
Proof.
  unfold odd_sig. rewrite !in_app_iff. unfold nrepeat. intros [E|[[E|[]]|E]]; try apply repeat_spec in E; discriminate E.
Qed.

Lemma In_sub_bytes {A} (x : A) l i j : In x (sub_bytes l i j) -> In x l.
Proof.
  unfold sub_bytes. intros I. rewrite <- (firstn_skipn (N.to_nat i) l). apply in_or_app. right.
  set (k := skipn _ l) in *. clearbody k. rewrite <- (firstn_skipn (N.to_nat (j - i)) k). apply in_or_app. left. exact I.
Qed.

Lemma weak_chainF q A i k x : chainF (hf_of (PR := weak_prims) (param_set SHA2_128f)) q A i (S k) x = nrepeat (n2b 7) 16.
Proof.
  revert i x. induction k as [|k IH]; intros i x; [reflexivity|].
  change (chainF (hf_of (PR := weak_prims) (param_set SHA2_128f)) q A i (S (S k)) x)
    with (chainF (hf_of (PR := weak_prims) (param_set SHA2_128f)) q A (i + 1) (S k)
            (F (hf_of (PR := weak_prims) (param_set SHA2_128f)) q (flat (A i)) x)).
  apply IH.
Qed.

Lemma odd_second_preimage : second_preimage (T := debug64) (P := weak_prims) SHA2_128f (odd_run 1) (odd_run 2).
Proof.
  destruct (prop_accepted_signatures_agree debug64 weak_prims SHA2_128f weak_pk [n2b 9] [n2b 9] (odd_sig 1) (odd_sig 2) _ _
              (odd_accepted 1) (odd_accepted 2)) as [_ K].
  assert (B : block SHA2_128f (odd_sig 1) 0 = block SHA2_128f (odd_sig 2) 0)
    by (unfold block, odd_sig; rewrite !sub_bytes_app_l by (rewrite nlen_nrepeat; reflexivity); reflexivity).
  destruct (K eq_refl B) as [E|[E|E]]; [|exact E|].
  - exfalso. apply app_inv_head in E. apply (f_equal (fun l => hd (n2b 0) l)) in E. discriminate.
  - exfalso. destruct E as (l & i & b & c & _ & _ & Hc & Hb & E).
    destruct (sig_position _ _ _ _ _) as [t kp]. cbv zeta in E. destruct E as [_ E].
    assert (EA : chain_address l t kp i = adr l t 0 kp i 0).
    { unfold chain_address. rewrite adr_default, adr_layer, adr_tree, adr_type, adr_kp, adr_chain. reflexivity. }
    rewrite EA in E.
    destruct (runs_chain (T := debug64) (HASHERS (T := debug64) (P := weak_prims) (param_set SHA2_128f))
                (hf_of (PR := weak_prims) (param_set SHA2_128f)) (HASHERS_spec (T := debug64) (PR := weak_prims) _ (param_PF SHA2_128f))
                (pk_seed weak_pk) (block SHA2_128f (odd_sig 1) (chain_block SHA2_128f l i)) b c l t kp i 0 Hb) as [V _].
    rewrite V in E.
    destruct (N.to_nat c) as [|c'] eqn:Ec; [lia|]. rewrite weak_chainF in E.
    apply odd_no_7. apply (In_sub_bytes _ _ (chain_block SHA2_128f l i * seed_bytes SHA2_128f)
                             ((chain_block SHA2_128f l i + 1) * seed_bytes SHA2_128f)).
    assert (E' : nrepeat (n2b 7) 16 = block SHA2_128f (odd_sig 2) (chain_block SHA2_128f l i)).
    { set (X := block _ _ _) in E |- *. clearbody X. injection E. exact (fun z => z). }
    change (sub_bytes (odd_sig 2) _ _) with (block SHA2_128f (odd_sig 2) (chain_block SHA2_128f l i)).
    rewrite <- E'. left. reflexivity.
Qed.
