(** C85: how deep the recursion nests. *)
From Verif Require Import Spec.Fips205 Spec.Fips205Hash.
From Verif Require Import Model.Api Proof.Facts Proof.HashP Proof.Fun Proof.WotsP Proof.XmssP Proof.ForsP Proof.SlhP Proof.SerP Proof.ApiP
  Proof.SpecFun Proof.SpecP Proof.HelpersP Spec.Vocab Proof.Summary Proof.TopCorrect Proof.TopSafety Proof.TopSer.
Import ListNotations.
Open Scope list_scope.
Open Scope N_scope.

Lemma panic_bind {A B} (m : M A) (k : A -> M B) q : result m = Panic q -> result (bind m k) = Panic q.
Proof. destruct m as [t o]. cbn. intros ->. reflexivity. Qed.
Lemma panic_branch {B} b (k : bool -> M B) o : result (k b) = o -> result (bind (branch b) k) = o.
Proof. intros E. unfold branch. cbn. destruct (k b) as [t o']. cbn in *. exact E. Qed.

Lemma xmss_node_deep {T : Target} p hs ss ps : forall fuel i z a, N.of_nat fuel <= z -> (i + 1) * 2 ^ z <= 2147483648 ->
  result (xmss_node_fuel p hs fuel ss i z ps a) = Panic PFuel.
Proof.
  induction fuel as [|fuel IH]; intros i z a Hz Hi; [reflexivity|]. cbn [xmss_node_fuel].
  assert (Ez : z = N.succ (z - 1)) by lia. rewrite Ez, N.pow_succ_r' in Hi.
  assert (P2 : 1 <= 2 ^ (z - 1)) by (pose proof (pow2_nz (z - 1)); lia).
  apply panic_branch. replace (z =? 0) with false by (symmetry; apply N.eqb_neq; lia). cbv iota.
  rewrite mul_u32 by nia. rewrite bind_ret_l. rewrite sub_ok by lia. rewrite bind_ret_l.
  apply panic_bind. apply IH; [lia|nia].
Qed.
Lemma fors_node_deep {T : Target} hs ss ps : forall fuel i z a, N.of_nat fuel <= z -> (i + 1) * 2 ^ z <= 2147483648 ->
  result (fors_node_fuel hs fuel ss i z ps a) = Panic PFuel.
Proof.
  induction fuel as [|fuel IH]; intros i z a Hz Hi; [reflexivity|]. cbn [fors_node_fuel].
  assert (Ez : z = N.succ (z - 1)) by lia. rewrite Ez, N.pow_succ_r' in Hi.
  assert (P2 : 1 <= 2 ^ (z - 1)) by (pose proof (pow2_nz (z - 1)); lia).
  apply panic_branch. replace (z =? 0) with false by (symmetry; apply N.eqb_neq; lia). cbv iota.
  rewrite mul_u32 by nia. rewrite bind_ret_l. rewrite sub_ok by lia. rewrite bind_ret_l.
  apply panic_bind. apply IH; [lia|nia].
Qed.

Lemma bind_ext {A B} (m : M A) (k1 k2 : A -> M B) : (forall a, k1 a = k2 a) -> bind m k1 = bind m k2.
Proof. intros E. destruct m as [t [a|e|q]]; cbn; [rewrite E|..]; reflexivity. Qed.

Lemma xmss_node_enough {T : Target} p hs ss ps : forall f1 f2 i z a, z < N.of_nat f1 -> z < N.of_nat f2 ->
  xmss_node_fuel p hs f1 ss i z ps a = xmss_node_fuel p hs f2 ss i z ps a.
Proof.
  induction f1 as [|f1 IH]; intros f2 i z a H1 H2; [lia|]. destruct f2 as [|f2]; [lia|]. cbn [xmss_node_fuel].
  destruct (z =? 0) eqn:Ez; [reflexivity|]. apply N.eqb_neq in Ez.
  apply bind_ext. intros [|]; [reflexivity|].
  rewrite sub_ok by lia. apply bind_ext; intros i2. rewrite !bind_ret_l.
  rewrite (IH f2) by lia. apply bind_ext; intros l. apply bind_ext; intros i3. apply bind_ext; intros i4.
  rewrite !bind_ret_l. rewrite (IH f2) by lia. reflexivity.
Qed.
Lemma fors_node_enough {T : Target} hs ss ps : forall f1 f2 i z a, z < N.of_nat f1 -> z < N.of_nat f2 ->
  fors_node_fuel hs f1 ss i z ps a = fors_node_fuel hs f2 ss i z ps a.
Proof.
  induction f1 as [|f1 IH]; intros f2 i z a H1 H2; [lia|]. destruct f2 as [|f2]; [lia|]. cbn [fors_node_fuel].
  destruct (z =? 0) eqn:Ez; [reflexivity|]. apply N.eqb_neq in Ez.
  apply bind_ext. intros [|]; [reflexivity|].
  rewrite sub_ok by lia. apply bind_ext; intros i2. rewrite !bind_ret_l.
  rewrite (IH f2) by lia. apply bind_ext; intros l. apply bind_ext; intros i3. apply bind_ext; intros i4.
  rewrite !bind_ret_l. rewrite (IH f2) by lia. reflexivity.
Qed.

Lemma prop_recursion_is_shallow :
  forall (P : Prims) (s : set_name),
    let t := table2 s in
    let p := param_set s in
    (** a stack that holds 14 activations is enough for every call *)
    (forall (T : Target) (r : Rng) (g : rng_st r), never_panics r ->
       no_panic (call (try_keygen_with_rng p r) g) /\
       (forall skb, nlen skb = sk_size s -> no_panic (result (sk_try_from_bytes p skb))) /\
       (forall sk m ctx ph hedged, sk_typed s sk ->
          no_panic (call (try_sign_with_rng p r sk m ctx hedged) g) /\
          no_panic (call (try_hash_sign_with_rng p r sk m ctx (ph_arg ph) hedged) g) /\
          no_panic (call (raw_sign p r sk m hedged) g))) /\
    (** the node of height z of a tree takes z + 1 activations at a time, not more and not fewer *)
    (forall (T : Target) skseed pkseed a i z held, z <= t_h' t -> (i + 1) * 2 ^ z <= 2 ^ t_h' t ->
       let node := xmss_node_fuel p (HASHERS p) in
       (z + 1 <= N.of_nat held -> node held skseed i z pkseed a = xmss_node p (HASHERS p) skseed i z pkseed a) /\
       (N.of_nat held < z + 1 -> result (node held skseed i z pkseed a) = Panic PFuel)) /\
    (forall (T : Target) skseed pkseed a i z held, z < t_a t -> (i + 1) * 2 ^ z <= t_k t * 2 ^ t_a t ->
       let node := fors_node_fuel (HASHERS p) in
       (z + 1 <= N.of_nat held -> node held skseed i z pkseed a = fors_node (HASHERS p) skseed i z pkseed a) /\
       (N.of_nat held < z + 1 -> result (node held skseed i z pkseed a) = Panic PFuel)) /\
    (** and the trees are low *)
    t_h' t + 1 <= 10 /\ t_a t <= 14.
Proof.
  intros P s t p.
  assert (Hn : t_h' t + 1 <= 10 /\ t_a t <= 14 /\ t_k t <= 35) by (unfold t; destruct s; repeat split; discriminate).
  destruct Hn as (H1 & H2 & H3).
  split; [|split; [|split; [|split; assumption]]].
  - intros T r g Hr. destruct (prop_keygen_sign_import_never_panic T P s r g Hr) as (A & B & _ & _ & C).
    split; [exact A|]. split; [exact B|]. intros sk m ctx ph hedged W. destruct (C sk W) as [_ D]. exact (D m ctx ph hedged).
  - intros T ss ps a i z held Hz Hi node. split; intros Hh.
    + unfold xmss_node, node. apply xmss_node_enough; [lia|]. pose proof nesting_limit_min. lia.
    + apply xmss_node_deep; [lia|]. apply (N.le_trans _ _ _ Hi).
      apply (N.le_trans _ (2 ^ 9)); [apply N.pow_le_mono_r; [discriminate|lia]|discriminate].
  - intros T ss ps a i z held Hz Hi node. split; intros Hh.
    + unfold fors_node, node. apply fors_node_enough; [lia|]. pose proof nesting_limit_min. lia.
    + apply fors_node_deep; [lia|]. apply (N.le_trans _ _ _ Hi).
      apply (N.le_trans _ (35 * 2 ^ 14)); [|discriminate]. apply N.mul_le_mono; [exact H3|apply N.pow_le_mono_r; [discriminate|exact H2]].
Qed.
