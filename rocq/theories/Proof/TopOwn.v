(** Private-key values that are cloned, moved, erased and dropped. *)
From Verif Require Import Spec.Fips205 Spec.Fips205Hash.
From Verif Require Import Model.Values Spec.Vocab Spec.VocabMem Spec.VocabOwn Proof.Summary Proof.TopZero.
Import ListNotations.
Open Scope N_scope.

Section Own.
Context (s : set_name) (lay : SkLayout) (HL : disjoint_fields s lay).

Definition parted (v w : N * SlhPrivateKey) : Prop :=
  forall x, in_private_key s lay (fst v) x -> ~ in_private_key s lay (fst w) x.

Lemma parted_sym v w : parted v w -> parted w v.
Proof. intros P x W V. exact (P x V W). Qed.

Fixpoint spread (l : list (N * SlhPrivateKey)) : Prop :=
  match l with [] => True | v :: l => Forall (parted v) l /\ spread l end.

Lemma free_parted live b sk : free s lay live b -> Forall (parted (b, sk)) live.
Proof. intros F. apply Forall_forall. intros [a k] I x W. exact (F a k x I W). Qed.

Lemma spread_remove l1 v l2 : spread (l1 ++ v :: l2) -> spread (l1 ++ l2) /\ Forall (parted v) (l1 ++ l2).
Proof.
  induction l1 as [|w l1 IH]; cbn [app spread].
  - intros [F S]. split; assumption.
  - intros [F S]. destruct (IH S) as [S' F']. apply Forall_app in F. destruct F as [F1 F2].
    inversion F2 as [|? ? Pw F2']. split; [split; [apply Forall_app; split; assumption|exact S']|].
    constructor; [apply parted_sym; exact Pw|exact F'].
Qed.

Lemma spread_same l1 a sk sk' l2 : spread (l1 ++ (a, sk) :: l2) -> spread (l1 ++ (a, sk') :: l2).
Proof.
  induction l1 as [|w l1 IH]; cbn [app spread]; intros [F S].
  - split; [|exact S]. revert F. apply Forall_impl. intros v P. exact P.
  - split; [|exact (IH S)]. apply Forall_app in F. destruct F as [F1 F2]. apply Forall_app. split; [exact F1|].
    inversion F2 as [|? ? Pw F2']. constructor; [exact Pw|exact F2'].
Qed.

(** memory that agrees on the bytes of a value holds it too *)
Lemma stored_same a sk mem mem' : sk_typed s sk -> (forall x, in_private_key s lay a x -> mem' x = mem x) ->
  stored lay a sk mem -> stored lay a sk mem'.
Proof.
  intros (E1 & E2 & E3 & E4) K (S1 & S2 & S3 & S4). unfold stored, found in *.
  refine (conj _ (conj _ (conj _ _))); intros i L;
    (rewrite K; [auto|unfold in_private_key, within; lia]).
Qed.

Lemma read_found m a l mem : nlen l = m -> found mem a l -> read_bytes m a mem = l.
Proof.
  intros L F. subst m. unfold read_bytes. apply nth_ext with (d := x00) (d' := x00).
  - rewrite map_length, seq_length. unfold nlen. lia.
  - intros i Hi. rewrite map_length, seq_length in Hi.
    rewrite nth_indep with (d' := mem (a + N.of_nat 0)) by (rewrite map_length, seq_length; exact Hi).
    rewrite (map_nth (fun i => mem (a + N.of_nat i)) (seq 0 _) 0%nat i), seq_nth by exact Hi.
    rewrite Nat.add_0_l, F by lia. rewrite Nnat.Nat2N.id. reflexivity.
Qed.

Lemma load_stored a sk mem : sk_typed s sk -> stored lay a sk mem -> load_sk (param_set s) lay a mem = sk.
Proof.
  intros (E1 & E2 & E3 & E4) (S1 & S2 & S3 & S4). unfold load_sk. rewrite param_n.
  destruct sk as [k1 k2 k3 k4]. cbn [sk_seed sk_prf sk_pk_seed sk_pk_root] in *.
  rewrite (read_found _ _ k1), (read_found _ _ k2), (read_found _ _ k3), (read_found _ _ k4); auto.
Qed.

Definition good (mem0 mem : memory) (live : list (N * SlhPrivateKey)) (used left : list N) : Prop :=
  spread live /\
  (forall a sk, In (a, sk) live -> sk_typed s sk /\ stored lay a sk mem) /\
  (forall x a, In a used -> in_private_key s lay a x ->
     (exists b sk, In (b, sk) live /\ in_private_key s lay b x) \/
     (exists b, In b left /\ in_private_key s lay b x) \/ mem x = x00) /\
  (forall x, (forall a, In a used -> ~ in_private_key s lay a x) -> mem x = mem0 x) /\
  (forall a sk, In (a, sk) live -> In a used).

Lemma in_dec s' a x : {in_private_key s' lay a x} + {~ in_private_key s' lay a x}.
Proof.
  assert (W : forall b n, {within b n x} + {~ within b n x}).
  { intros b n. unfold within. destruct (b <=? x) eqn:E, (x <? b + n) eqn:F; [left|right|right|right]; lia. }
  unfold in_private_key.
  destruct (W (a + at_sk_seed lay) (seed_bytes s')), (W (a + at_sk_prf lay) (seed_bytes s')),
    (W (a + at_pk_seed lay) (seed_bytes s')), (W (a + at_pk_root lay) (seed_bytes s')); (left; tauto) || (right; tauto).
Qed.

(** a value put at b *)
Lemma good_put mem0 mem live used left b sk : sk_typed s sk -> free s lay live b ->
  good mem0 mem live used left -> good mem0 (place_sk lay b sk mem) ((b, sk) :: live) (b :: used) left.
Proof.
  intros TS F (Sp & St & Z & O & U).
  assert (Out : forall x, ~ in_private_key s lay b x -> place_sk lay b sk mem x = mem x)
    by (intros x W; apply (place_sk_out s); assumption).
  split; [split; [apply free_parted; exact F|exact Sp]|]. split; [|split; [|split]].
  - intros a k [E|I].
    + apply pair_equal_spec in E. destruct E as [<- <-]. split; [exact TS|apply (place_sk_stored s); assumption].
    + destruct (St a k I) as [Tk Sk]. split; [exact Tk|]. apply (stored_same _ _ mem); [exact Tk| |exact Sk].
      intros x W. apply Out. intros V. exact (F a k x I V W).
  - intros x a I W. destruct (in_dec s b x) as [V|V].
    + left. exists b, sk. split; [left; reflexivity|exact V].
    + destruct I as [<-|I]; [contradiction|].
      destruct (Z x a I W) as [(c & k & J & X)|[(c & J & X)|X]].
      * left. exists c, k. split; [right; exact J|exact X].
      * right. left. exists c. split; assumption.
      * right. right. rewrite Out; assumption.
  - intros x K. rewrite Out; [apply O; intros a I; apply K; right; exact I|apply K; left; reflexivity].
  - intros a k [E|I]; [apply pair_equal_spec in E; destruct E as [<- <-]; left; reflexivity|right; exact (U a k I)].
Qed.

(** a value moved away from a *)
Lemma good_leave mem0 mem l1 a sk l2 used left :
  good mem0 mem (l1 ++ (a, sk) :: l2) used left -> good mem0 mem (l1 ++ l2) used (a :: left).
Proof.
  intros (Sp & St & Z & O & U). pose proof (fun v => in_app_or l1 l2 v) as Spl.
  assert (Old : forall v, In v (l1 ++ l2) -> In v (l1 ++ (a, sk) :: l2)).
  { intros v I. apply in_app_or in I. apply in_or_app. destruct I; [left|right; right]; assumption. }
  split; [apply (spread_remove _ _ _ Sp)|]. split; [|split; [|split]].
  - intros b k I. exact (St b k (Old _ I)).
  - intros x b I W. destruct (Z x b I W) as [(c & k & J & X)|[(c & J & X)|X]].
    + apply in_app_or in J. destruct J as [J|[J|J]].
      * left. exists c, k. split; [apply in_or_app; left; exact J|exact X].
      * apply pair_equal_spec in J. destruct J as [<- <-]. right. left. exists a. split; [left; reflexivity|exact X].
      * left. exists c, k. split; [apply in_or_app; right; exact J|exact X].
    + right. left. exists c. split; [right; exact J|exact X].
    + right. right. exact X.
  - exact O.
  - intros b k I. exact (U b k (Old _ I)).
Qed.

Lemma good_history mem0 mem live used left : key_history s lay mem0 mem live used left -> good mem0 mem live used left.
Proof.
  induction 1 as [|mem live used left op live' Hi IH Ow].
  - refine (conj I (conj _ (conj _ (conj _ _)))); [intros ? ? []|intros ? ? []|reflexivity|intros ? ? []].
  - destruct Ow as [a sk live TS F|a b sk live Ia F|a b sk l1 l2 F|a sk l1 l2|a sk l1 l2]; cbn [key_step puts abandons app].
    + apply good_put; assumption.
    + destruct IH as (Sp & St & Z & O & U). destruct (St a sk Ia) as [TS Sa]. unfold clone_PrivateKey.
      rewrite (load_stored a sk mem TS Sa). apply good_put; [exact TS|exact F|].
      exact (conj Sp (conj St (conj Z (conj O U)))).
    + pose proof IH as (Sp & St & Z & O & U). destruct (St a sk (in_elt _ _ _)) as [TS Sa]. unfold move_PrivateKey.
      rewrite (load_stored a sk mem TS Sa). apply good_put; [exact TS| |].
      * intros c k x J. apply (F c k x). apply in_app_or in J. apply in_or_app. destruct J; [left|right; right]; assumption.
      * apply good_leave in IH. exact IH.
    + destruct IH as (Sp & St & Z & O & U). destruct (spread_remove _ _ _ Sp) as [_ Fa]. rewrite Forall_forall in Fa.
      destruct (zeroize_private s lay a mem) as [Zi Zo].
      assert (Ua : In a used) by (apply (U a sk); apply in_elt).
      assert (Old : forall v, In v (l1 ++ l2) -> In v (l1 ++ (a, sk) :: l2)).
      { intros v I. apply in_app_or in I. apply in_or_app. destruct I; [left|right; right]; assumption. }
      assert (New : forall c k k', In (c, k) (l1 ++ (a, k') :: l2) -> (c = a /\ k = k') \/ In (c, k) (l1 ++ l2)).
      { intros c k k' J. apply in_app_or in J. destruct J as [J|[J|J]].
        - right. apply in_or_app. left. exact J.
        - left. apply pair_equal_spec in J. destruct J as [<- <-]. split; reflexivity.
        - right. apply in_or_app. right. exact J. }
      split; [apply (spread_same _ _ _ _ _ Sp)|]. split; [|split; [|split]].
      * intros c k J. destruct (New _ _ _ J) as [[-> ->]|J'].
        { split; [repeat split; apply nlen_nrepeat|]. unfold stored, found. cbn [sk_seed sk_prf sk_pk_seed sk_pk_root].
          rewrite !nlen_nrepeat.
          refine (conj _ (conj _ (conj _ _))); intros i L; (rewrite Zi; [symmetry; apply nth_repeat|unfold in_private_key, within; lia]). }
        destruct (St c k (Old _ J')) as [Tk Sk]. split; [exact Tk|]. apply (stored_same _ _ mem); [exact Tk| |exact Sk].
        intros x W. apply Zo. intros V. exact (Fa _ J' x V W).
      * intros x c J W. destruct (in_dec s a x) as [V|V].
        { left. eexists a, _. split; [apply in_elt|exact V]. }
        destruct (Z x c J W) as [(d & k & K & X)|[(d & K & X)|X]].
        { destruct (New _ _ _ K) as [[-> ->]|K']; [contradiction|]. left. exists d, k. split; [|exact X].
          apply in_app_or in K'. apply in_or_app. destruct K'; [left|right; right]; assumption. }
        { right. left. exists d. split; assumption. }
        right. right. rewrite Zo; assumption.
      * intros x K. rewrite Zo; [exact (O x K)|exact (K a Ua)].
      * intros c k J. destruct (New _ _ _ J) as [[-> ->]|J']; [exact Ua|exact (U c k (Old _ J'))].
    + destruct IH as (Sp & St & Z & O & U). destruct (spread_remove _ _ _ Sp) as [Sp' Fa]. rewrite Forall_forall in Fa.
      destruct (prop_private_key_erased_on_drop s lay a mem) as [Zi Zo].
      assert (Old : forall v, In v (l1 ++ l2) -> In v (l1 ++ (a, sk) :: l2)).
      { intros v I. apply in_app_or in I. apply in_or_app. destruct I; [left|right; right]; assumption. }
      split; [exact Sp'|]. split; [|split; [|split]].
      * intros c k J. destruct (St c k (Old _ J)) as [Tk Sk]. split; [exact Tk|]. apply (stored_same _ _ mem); [exact Tk| |exact Sk].
        intros x W. apply Zo. intros V. exact (Fa _ J x V W).
      * intros x c J W. destruct (in_dec s a x) as [V|V]; [right; right; exact (Zi x V)|].
        destruct (Z x c J W) as [(d & k & K & X)|[(d & K & X)|X]].
        { left. exists d, k. split; [|exact X]. apply in_app_or in K. apply in_or_app.
          destruct K as [K|[K|K]]; [left; exact K| |right; exact K].
          apply pair_equal_spec in K. destruct K as [<- _]. contradiction. }
        { right. left. exists d. split; assumption. }
        right. right. rewrite Zo; assumption.
      * intros x K. rewrite Zo; [exact (O x K)|]. apply K. exact (U a sk (in_elt _ _ _)).
      * intros c k J. exact (U c k (Old _ J)).
Qed.
End Own.

Lemma prop_key_values_independent :
  forall (s : set_name) (lay : SkLayout) (mem0 mem : memory) (live : list (N * SlhPrivateKey)) (used left : list N),
    disjoint_fields s lay -> key_history s lay mem0 mem live used left ->
    (forall a sk, In (a, sk) live -> stored lay a sk mem /\ load_sk (param_set s) lay a mem = sk) /\
    (forall a x, In a used -> in_private_key s lay a x ->
       (forall b sk, In (b, sk) live -> ~ in_private_key s lay b x) ->
       (forall b, In b left -> ~ in_private_key s lay b x) -> mem x = x00) /\
    (forall x, (forall a, In a used -> ~ in_private_key s lay a x) -> mem x = mem0 x).
Proof.
  intros s lay mem0 mem live used left HL Hi. destruct (good_history s lay HL _ _ _ _ _ Hi) as (_ & St & Z & O & _).
  split; [|split].
  - intros a sk I. destruct (St a sk I) as [TS Sa]. split; [exact Sa|]. exact (load_stored s lay a sk mem TS Sa).
  - intros a x I W Nl Nf. destruct (Z x a I W) as [(b & k & J & X)|[(b & J & X)|X]]; [|
      |exact X]; exfalso; [exact (Nl b k J X)|exact (Nf b J X)].
  - exact O.
Qed.

Lemma prop_moved_keys_leave_copies :
  forall (s : set_name) (lay : SkLayout) (mem0 mem : memory) (live : list (N * SlhPrivateKey)) (used left : list N)
         (a b : N) (sk : SlhPrivateKey),
    disjoint_fields s lay -> key_history s lay mem0 mem ((a, sk) :: live) used left ->
    free s lay ((a, sk) :: live) b ->
    let mem' := key_step (param_set s) lay (KDrop b) (key_step (param_set s) lay (KMove a b) mem) in
    key_history s lay mem0 mem' live (b :: used) (a :: left) /\ stored lay a sk mem'.
Proof.
  intros s lay mem0 mem live used left a b sk HL Hi F. cbv zeta.
  destruct (good_history s lay HL _ _ _ _ _ Hi) as (_ & St & _). destruct (St a sk (or_introl eq_refl)) as [TS Sa].
  pose proof (keys_next s lay mem0 _ _ _ _ _ _ Hi (own_move s lay a b sk [] live F)) as H1. cbn [app puts abandons] in H1.
  pose proof (keys_next s lay mem0 _ _ _ _ _ _ H1 (own_drop s lay b sk [] live)) as H2. cbn [app puts abandons] in H2.
  split; [exact H2|].
  apply (stored_same s lay a sk mem); [exact TS| |exact Sa].
  intros x W. assert (V : ~ in_private_key s lay b x) by (intros V; exact (F a sk x (or_introl eq_refl) V W)).
  cbn [key_step]. rewrite (proj2 (prop_private_key_erased_on_drop s lay b _) x V).
  unfold move_PrivateKey. rewrite (load_stored s lay a sk mem TS Sa). apply (place_sk_out s); assumption.
Qed.

(** one such program *)
Lemma values_toy sk : sk_typed SHA2_128s sk ->
  let s := SHA2_128s in let lay := mkSkLayout 0 16 32 48 in
  let mem0 : memory := fun _ => n2b 7 in
  disjoint_fields s lay /\
  exists mem, key_history s lay mem0 mem [(300, sk)] [300; 200; 100] [100] /\
    load_sk (param_set s) lay 300 mem = sk /\ mem 215 = x00 /\ mem 264 = n2b 7.
Proof.
  intros TS. cbv zeta. assert (D : disjoint_fields SHA2_128s (mkSkLayout 0 16 32 48)).
  { unfold disjoint_fields, apart. change (seed_bytes SHA2_128s) with 16. cbn [at_sk_seed at_sk_prf at_pk_seed at_pk_root]. lia. }
  assert (F : forall a b sk, a + 64 <= b \/ b + 64 <= a -> free SHA2_128s (mkSkLayout 0 16 32 48) [(a, sk)] b).
  { intros a b k0 L c k x [E|[]]. apply pair_equal_spec in E. destruct E as [<- _].
    unfold in_private_key, within. change (seed_bytes SHA2_128s) with 16. cbn [at_sk_seed at_sk_prf at_pk_seed at_pk_root]. lia. }
  split; [exact D|]. set (s := SHA2_128s). set (lay := mkSkLayout 0 16 32 48).
  pose proof (keys_start s lay (fun _ => n2b 7)) as H0.
  pose proof (keys_next s lay _ _ _ _ _ _ _ H0 (own_create s lay 100 sk [] TS (fun _ _ _ I => match I with end))) as H1.
  pose proof (keys_next s lay _ _ _ _ _ _ _ H1 (own_clone s lay 100 200 sk [(100, sk)] (or_introl eq_refl) (F 100 200 sk ltac:(lia)))) as H2.
  assert (F2 : free s lay ([(200, sk)] ++ (100, sk) :: []) 300).
  { intros c k x [E|[E|[]]]; apply pair_equal_spec in E; destruct E as [<- <-].
    - apply (F 200 300 sk ltac:(lia) 200 sk x). left. reflexivity.
    - apply (F 100 300 sk ltac:(lia) 100 sk x). left. reflexivity. }
  pose proof (keys_next s lay _ _ _ _ _ _ _ H2 (own_move s lay 100 300 sk [(200, sk)] [] F2)) as H3.
  pose proof (keys_next s lay _ _ _ _ _ _ _ H3 (own_zeroize s lay 200 sk [(300, sk)] [])) as H4.
  pose proof (keys_next s lay _ _ _ _ _ _ _ H4 (own_drop s lay 200 _ [(300, sk)] [])) as H5. clear H0 H1 H2 H3 H4.
  cbn [app puts abandons] in H5. eexists. split; [exact H5|].
  destruct (prop_key_values_independent s lay _ _ _ _ _ D H5) as (L & Z & O).
  split; [exact (proj2 (L 300 sk (or_introl eq_refl)))|].
  unfold s, lay, in_private_key, within in Z, O. change (seed_bytes SHA2_128s) with 16 in Z, O.
  cbn [at_sk_seed at_sk_prf at_pk_seed at_pk_root] in Z, O. split.
  - apply (Z 200 215 (or_intror (or_introl eq_refl))); [lia| |].
    + intros b k [E|[]]. apply pair_equal_spec in E. destruct E as [<- _]. lia.
    + intros b [<-|[]]. lia.
  - rewrite O; [reflexivity|]. intros a [<-|[<-|[<-|[]]]]; lia.
Qed.
