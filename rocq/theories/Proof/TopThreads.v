(** C programs with several threads. *)
From Coq Require Import String Permutation.
From Verif Require Import Spec.Fips205 Spec.Fips205Hash.
From Verif Require Import Model.Api Model.Ffi Model.FfiMem Proof.Facts Spec.Vocab Spec.VocabFfi Spec.VocabC Spec.VocabConc Spec.VocabThreads
  Proof.Summary Proof.TopFfi Proof.TopC.
Import ListNotations.
Open Scope list_scope.
Open Scope N_scope.

(** ** more answers than needed *)
Definition extends {A} (f : RM replay A) : Prop :=
  forall l l1 t o, f l = (l1, (t, o)) -> (forall q, o <> Panic q) -> forall rest, f (l ++ rest) = (l1 ++ rest, (t, o)).

Lemma extends_lift {A} (m : M A) : extends (rlift m).
Proof. intros l l1 t o E _ rest. unfold rlift in *. apply pair_equal_spec in E. destruct E as [-> ->]. reflexivity. Qed.

Lemma extends_bind {A B} (f : RM replay A) (k : A -> RM replay B) :
  extends f -> (forall a, extends (k a)) -> extends (rbind f k).
Proof.
  intros F K l l1 t o E N rest. unfold rbind in *. destruct (f l) as [l2 [t2 [a|e|q]]] eqn:Ef.
  - rewrite (F _ _ _ _ Ef ltac:(discriminate)). destruct (k a l2) as [l3 [t3 o3]] eqn:Ek.
    apply pair_equal_spec in E. destruct E as [<- E]. apply pair_equal_spec in E. destruct E as [<- <-]. rewrite (K a _ _ _ _ Ek N). reflexivity.
  - rewrite (F _ _ _ _ Ef ltac:(discriminate)).
    apply pair_equal_spec in E. destruct E as [<- E]. apply pair_equal_spec in E. destruct E as [<- <-]. reflexivity.
  - exfalso. apply pair_equal_spec in E. destruct E as [_ E]. apply pair_equal_spec in E. destruct E as [_ E].
    exact (N q (eq_sym E)).
Qed.

Lemma extends_if {A} (b : bool) (f g : RM replay A) : extends f -> extends g -> extends (if b then f else g).
Proof. intros F G. destruct b; assumption. Qed.

Lemma extends_fill n msg : extends (fill_or n msg).
Proof.
  intros l l1 t o E N rest. unfold fill_or in *. cbn [try_fill replay] in *.
  destruct l as [|[k [b|e|q]] l]; cbn [replay_fill app] in *.
  2: destruct ((k =? n) && (nlen b =? n)).
  4: destruct (k =? n).
  all: apply pair_equal_spec in E; destruct E as [<- E]; apply pair_equal_spec in E; destruct E as [<- <-].
  all: first [reflexivity|exfalso; exact (N _ eq_refl)].
Qed.

Section Calls.
Context {T : Target} {P : Prims}.

Lemma extends_keygen p : extends (try_keygen_with_rng p replay).
Proof.
  unfold try_keygen_with_rng, slh_keygen_with_rng.
  apply extends_bind; [|intros [? ?]; apply extends_lift].
  apply extends_bind; [apply extends_fill|intros ?]. apply extends_bind; [apply extends_fill|intros ?].
  apply extends_bind; [apply extends_fill|intros ?]. apply extends_lift.
Qed.

Lemma extends_sign p sk m ctx b : extends (try_sign_with_rng p replay sk m ctx b).
Proof.
  unfold try_sign_with_rng, slh_sign_with_rng.
  apply extends_bind; [apply extends_lift|]. intros c. apply extends_if; [apply extends_lift|].
  unfold map_serialize. apply extends_bind; [|intros ?; apply extends_lift].
  apply extends_bind; [apply extends_lift|]. intros c2. apply extends_bind; [|intros ?; apply extends_lift].
  apply extends_if; [apply extends_fill|apply extends_lift].
Qed.

(** ** an operation depends only on the bytes it reads and the answers it gets *)
Lemma legal_top M M' op : mem_top M' = mem_top M -> legal M op -> legal M' op.
Proof.
  intros E L. destruct op; unfold legal, null_or_struct, readable in *; rewrite E; exact L.
Qed.

Lemma store_same M1 M2 a bs x : a <= x < a + nlen bs \/ mem_at M1 x = mem_at M2 x ->
  mem_at (store M1 a bs) x = mem_at (store M2 a bs) x.
Proof.
  intros D. cbn [store mem_at]. destruct (N.leb_spec a x) as [L1|L1]; cbn [andb]; [|destruct D as [D|D]; [lia|exact D]].
  destruct (N.ltb_spec x (a + nlen bs)) as [L2|L2]; [reflexivity|]. destruct D as [D|D]; [lia|exact D].
Qed.

Lemma fret_inv {O} (g g' : rng_st replay) c (o : O) c' o' :
  (g, FReturn c o) = (g', FReturn c' o') -> g' = g /\ c' = c /\ o' = o.
Proof. intros E. apply pair_equal_spec in E. destruct E as [<- E]. apply ret_inv in E. destruct E as [-> ->]. auto. Qed.

Lemma keygen_local l rest a b a' b' l1 code outs :
  (a = None <-> a' = None) -> (b = None <-> b' = None) ->
  ffi_keygen replay l a b = (l1, FReturn code outs) ->
  exists outs', ffi_keygen replay (l ++ rest) a' b' = (l1 ++ rest, FReturn code outs') /\ (code = 0 -> outs' = outs).
Proof.
  intros Ea Eb E. unfold ffi_keygen in *.
  destruct a as [av|], a' as [av'|]; try (exfalso; destruct Ea as [E1 E2]; first [discriminate (E1 eq_refl)|discriminate (E2 eq_refl)]).
  2: { destruct (fret_inv _ _ _ _ _ _ E) as (-> & -> & ->). eexists. split; [reflexivity|]. discriminate. }
  destruct b as [bv|], b' as [bv'|]; try (exfalso; destruct Eb as [E1 E2]; first [discriminate (E1 eq_refl)|discriminate (E2 eq_refl)]).
  2: { destruct (fret_inv _ _ _ _ _ _ E) as (-> & -> & ->). eexists. split; [reflexivity|]. discriminate. }
  unfold try_keygen in *.
  destruct (try_keygen_with_rng slh_dsa_sha2_128f replay l) as [l2 [t o]] eqn:K.
  assert (Np : forall q, o <> Panic q).
  { intros q ->. cbn [result snd] in E. apply pair_equal_spec in E. destruct E as [_ E]. discriminate E. }
  rewrite (extends_keygen _ _ _ _ _ K Np rest). cbn [result snd] in *.
  destruct o as [[pk sk]|e|q]; [| |destruct (Np q eq_refl)].
  - destruct (result (pk_into_bytes slh_dsa_sha2_128f pk)) as [pb|?|?]; [destruct (result (sk_into_bytes slh_dsa_sha2_128f sk)) as [sb|?|?]|..].
    1: destruct (fret_inv _ _ _ _ _ _ E) as (-> & -> & ->); eexists; split; reflexivity.
    all: apply pair_equal_spec in E; destruct E as [_ E]; discriminate E.
  - destruct (fret_inv _ _ _ _ _ _ E) as (-> & -> & ->). eexists. split; [reflexivity|discriminate].
Qed.

Lemma sign_local l rest buf buf' len m skb o o' l1 code out :
  c_message buf len m -> c_message buf' len m ->
  ffi_sign replay l (Some buf) len (Some skb) (Some o) = (l1, FReturn code out) ->
  exists out', ffi_sign replay (l ++ rest) (Some buf') len (Some skb) (Some o') = (l1 ++ rest, FReturn code out') /\
    (code = 0 -> out' = out).
Proof.
  intros C C' E. unfold ffi_sign in *. rewrite (designated _ _ _ C) in E. rewrite (designated _ _ _ C').
  destruct (result (sk_try_from_bytes slh_dsa_sha2_128f skb)) as [sk|e|q].
  - unfold try_sign in *.
    destruct (try_sign_with_rng slh_dsa_sha2_128f replay sk m [] true l) as [l2 [t r]] eqn:K.
    assert (Np : forall q, r <> Panic q).
    { intros q ->. cbn [result snd] in E. apply pair_equal_spec in E. destruct E as [_ E]. discriminate E. }
    rewrite (extends_sign _ _ _ _ _ _ _ _ _ K Np rest). cbn [result snd] in *.
    destruct r as [sig|e|q]; [| |destruct (Np q eq_refl)].
    + destruct (fret_inv _ _ _ _ _ _ E) as (-> & -> & ->). eexists. split; reflexivity.
    + destruct (fret_inv _ _ _ _ _ _ E) as (-> & -> & ->). eexists. split; [reflexivity|discriminate].
  - destruct (fret_inv _ _ _ _ _ _ E) as (-> & -> & ->). eexists. split; [reflexivity|discriminate].
  - apply pair_equal_spec in E. destruct E as [_ E]. discriminate E.
Qed.

Lemma deref_null M M' a n : deref M a n = None <-> deref M' a n = None.
Proof. unfold deref. destruct (a =? 0); split; intros E; first [reflexivity|discriminate E]. Qed.

Lemma step_local l rest V S op l1 code V' :
  legal V op -> mem_top S = mem_top V -> (forall x, c_reads op x -> mem_at S x = mem_at V x) ->
  c_step replay l V op = (l1, FReturn code V') ->
  exists S', c_step replay (l ++ rest) S op = (l1 ++ rest, FReturn code S') /\
    forall x, may_change op code x -> mem_at S' x = mem_at V' x.
Proof.
  intros L Et Er E. pose proof (legal_top _ _ _ Et L) as L'.
  destruct op as [a b|pub priv|buf len sk out|buf len pk sig]; cbn [c_step] in *.
  - destruct (fret_inv _ _ _ _ _ _ E) as (-> & -> & ->). eexists. split; [reflexivity|].
    intros x ->. apply store_same. left. change (nlen [b]) with 1. lia.
  - rewrite (keygen_guard _ _ _ _ _ L) in E. rewrite (keygen_guard _ _ _ _ _ L').
    destruct (ffi_keygen replay l (deref V pub C_PK_LEN) (deref V priv C_SK_LEN)) as [l2 r] eqn:K.
    destruct r as [c [pb sb]| |].
    2, 3: apply pair_equal_spec in E; destruct E as [_ E]; discriminate E.
    destruct (fret_inv _ _ _ _ _ _ E) as (-> & -> & ->). clear E.
    destruct (keygen_local _ rest _ _ _ _ _ _ _ (deref_null V S pub C_PK_LEN) (deref_null V S priv C_SK_LEN) K)
      as ([pb' sb'] & K' & Eo).
    rewrite K'. eexists. split; [reflexivity|]. intros x [-> Mx].
    assert (Q : pb' = pb /\ sb' = sb) by (specialize (Eo eq_refl); apply pair_equal_spec in Eo; exact Eo).
    destruct Q as [-> ->].
    destruct (keygen_cases _ _ _ _ _ _ _ K) as [[Ic _]|(_ & _ & _ & skb & Lk & _ & Eq)].
    { destruct Ic as [X|[X|[]]]; discriminate X. }
    apply pair_equal_spec in Eq. destruct Eq as [-> ->]. cbn [assign].
    assert (Lp : nlen (sub_bytes skb 32 64) = 32) by (rewrite nlen_sub_bytes by lia; reflexivity).
    apply store_same. rewrite Lk. destruct Mx as [Mx|Mx]; [right|left; exact Mx].
    apply store_same. left. rewrite Lp. exact Mx.
  - rewrite (sign_guard _ _ _ _ _ _ _ L) in E. rewrite (sign_guard _ _ _ _ _ _ _ L').
    destruct (ffi_sign replay l (buffer V buf) len (deref V sk C_SK_LEN) (deref V out C_SIG_LEN)) as [l2 r] eqn:K.
    destruct r as [c o| |].
    2, 3: apply pair_equal_spec in E; destruct E as [_ E]; discriminate E.
    destruct (fret_inv _ _ _ _ _ _ E) as (-> & -> & ->). clear E.
    assert (X : exists o', ffi_sign replay (l ++ rest) (buffer S buf) len (deref S sk C_SK_LEN) (deref S out C_SIG_LEN)
                = (l2 ++ rest, FReturn c o') /\
                (c = 0 -> o' = o /\ exists sig, o = Some sig /\ nlen sig = 17088)).
    { destruct (named_ffi_sign_contract T P replay l len (deref V sk C_SK_LEN) (deref V out C_SIG_LEN)) as [S1 _].
      destruct (named_ffi_sign_contract T P replay (l ++ rest) len (deref S sk C_SK_LEN) (deref S out C_SIG_LEN)) as [S2 _].
      assert (Nul : buf = 0 \/ sk = 0 \/ out = 0 ->
        exists o', ffi_sign replay (l ++ rest) (buffer S buf) len (deref S sk C_SK_LEN) (deref S out C_SIG_LEN)
                = (l2 ++ rest, FReturn c o') /\
                (c = 0 -> o' = o /\ exists sig, o = Some sig /\ nlen sig = 17088)).
      { intros Z. rewrite S1 in K by (destruct Z as [-> | [-> | ->]]; auto).
        rewrite S2 by (destruct Z as [-> | [-> | ->]]; auto).
        destruct (fret_inv _ _ _ _ _ _ K) as (-> & -> & ->). eexists. split; [reflexivity|discriminate]. }
      destruct (N.eqb_spec buf 0) as [Zb|Nb]; [auto|].
      destruct (N.eqb_spec sk 0) as [Zs|Ns]; [auto|].
      destruct (N.eqb_spec out 0) as [Zo|No]; [auto|]. clear S1 S2 Nul.
      destruct L as (_ & _ & _ & [Zb|[Rd _]]); [contradiction|].
      destruct L' as (_ & _ & _ & [Zb|[Rd' _]]); [contradiction|].
      destruct (read_message _ _ _ Rd) as (b & Eb & Cm). destruct (read_message _ _ _ Rd') as (b' & Eb' & Cm').
      assert (El : load S buf (Z.to_N len) = load V buf (Z.to_N len)).
      { apply load_ext. intros x Lx. apply Er. cbn [c_reads]. auto. }
      assert (Es : load S sk C_SK_LEN = load V sk C_SK_LEN).
      { apply load_ext. intros x Lx. apply Er. cbn [c_reads]. auto. }
      rewrite El in Cm'.
      rewrite Eb, (deref_some _ _ _ Ns), (deref_some _ _ _ No) in K.
      rewrite Eb', (deref_some _ _ _ Ns), (deref_some _ _ _ No), Es.
      destruct (sign_local _ rest _ _ _ _ _ _ (load S out C_SIG_LEN) _ _ _ Cm Cm' K) as (o' & K' & Eo).
      exists o'. split; [exact K'|]. intros Zc. split; [exact (Eo Zc)|].
      destruct (sign_cases _ _ _ _ _ _ _ _ _ _ Cm (nlen_load _ _ _) K) as [[Ic _]|(_ & sig & Es' & Ls & _)].
      - rewrite Zc in Ic. destruct Ic as [X|[X|[]]]; discriminate X.
      - exists sig. split; [exact Es'|exact Ls]. }
    destruct X as (o' & K' & Eo). rewrite K'. eexists. split; [reflexivity|].
    intros x [Zc Mx]. destruct (Eo Zc) as [-> (sig & -> & Ls)]. cbn [assign].
    apply store_same. left. rewrite Ls. exact Mx.
  - rewrite (verify_code _ _ _ _ _ L) in E. rewrite (verify_code _ _ _ _ _ L').
    destruct (fret_inv _ _ _ _ _ _ E) as (-> & -> & ->). clear E.
    exists S. split; [|intros x []]. apply (f_equal (fun c => (l ++ rest, FReturn c S))).
    destruct (N.eqb_spec pk 0) as [Zp|Np]; cbn [orb]; cbv iota; [reflexivity|].
    destruct (N.eqb_spec sig 0) as [Zs|Ns]; cbn [orb]; cbv iota; [reflexivity|].
    assert (E1 : load S buf (Z.to_N len) = load V buf (Z.to_N len)) by (apply load_ext; intros x Lx; apply Er; cbn [c_reads]; auto).
    assert (E2 : load S sig 17088 = load V sig 17088) by (apply load_ext; intros x Lx; apply Er; cbn [c_reads]; auto).
    assert (E3 : load S pk 32 = load V pk 32) by (apply load_ext; intros x Lx; apply Er; cbn [c_reads]; auto).
    rewrite E1, E2, E3. reflexivity.
Qed.

Lemma keygen_ext l rest a b l1 code outs :
  ffi_keygen replay l a b = (l1, FReturn code outs) -> ffi_keygen replay (l ++ rest) a b = (l1 ++ rest, FReturn code outs).
Proof.
  intros E. unfold ffi_keygen in *.
  destruct a as [av|], b as [bv|].
  2, 3, 4: destruct (fret_inv _ _ _ _ _ _ E) as (-> & -> & ->); reflexivity.
  unfold try_keygen in *.
  destruct (try_keygen_with_rng slh_dsa_sha2_128f replay l) as [l2 [t o]] eqn:K.
  assert (Np : forall q, o <> Panic q).
  { intros q ->. cbn [result snd] in E. apply pair_equal_spec in E. destruct E as [_ E]. discriminate E. }
  rewrite (extends_keygen _ _ _ _ _ K Np rest).
  apply pair_equal_spec in E. destruct E as [-> E]. rewrite E. reflexivity.
Qed.

Lemma sign_ext l rest buf len sk out l1 code o :
  ffi_sign replay l buf len sk out = (l1, FReturn code o) -> ffi_sign replay (l ++ rest) buf len sk out = (l1 ++ rest, FReturn code o).
Proof.
  intros E. unfold ffi_sign in *.
  destruct sk as [skb|], out as [ob|].
  2, 3, 4: destruct (fret_inv _ _ _ _ _ _ E) as (-> & -> & ->); reflexivity.
  destruct buf as [buf|]; [|destruct (fret_inv _ _ _ _ _ _ E) as (-> & -> & ->); reflexivity].
  destruct (from_raw_parts (Some buf) len) as [m| |].
  2, 3: apply pair_equal_spec in E; destruct E as [_ E]; discriminate E.
  destruct (result (sk_try_from_bytes slh_dsa_sha2_128f skb)) as [k|e|q].
  - unfold try_sign in *.
    destruct (try_sign_with_rng slh_dsa_sha2_128f replay k m [] true l) as [l2 [t r]] eqn:K.
    assert (Np : forall q, r <> Panic q).
    { intros q ->. cbn [result snd] in E. apply pair_equal_spec in E. destruct E as [_ E]. discriminate E. }
    rewrite (extends_sign _ _ _ _ _ _ _ _ _ K Np rest).
    apply pair_equal_spec in E. destruct E as [-> E]. rewrite E. reflexivity.
  - destruct (fret_inv _ _ _ _ _ _ E) as (-> & -> & ->); reflexivity.
  - apply pair_equal_spec in E; destruct E as [_ E]; discriminate E.
Qed.

Lemma step_ext l rest M op l1 code M' :
  c_step replay l M op = (l1, FReturn code M') -> c_step replay (l ++ rest) M op = (l1 ++ rest, FReturn code M').
Proof.
  intros E. destruct op as [a b|pub priv|buf len sk out|buf len pk sig]; cbn [c_step] in *.
  - destruct (fret_inv _ _ _ _ _ _ E) as (-> & -> & ->). reflexivity.
  - unfold c_keygen in *. destruct (_ && _ && _); [|apply pair_equal_spec in E; destruct E as [_ E]; discriminate E].
    destruct (ffi_keygen replay l (deref M pub C_PK_LEN) (deref M priv C_SK_LEN)) as [l2 r] eqn:K.
    apply pair_equal_spec in E. destruct E as [-> E]. destruct r as [c [pb sb]| |]; [|discriminate E..].
    rewrite (keygen_ext _ rest _ _ _ _ _ K), E. reflexivity.
  - unfold c_sign in *. destruct (_ && _ && _ && _); [|apply pair_equal_spec in E; destruct E as [_ E]; discriminate E].
    destruct (ffi_sign replay l (buffer M buf) len (deref M sk C_SK_LEN) (deref M out C_SIG_LEN)) as [l2 r] eqn:K.
    apply pair_equal_spec in E. destruct E as [-> E]. destruct r as [c o| |]; [|discriminate E..].
    rewrite (sign_ext _ rest _ _ _ _ _ _ _ K), E. reflexivity.
  - apply pair_equal_spec in E. destruct E as [-> E]. rewrite E. reflexivity.
Qed.

Lemma obo_ext l M cs l1 M1 rest : one_by_one l M cs l1 M1 -> one_by_one (l ++ rest) M cs (l1 ++ rest) M1.
Proof.
  induction 1 as [l M|l M op code l1 M1 calls l2 M2 E _ IH]; [constructor|].
  econstructor; [apply step_ext; exact E|exact IH].
Qed.

Lemma obo_snoc l M cs l1 M1 op code l2 M2 :
  one_by_one l M cs l1 M1 -> c_step replay l1 M1 op = (l2, FReturn code M2) ->
  one_by_one l M (cs ++ [(op, code)]) l2 M2.
Proof.
  induction 1 as [l M|l M op' code' l1 M1 calls l3 M3 E _ IH]; intros X; cbn [app].
  - econstructor; [exact X|constructor].
  - econstructor; [exact E|apply IH, X].
Qed.

Lemma reads_not_written M op code x : legal M op -> c_reads op x -> ~ may_change op code x.
Proof.
  intros L R W. destruct op as [a b|pub priv|buf len sk out|buf len pk sig]; cbn [c_reads] in R; try exact R.
  - destruct L as (_ & _ & A & L). destruct R as (Nb & Ns & No & R). destruct W as [_ W].
    destruct L as [->|(_ & _ & A2)]; [exact (Nb eq_refl)|]. unfold apart in *. lia.
  - exact W.
Qed.

(** ** the log *)
Section Log.
Variables (M0 : cmem) (log : list c_event) (calls : list (c_op * N)).
Hypothesis C : c_concurrent M0 log calls.
Notation at_ := (event_at log).
Notation mem t := (memory_at M0 log t).

Lemma written_app M l1 l2 : written M (l1 ++ l2) = written (written M l1) l2.
Proof. revert M. induction l1 as [|e l1 IH]; intros M; [reflexivity|]. destruct e; cbn [app written]; apply IH. Qed.

Lemma firstn_S {A} (l : list A) t :
  firstn (S t) l = firstn t l ++ match nth_error l t with Some e => [e] | None => [] end.
Proof.
  revert t. induction l as [|a l IH]; intros t; [destruct t; reflexivity|].
  destruct t as [|t]; [reflexivity|]. change (a :: firstn (S t) l = a :: (firstn t l ++ match nth_error l t with Some e => [e] | None => [] end)).
  rewrite IH. reflexivity.
Qed.

Lemma mem_S t : mem (S t) = match nth_error log t with Some (CWrite _ x b) => store (mem t) x [b] | _ => mem t end.
Proof.
  unfold memory_at. rewrite firstn_S, written_app. destruct (nth_error log t) as [[i|i n o|i x b|i]|]; reflexivity.
Qed.

Lemma mem_top_at t : mem_top (mem t) = mem_top M0.
Proof.
  induction t as [|t IH]; [reflexivity|]. rewrite mem_S. destruct (nth_error log t) as [[i|i n o|i x b|i]|]; exact IH.
Qed.

Lemma mem_frame x t1 t2 : (t1 <= t2)%nat ->
  (forall t i b, (t1 <= t < t2)%nat -> ~ at_ t (CWrite i x b)) -> mem_at (mem t2) x = mem_at (mem t1) x.
Proof.
  intros L F. induction t2 as [|t2 IH].
  - replace t1 with 0%nat by lia. reflexivity.
  - destruct (Nat.eq_dec t1 (S t2)) as [->|D]; [reflexivity|].
    rewrite <- IH; [|lia|intros t i b Lt; apply F; lia].
    rewrite mem_S. destruct (nth_error log t2) as [[i|i n o|i y b|i]|] eqn:E; try reflexivity.
    apply store_other. change (nlen [b]) with 1. intros Lx. apply (F t2 i b); [lia|].
    unfold event_at. rewrite E. f_equal. f_equal. lia.
Qed.

Lemma span i op code : nth_error calls i = Some (op, code) ->
  exists b e, at_ b (CBegin i) /\ at_ e (CEnd i) /\ (b < e)%nat /\
     forall t x, at_ t x -> c_thread x = i ->
       (t = b /\ x = CBegin i) \/ (t = e /\ x = CEnd i) \/ ((b < t < e)%nat /\ x <> CBegin i /\ x <> CEnd i).
Proof. intros E. destruct C as (_ & C2 & _). exact (proj1 (proj2 (C2 _ _ _ E))). Qed.

Lemma call_at t e : at_ t e -> exists op code, nth_error calls (c_thread e) = Some (op, code).
Proof.
  intros A. destruct C as (C1 & _). specialize (C1 _ _ A). apply nth_error_Some in C1.
  destruct (nth_error calls (c_thread e)) as [[op code]|]; [eauto|contradiction].
Qed.

Lemma writer_runs t i x b : at_ t (CWrite i x b) -> running log i t.
Proof.
  intros A. destruct (call_at _ _ A) as (op & code & E). cbn [c_thread] in E.
  destruct (span _ _ _ E) as (bg & en & B & N & L & F).
  destruct (F _ _ A eq_refl) as [[_ X]|[[_ X]|[L2 _]]]; [discriminate X..|].
  exists bg, en. repeat split; [exact B|exact N|lia|lia].
Qed.

Lemma writes_change t i x b op code : nth_error calls i = Some (op, code) -> at_ t (CWrite i x b) -> may_change op code x.
Proof.
  intros E A. destruct C as (_ & C2 & _). destruct (C2 _ _ _ E) as (_ & _ & V & V' & _ & _ & _ & W & _).
  exact (W _ _ _ A).
Qed.

Lemma change_writes i op code x : nth_error calls i = Some (op, code) -> may_change op code x -> c_writes op x.
Proof.
  intros E Mx. destruct C as (_ & C2 & _). destruct (C2 _ _ _ E) as (Lg & _ & V & V' & Vt & _ & St & _).
  destruct (step_effect _ _ _ _ _ _ _ (legal_top _ _ _ Vt Lg) St) as (_ & _ & _ & Sf).
  destruct op as [a b|pub priv|buf len sk out|buf len pk sig]; cbn [may_change c_writes step_facts] in *.
  - exact Mx.
  - destruct Mx as [Z Mx]. destruct (Sf Z) as (N1 & N2 & _). split; [exact N1|]. split; [exact N2|exact Mx].
  - destruct Mx as [Z Mx]. destruct (Sf Z) as (N1 & N2 & N3 & _). split; [exact N1|]. split; [exact N2|]. split; [exact N3|exact Mx].
  - destruct Mx.
Qed.

Lemma only_writer t i j x b op code : nth_error calls i = Some (op, code) -> c_reads op x \/ c_writes op x ->
  running log i t -> at_ t (CWrite j x b) -> j = i.
Proof.
  intros E R Ru A. destruct (Nat.eq_dec j i) as [D|D]; [exact D|]. exfalso.
  destruct (call_at _ _ A) as (op2 & code2 & E2). cbn [c_thread] in E2.
  destruct C as (_ & _ & C3).
  exact (C3 _ _ _ _ _ _ _ D E2 E (writer_runs _ _ _ _ A) Ru x (change_writes _ _ _ _ E2 (writes_change _ _ _ _ _ _ E2 A)) R).
Qed.

(** the last byte thread i writes at x *)
Definition last_write (i : nat) (x : N) (v : byte) : Prop :=
  exists t, at_ t (CWrite i x v) /\ forall t' b, at_ t' (CWrite i x b) -> (t' <= t)%nat.

Lemma last_is_final i op code e x v : nth_error calls i = Some (op, code) -> at_ e (CEnd i) -> may_change op code x ->
  last_write i x v -> mem_at (mem e) x = v.
Proof.
  intros E N Mx (t & A & L).
  destruct (span _ _ _ E) as (bg & en & B & N2 & Lt & F).
  assert (en = e) as ->.
  { destruct (F _ _ N eq_refl) as [[_ X]|[[X _]|[_ [_ X]]]]; [discriminate X|symmetry; exact X|destruct (X eq_refl)]. }
  assert (bg < t < e)%nat as Lb.
  { destruct (F _ _ A eq_refl) as [[_ X]|[[_ X]|[X _]]]; [discriminate X..|exact X]. }
  rewrite (mem_frame x (S t) e).
  - rewrite mem_S. unfold event_at in A. rewrite A. cbn [store mem_at]. change (nlen [v]) with 1.
    replace (x <=? x) with true by (symmetry; apply N.leb_refl).
    replace (x <? x + 1) with true by (symmetry; apply N.ltb_lt; lia). rewrite N.sub_diag. reflexivity.
  - lia.
  - intros t2 j b2 L2 A2.
    assert (j = i) as ->.
    { apply (only_writer t2 i j x b2 op code E); [right; exact (change_writes _ _ _ _ E Mx)| |exact A2].
      exists bg, e. repeat split; [exact B|exact N|lia|lia]. }
    specialize (L _ _ A2). lia.
Qed.

(** the memory a call finds when it begins has the bytes that the call sees *)
Lemma view_at_begin i op code b V : nth_error calls i = Some (op, code) -> at_ b (CBegin i) ->
  (forall x, c_reads op x -> exists t, running log i t /\ mem_at V x = mem_at (mem t) x) ->
  forall x, c_reads op x -> mem_at (mem b) x = mem_at V x.
Proof.
  intros E B Vw x R. destruct (Vw x R) as (t & Ru & ->).
  destruct (span _ _ _ E) as (bg & en & B2 & N2 & Lt & F).
  assert (bg = b) as ->.
  { destruct (F _ _ B eq_refl) as [[X _]|[[_ X]|[_ [X _]]]]; [symmetry; exact X|discriminate X|destruct (X eq_refl)]. }
  assert (b < t <= en)%nat as Lb.
  { destruct Ru as (b' & e' & A1 & A2 & L).
    destruct (F _ _ A1 eq_refl) as [[X1 _]|[[_ X]|[_ [X _]]]]; [|discriminate X|destruct (X eq_refl)].
    destruct (F _ _ A2 eq_refl) as [[_ X]|[[X2 _]|[_ [_ X]]]]; [discriminate X| |destruct (X eq_refl)]. lia. }
  symmetry. apply mem_frame; [lia|]. intros t2 j b2 L2 A2.
  assert (t2 <> b) by (intros ->; unfold event_at in *; rewrite B in A2; discriminate A2).
  assert (j = i) as ->.
  { apply (only_writer t2 i j x b2 op code E); [left; exact R| |exact A2].
    exists b, en. repeat split; [exact B|exact N2|lia|lia]. }
  destruct C as (_ & C2 & _). destruct (C2 _ _ _ E) as (Lg & _).
  exact (reads_not_written _ _ _ _ Lg R (writes_change _ _ _ _ _ _ E A2)).
Qed.

(** each call is as if alone *)
Lemma as_if_alone i op code b e : nth_error calls i = Some (op, code) -> at_ b (CBegin i) -> at_ e (CEnd i) ->
  exists M', c_step replay (asked i log) (mem b) op = ([], FReturn code M') /\
    forall x, c_reads op x \/ c_writes op x -> mem_at (mem e) x = mem_at M' x.
Proof.
  intros E B N. destruct C as (_ & C2 & _). destruct (C2 _ _ _ E) as (Lg & (bg & en & B2 & N2 & Lt & F) & V & V' & Vt & Vr & St & Wr & Wl).
  assert (bg = b) as ->.
  { destruct (F _ _ B eq_refl) as [[X _]|[[_ X]|[_ [X _]]]]; [symmetry; exact X|discriminate X|destruct (X eq_refl)]. }
  assert (en = e) as ->.
  { destruct (F _ _ N eq_refl) as [[_ X]|[[X _]|[_ [_ X]]]]; [discriminate X|symmetry; exact X|destruct (X eq_refl)]. }
  assert (LV : legal V op) by (apply (legal_top M0); [exact Vt|exact Lg]).
  destruct (step_local (asked i log) [] V (mem b) op [] code V' LV) as (M' & St' & Ag).
  { rewrite mem_top_at, Vt. reflexivity. }
  { intros x R. exact (view_at_begin i op code b V E B Vr x R). }
  { exact St. }
  rewrite app_nil_r in St'. exists M'. split; [exact St'|].
  intros x RW.
  destruct (step_effect _ _ _ _ _ _ _ (legal_top _ _ _ (mem_top_at b) Lg) St') as (_ & _ & Fr & _).
  destruct (Byte.byte_eq_dec (mem_at M' x) (mem_at (mem b) x)) as [Y|Y].
  - rewrite Y.
    assert (D : (exists t v, (b <= t < e)%nat /\ at_ t (CWrite i x v)) \/ ~ (exists t v, (b <= t < e)%nat /\ at_ t (CWrite i x v))).
    { destruct (existsb (fun t => match nth_error log t with Some (CWrite j y _) => Nat.eqb j i && (y =? x) | _ => false end) (seq b (e - b))) eqn:X.
      - left. apply existsb_exists in X. destruct X as (t & It & X). apply in_seq in It.
        destruct (nth_error log t) as [[?|?|j y v|?]|] eqn:A; try discriminate X.
        apply andb_prop in X. destruct X as [X1 X2]. apply Nat.eqb_eq in X1. apply N.eqb_eq in X2. subst j y.
        exists t, v. split; [lia|exact A].
      - right. intros (t & v & Lt2 & A). assert (Z : existsb (fun t => match nth_error log t with Some (CWrite j y _) => Nat.eqb j i && (y =? x) | _ => false end) (seq b (e - b)) = true).
        { apply existsb_exists. exists t. split; [apply in_seq; lia|]. unfold event_at in A. rewrite A, Nat.eqb_refl, N.eqb_refl. reflexivity. }
        rewrite Z in X. discriminate X. }
    destruct D as [(t & v & L2 & A)|D].
    + pose proof (Wr _ _ _ A) as Mx. rewrite <- Y, (Ag x Mx).
      apply (last_is_final i op code e x _ E N Mx). exact (Wl x Mx).
    + apply mem_frame; [lia|]. intros t j v L2 A.
      assert (t <> b) by (intros ->; unfold event_at in *; rewrite B in A; discriminate A).
      assert (j = i) as ->.
      { apply (only_writer t i j x v op code E RW); [|exact A]. exists b, e. repeat split; [exact B|exact N|lia|lia]. }
      apply D. exists t, v. split; [exact L2|exact A].
  - pose proof (Fr x Y) as Mx. rewrite (Ag x Mx). apply (last_is_final i op code e x _ E N Mx). exact (Wl x Mx).
Qed.

(** ** serialization in the order of the begins *)
Definition begins (t : nat) : list nat := flat_map (fun e => match e with CBegin i => [i] | _ => [] end) (firstn t log).
Definition the_call (i : nat) : c_op * N := nth i calls (CStore 0 x00, 0).

Lemma begins_S t : begins (S t) = begins t ++ match nth_error log t with Some (CBegin i) => [i] | _ => [] end.
Proof.
  unfold begins. rewrite firstn_S, flat_map_app. destruct (nth_error log t) as [[i|i n o|i x b|i]|]; reflexivity.
Qed.

Lemma In_begins i t : In i (begins t) <-> exists b, (b < t)%nat /\ at_ b (CBegin i).
Proof.
  induction t as [|t IH].
  - split; [intros []|intros (b & L & _); lia].
  - rewrite begins_S, in_app_iff, IH. split.
    + intros [(b & L & A)|X]; [exists b; split; [lia|exact A]|].
      destruct (nth_error log t) as [[j|j n o|j x b|j]|] eqn:A; cbn [In] in X; try contradiction.
      destruct X as [->|[]]. exists t. split; [lia|exact A].
    + intros (b & L & A). destruct (Nat.eq_dec b t) as [->|D].
      * right. unfold event_at in A. rewrite A. left. reflexivity.
      * left. exists b. split; [lia|exact A].
Qed.

Lemma begin_once i t1 t2 : at_ t1 (CBegin i) -> at_ t2 (CBegin i) -> t1 = t2.
Proof.
  intros A1 A2. destruct (call_at _ _ A1) as (op & code & E). cbn [c_thread] in E.
  destruct (span _ _ _ E) as (bg & en & B & N & L & F).
  destruct (F _ _ A1 eq_refl) as [[X1 _]|[[_ X]|[_ [X _]]]]; [|discriminate X|destruct (X eq_refl)].
  destruct (F _ _ A2 eq_refl) as [[X2 _]|[[_ X]|[_ [X _]]]]; [|discriminate X|destruct (X eq_refl)]. lia.
Qed.

Lemma begins_nodup t : NoDup (begins t).
Proof.
  induction t as [|t IH]; [constructor|]. rewrite begins_S.
  destruct (nth_error log t) as [[j|j n o|j x b|j]|] eqn:A; try (rewrite app_nil_r; exact IH).
  apply NoDup_Add with (a := j) (l := begins t).
  - replace (begins t ++ [j]) with (begins t ++ j :: []) by reflexivity.
    pose proof (Add_app j (begins t) []) as X. rewrite app_nil_r in X. exact X.
  - split; [exact IH|]. intros I. apply In_begins in I. destruct I as (b & L & B).
    pose proof (begin_once _ _ _ A B). lia.
Qed.

Lemma runs_begun i t : running log i t -> In i (begins t).
Proof. intros (b & e & B & _ & L). apply In_begins. exists b. split; [lia|exact B]. Qed.

Lemma serial t : (t <= length log)%nat ->
  exists Sm,
    one_by_one (flat_map (fun i => asked i log) (begins t)) M0 (map the_call (begins t)) [] Sm /\
    mem_top Sm = mem_top M0 /\
    (forall x, (forall i op code, nth_error calls i = Some (op, code) -> running log i t -> ~ may_change op code x) ->
       mem_at Sm x = mem_at (mem t) x) /\
    (forall i op code x, nth_error calls i = Some (op, code) -> running log i t -> may_change op code x ->
       last_write i x (mem_at Sm x)).
Proof.
  induction t as [|t IH]; intros Lt.
  - exists M0. split; [constructor|]. split; [reflexivity|]. split; [reflexivity|].
    intros i op code x _ (b & e & _ & _ & L). lia.
  - destruct IH as (Sm & O1 & Tp & I1 & I2); [lia|].
    destruct (nth_error log t) as [ev|] eqn:A; [|apply nth_error_None in A; lia].
    rewrite begins_S, A.
    destruct (call_at _ _ A) as (op & code & E).
    destruct (span _ _ _ E) as (bg & en & B & N & Lbe & F).
    destruct ev as [j|j n o|j y v|j]; cbn [c_thread] in *.
    + (* a call begins *)
      assert (bg = t) as ->.
      { destruct (F _ _ A eq_refl) as [[X _]|[[_ X]|[_ [X _]]]]; [symmetry; exact X|discriminate X|destruct (X eq_refl)]. }
      destruct C as (_ & C2 & C3). destruct (C2 _ _ _ E) as (Lg & _ & V & V' & Vt & Vr & St & Wr & Wl).
      assert (Rj : running log j (S t)) by (exists t, en; repeat split; [exact B|exact N|lia|lia]).
      assert (Run : forall i, running log i t -> i <> j /\ running log i (S t)).
      { intros i (b & e & Bi & Ei & L).
        assert (e <> t) by (intros ->; unfold event_at in *; rewrite A in Ei; discriminate Ei). split.
        - intros ->. pose proof (begin_once _ _ _ Bi B). lia.
        - exists b, e. repeat split; [exact Bi|exact Ei|lia|lia]. }
      assert (Run2 : forall i, running log i (S t) -> i = j \/ running log i t).
      { intros i (b & e & Bi & Ei & L). destruct (Nat.eq_dec b t) as [->|D].
        - left. unfold event_at in *. rewrite A in Bi. congruence.
        - right. exists b, e. repeat split; [exact Bi|exact Ei|lia|lia]. }
      destruct (step_local (asked j log) [] V Sm op [] code V') as (S' & St' & Ag).
      { apply (legal_top M0); [exact Vt|exact Lg]. }
      { rewrite Tp, Vt. reflexivity. }
      { intros x R. rewrite <- (view_at_begin j op code t V E B Vr x R). apply I1.
        intros i op2 code2 E2 Ri Mx. destruct (Run i Ri) as [Dij Ri'].
        exact (C3 _ _ _ _ _ _ _ Dij E2 E Ri' Rj x (change_writes _ _ _ _ E2 Mx) (or_introl R)). }
      { exact St. }
      rewrite app_nil_r in St'.
      assert (LS : legal Sm op) by (apply (legal_top M0); [exact Tp|exact Lg]).
      destruct (step_effect _ _ _ _ _ _ _ LS St') as (_ & Tp' & Fr & _).
      assert (Same : forall x, ~ may_change op code x -> mem_at S' x = mem_at Sm x).
      { intros x Nx. destruct (Byte.byte_eq_dec (mem_at S' x) (mem_at Sm x)) as [Y|Y]; [exact Y|]. destruct (Nx (Fr x Y)). }
      exists S'. split; [|split; [|split]].
      * rewrite flat_map_app, map_app. cbn [flat_map map]. rewrite app_nil_r.
        replace (the_call j) with (op, code) by (unfold the_call; symmetry; apply nth_error_nth; exact E).
        apply (obo_snoc _ _ _ (asked j log) Sm); [|exact St'].
        apply (obo_ext _ _ _ [] Sm (asked j log)). exact O1.
      * rewrite Tp'. exact Tp.
      * intros x Nx. rewrite mem_S, A. rewrite (Same x (Nx _ _ _ E Rj)). apply I1.
        intros i op2 code2 E2 Ri. exact (Nx _ _ _ E2 (proj2 (Run i Ri))).
      * intros i op2 code2 x E2 Ri Mx. destruct (Nat.eq_dec i j) as [->|D].
        { assert (Eq : (op2, code2) = (op, code)) by congruence. apply pair_equal_spec in Eq. destruct Eq as [-> ->].
          rewrite (Ag x Mx). exact (Wl x Mx). }
        destruct (Run2 i Ri) as [X|Ri']; [contradiction|].
        rewrite (Same x).
        { exact (I2 _ _ _ x E2 Ri' Mx). }
        intros Mj. exact (C3 _ _ _ _ _ _ _ D E2 E Ri Rj x (change_writes _ _ _ _ E2 Mx) (or_intror (change_writes _ _ _ _ E Mj))).
    + (* a request *)
      assert (Run : forall i, running log i t <-> running log i (S t)).
      { intros i. split; intros (b & e & Bi & Ei & L).
        - assert (e <> t) by (intros ->; unfold event_at in *; rewrite A in Ei; discriminate Ei).
          exists b, e. repeat split; [exact Bi|exact Ei|lia|lia].
        - assert (b <> t) by (intros ->; unfold event_at in *; rewrite A in Bi; discriminate Bi).
          exists b, e. repeat split; [exact Bi|exact Ei|lia|lia]. }
      rewrite app_nil_r. exists Sm. split; [exact O1|]. split; [exact Tp|]. split.
      * intros x Nx. rewrite mem_S, A. apply I1. intros i op2 code2 E2 Ri. apply (Nx i op2 code2 E2), Run, Ri.
      * intros i op2 code2 x E2 Ri Mx. apply Run in Ri. exact (I2 _ _ _ x E2 Ri Mx).
    + (* a write *)
      assert (Run : forall i, running log i t <-> running log i (S t)).
      { intros i. split; intros (b & e & Bi & Ei & L).
        - assert (e <> t) by (intros ->; unfold event_at in *; rewrite A in Ei; discriminate Ei).
          exists b, e. repeat split; [exact Bi|exact Ei|lia|lia].
        - assert (b <> t) by (intros ->; unfold event_at in *; rewrite A in Bi; discriminate Bi).
          exists b, e. repeat split; [exact Bi|exact Ei|lia|lia]. }
      rewrite app_nil_r. exists Sm. split; [exact O1|]. split; [exact Tp|]. split.
      * intros x Nx. rewrite mem_S, A. rewrite store_other.
        { apply I1. intros i op2 code2 E2 Ri. apply (Nx i op2 code2 E2), Run, Ri. }
        change (nlen [v]) with 1. intros Lx. assert (x = y) as -> by lia.
        refine (Nx j op code E _ (writes_change _ _ _ _ _ _ E A)). apply Run. exact (writer_runs _ _ _ _ A).
      * intros i op2 code2 x E2 Ri Mx. apply Run in Ri. exact (I2 _ _ _ x E2 Ri Mx).
    + (* a call ends *)
      assert (en = t) as ->.
      { destruct (F _ _ A eq_refl) as [[_ X]|[[X _]|[_ [_ X]]]]; [discriminate X|symmetry; exact X|destruct (X eq_refl)]. }
      assert (Rj : running log j t) by (exists bg, t; repeat split; [exact B|exact N|lia|lia]).
      assert (Run : forall i, running log i (S t) -> running log i t).
      { intros i (b & e & Bi & Ei & L).
        assert (b <> t) by (intros ->; unfold event_at in *; rewrite A in Bi; discriminate Bi).
        exists b, e. repeat split; [exact Bi|exact Ei|lia|lia]. }
      assert (Run2 : forall i, running log i t -> i = j \/ running log i (S t)).
      { intros i (b & e & Bi & Ei & L). destruct (Nat.eq_dec e t) as [->|D].
        - left. unfold event_at in *. rewrite A in Ei. congruence.
        - right. exists b, e. repeat split; [exact Bi|exact Ei|lia|lia]. }
      rewrite app_nil_r. exists Sm. split; [exact O1|]. split; [exact Tp|]. split.
      * intros x Nx. rewrite mem_S, A.
        destruct (Byte.byte_eq_dec (mem_at Sm x) (mem_at (mem t) x)) as [Y|Y]; [exact Y|]. exfalso. apply Y.
        apply I1. intros i op2 code2 E2 Ri Mx. destruct (Run2 i Ri) as [->|Ri']; [|exact (Nx _ _ _ E2 Ri' Mx)].
        assert (Eq : (op2, code2) = (op, code)) by congruence. apply pair_equal_spec in Eq. destruct Eq as [-> ->].
        apply Y. symmetry. apply (last_is_final j op code t x _ E N Mx). exact (I2 _ _ _ x E Ri Mx).
      * intros i op2 code2 x E2 Ri Mx. exact (I2 _ _ _ x E2 (Run i Ri) Mx).
Qed.

Lemma none_at_end i : ~ running log i (length log).
Proof. intros (b & e & _ & E & L). assert (X : (e < length log)%nat) by (apply nth_error_Some; unfold event_at in E; congruence). lia. Qed.

Lemma begins_perm : Permutation (begins (length log)) (seq 0 (length calls)).
Proof.
  apply NoDup_Permutation; [apply begins_nodup|apply seq_NoDup|]. intros i. rewrite In_begins, in_seq. split.
  - intros (b & _ & B). destruct C as (C1 & _). specialize (C1 _ _ B). cbn [c_thread] in C1. lia.
  - intros [_ L]. assert (X : nth_error calls i <> None) by (apply nth_error_Some; lia).
    destruct (nth_error calls i) as [[op code]|] eqn:E; [|contradiction].
    destruct (span _ _ _ E) as (b & e & B & _). exists b. split; [|exact B].
    apply nth_error_Some. unfold event_at in B. congruence.
Qed.

Lemma begins_order i j e b : at_ e (CEnd i) -> at_ b (CBegin j) -> (e < b)%nat -> precedes (begins (length log)) i j.
Proof.
  intros E B L. exists (begins b), (flat_map (fun e => match e with CBegin i => [i] | _ => [] end) (skipn b log)).
  destruct (call_at _ _ E) as (op & code & X). cbn [c_thread] in X.
  destruct (span _ _ _ X) as (bg & en & B2 & N2 & Lt & F).
  assert (en = e) as ->.
  { destruct (F _ _ E eq_refl) as [[_ Y]|[[Y _]|[_ [_ Y]]]]; [discriminate Y|symmetry; exact Y|destruct (Y eq_refl)]. }
  split; [|split].
  - unfold begins. rewrite firstn_all, <- flat_map_app, firstn_skipn. reflexivity.
  - apply In_begins. exists bg. split; [lia|exact B2].
  - apply in_flat_map. exists (CBegin j). split; [|left; reflexivity].
    unfold event_at in B. apply nth_error_split in B. destruct B as (l1 & l2 & -> & Lb). rewrite <- Lb.
    rewrite skipn_app, skipn_all, Nat.sub_diag. cbn [skipn app]. left. reflexivity.
Qed.
End Log.
End Calls.

Lemma prop_c_threads_serializable :
  forall (T : Target) (P : Prims) (M0 : cmem) (log : list c_event) (calls : list (c_op * N)),
    c_concurrent M0 log calls ->
    exists (order : list nat) (M : cmem),
      Permutation order (seq 0 (length calls)) /\
      (forall i j e b, event_at log e (CEnd i) -> event_at log b (CBegin j) -> (e < b)%nat -> precedes order i j) /\
      one_by_one (flat_map (fun i => asked i log) order) M0 (map (fun i => nth i calls (CStore 0 x00, 0)) order) [] M /\
      mem_top M = mem_top M0 /\
      forall x, mem_at M x = mem_at (written M0 log) x.
Proof.
  intros T P M0 log calls C.
  destruct (serial M0 log calls C (length log) (le_n _)) as (Sm & O1 & Tp & I1 & _).
  exists (begins log (length log)), Sm.
  split; [exact (begins_perm M0 log calls C)|]. split; [exact (begins_order M0 log calls C)|].
  split; [exact O1|]. split; [exact Tp|]. intros x. rewrite I1.
  - unfold memory_at. rewrite firstn_all. reflexivity.
  - intros i op code _ R. destruct (none_at_end log i R).
Qed.

Lemma prop_c_threads_as_if_alone :
  forall (T : Target) (P : Prims) (M0 : cmem) (log : list c_event) (calls : list (c_op * N)),
    c_concurrent M0 log calls ->
    forall i op code b e, nth_error calls i = Some (op, code) ->
      event_at log b (CBegin i) -> event_at log e (CEnd i) ->
      exists M', c_step replay (asked i log) (memory_at M0 log b) op = ([], FReturn code M') /\
        forall x, c_reads op x \/ c_writes op x -> mem_at (memory_at M0 log e) x = mem_at M' x.
Proof. intros T P M0 log calls C. exact (as_if_alone M0 log calls C). Qed.
