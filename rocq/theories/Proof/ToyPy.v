(** A small Python program: it makes a message of five bytes, generates a key pair and signs the message. *)
From Coq Require Import String.
From Verif Require Import Spec.Fips205 Spec.Fips205Hash.
From Verif Require Import Model.Api Model.PyObj Spec.Vocab Spec.VocabPy Proof.Summary Proof.TopFips Proof.TopC Proof.TopPyObj Proof.Toy Proof.ToyKeys.
Import ListNotations.
Open Scope list_scope.
Open Scope N_scope.

(** four bytes per character, least significant first *)
Fixpoint le32 (s : list N) : bytes :=
  match s with [] => [] | c :: s => [n2b c; n2b (c / 256); n2b (c / 65536); x00] ++ le32 s end.
Lemma le32_len s : nlen s <= nlen (le32 s).
Proof. induction s as [|c s IH]; [apply N.le_refl|]. cbn [le32]. rewrite nlen_app, nlen_cons. change (nlen [n2b c; n2b (c / 256); n2b (c / 65536); x00]) with 4. lia. Qed.
Lemma wide32_len s b : Some (le32 s) = Some b -> nlen s <= nlen b.
Proof. intros E. apply some_inj in E. rewrite <- E. apply le32_len. Qed.
#[global] Instance wide32 : Wide := {| wide := fun s => Some (le32 s); wide_len := wide32_len |}.

Definition five : bytes := nrepeat Byte.x41 5.

Lemma toy_py_program :
  exists g PK SK sig objs,
    py_history (T := debug64) (P := toy_prims) (W := wide32) counter 0 [] g [five; PK; SK; sig] objs [(PK, SK)] [(PK, five, sig)] /\
    In (PubObj (VBytes 1)) objs /\ In (PrivObj (VBytes 2)) objs /\
    nlen PK = 32 /\ nlen SK = 64 /\ nlen sig = sig_size SHA2_128f.
Proof.
  set (T := debug64). set (P := toy_prims). set (W := wide32).
  assert (H1 : py_history (T := T) (P := P) (W := W) counter 0 [] 0 [five] [] [] []).
  { exact (py_next (T := T) (P := P) (W := W) counter 0 [] 0 [] [] [] [] (PNew five) 0 [five] (PyReturn (RValue (VBytes 0)))
             (py_start counter 0 []) I eq_refl (or_introl (ex_intro _ _ eq_refl))). }
  destruct (prop_python_object_calls T P W counter 0 [five]) as (_ & _ & K & _).
  destruct (K _ _ _ _ _ _ (counter_gives 0 16) (counter_gives 1 16) (counter_gives 2 16)) as (PK & SK & _ & E1). clear K.
  change ([five] ++ [PK; SK]) with [five; PK; SK] in E1. change (nlen [five]) with 1 in E1. change (1 + 1) with 2 in E1.
  pose proof (py_next (T := T) (P := P) (W := W) counter 0 [] 0 [five] [] [] [] PKeygen _ _ _ H1 I E1 (or_introl (ex_intro _ _ eq_refl))) as H2.
  change (new_objs _ ++ []) with [PubObj (VBytes 1); PrivObj (VBytes 2)] in H2.
  change (new_pairs _ _ ++ []) with [(PK, SK)] in H2. change (new_issued _ _ _ _ ++ []) with (@nil (bytes * bytes * bytes)) in H2.
  match type of H2 with py_history _ _ _ ?x _ _ _ _ => set (g := x) in * end. clearbody g.
  destruct (history_inv (T := T) (P := P) (W := W) _ _ _ _ _ _ _ _ H2) as (_ & Wm & Gp & _).
  assert (Lp : nlen PK = 32) by exact (some_inj _ _ (Wm (PubObj (VBytes 1)) (or_introl eq_refl))).
  assert (Ls : nlen SK = 64) by exact (some_inj _ _ (Wm (PrivObj (VBytes 2)) (or_intror (or_introl eq_refl)))).
  destruct (prop_python_program_histories T P W _ _ _ _ _ _ _ _ H2) as (_ & _ & _ & _ & S).
  destruct (S PK SK (or_introl eq_refl)) as [Eh Sg].
  destruct (Sg 0 2 five eq_refl eq_refl ltac:(discriminate) eq_refl eq_refl) as (_ & _ & Sg2).
  destruct (Sg2 _ _ (counter_gives g 16)) as (sig & E2). clear S Sg Sg2.
  change ([five; PK; SK] ++ [sig]) with [five; PK; SK; sig] in E2. change (nlen [five; PK; SK]) with 3 in E2.
  assert (Lg : py_legal (T := T) [five; PK; SK] [PubObj (VBytes 1); PrivObj (VBytes 2)] (PSign (PrivObj (VBytes 2)) (VBytes 0))).
  { split; [right; left; reflexivity|]. split.
    - intros i Q. replace i with 0 by congruence. reflexivity.
    - intros i bs Q Eb. assert (Qi : i = 0) by congruence. subst i. cbn in Eb. apply some_inj in Eb. subst bs.
      split; [reflexivity|]. split; [reflexivity|discriminate]. }
  pose proof (py_next (T := T) (P := P) (W := W) counter 0 [] _ _ _ _ _ _ _ _ _ H2 Lg E2 (or_introl (ex_intro _ _ eq_refl))) as H3.
  change (new_objs _ ++ ?x) with x in H3. change (new_pairs _ _ ++ ?x) with x in H3.
  change (new_issued _ _ _ _ ++ []) with [(sub_bytes SK 32 64, five, sig)] in H3. rewrite Eh in H3.
  destruct (history_inv (T := T) (P := P) (W := W) _ _ _ _ _ _ _ _ H3) as (_ & _ & _ & Sn).
  destruct (Sn PK five sig (or_introl eq_refl)) as (_ & Lsig & _).
  eexists. exists PK, SK, sig. eexists. split; [exact H3|]. split; [left; reflexivity|]. split; [right; left; reflexivity|].
  split; [exact Lp|]. split; [exact Ls|exact Lsig].
Qed.
