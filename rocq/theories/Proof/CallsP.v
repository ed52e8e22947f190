(** Shape of the call lists: after the message hash, only address-taking hash calls. *)
From Verif Require Import Spec.Fips205 Spec.Fips205Hash.
From Verif Require Import Model.Api Proof.Facts Proof.HashP Proof.Fun Proof.SlhP Proof.SerP Proof.ApiP
  Spec.Vocab Proof.Summary.
Import ListNotations.
Open Scope list_scope.
Open Scope N_scope.

Definition is_ehash (e : event) : bool := match e with EHash _ _ _ _ => true | _ => false end.
Definition allH (L : list event) : Prop := Forall (fun e => is_ehash e = true) L.

Lemma allH_nil : allH []. Proof. constructor. Qed.
Lemma allH_cons e L : is_ehash e = true -> allH L -> allH (e :: L).
Proof. intros; constructor; assumption. Qed.
Lemma allH_app a b : allH a -> allH b -> allH (a ++ b).
Proof. intros. apply Forall_app. auto. Qed.
Lemma allH_flat_map {X} (f : X -> list event) l : (forall x, In x l -> allH (f x)) -> allH (flat_map f l).
Proof.
  intros H. induction l as [|x l IH]; cbn [flat_map]; [constructor|].
  apply allH_app; [apply H; left; reflexivity|]. apply IH. intros y Hy. apply H. right. exact Hy.
Qed.

Section A.
Context (p : Params) (hf : HashFns) (ps ss : bytes).

Lemma allH_chainC A : forall c s x, allH (chainC hf ps A s c x).
Proof. induction c as [|c IH]; intros s x; cbn [chainC]; [constructor|]. apply allH_cons; [reflexivity|apply IH]. Qed.

Lemma allH_mnodeC leaf nd leafC ndC z :
  (forall i, allH (leafC i)) -> (forall z i x y, is_ehash (ndC z i x y) = true) ->
  forall i, allH (mnodeC leaf nd leafC ndC z i).
Proof.
  intros H1 H2. induction z as [|z IH]; intros i; cbn [mnodeC]; [apply H1|].
  apply allH_app; [apply IH|]. apply allH_app; [apply IH|]. apply allH_cons; [apply H2|constructor].
Qed.

Lemma allH_climbC nd ndC auth idx :
  (forall z i x y, is_ehash (ndC z i x y) = true) ->
  forall cnt k x, allH (climbC nd ndC auth idx cnt k x).
Proof.
  intros H2. induction cnt as [|c IH]; intros k x; cbn [climbC]; [constructor|].
  apply allH_cons; [|apply IH]. unfold up. destruct (N.even _); apply H2.
Qed.

Lemma allH_wpkC l t kp sig m : allH (wpkC p hf ps l t kp sig m).
Proof.
  apply allH_app; [apply allH_flat_map; intros; apply allH_chainC|]. apply allH_cons; [reflexivity|constructor].
Qed.
Lemma allH_xpkC l t idx sg m : allH (xpkC p hf ps l t idx sg m).
Proof. apply allH_app; [apply allH_wpkC|]. apply allH_climbC. reflexivity. Qed.
Lemma allH_fpkC t kp fs md : allH (fpkC p hf ps t kp fs md).
Proof.
  apply allH_app; [|apply allH_cons; [reflexivity|constructor]].
  apply allH_flat_map. intros. apply allH_cons; [reflexivity|]. apply allH_climbC. reflexivity.
Qed.
Lemma allH_vrootC dg sg : allH (vrootC p hf ps dg sg).
Proof. apply allH_app; [apply allH_fpkC|]. apply allH_flat_map. intros. apply allH_xpkC. Qed.

Lemma allH_wvalC l t kp i s : allH (wvalC hf ps ss l t kp i s).
Proof. apply allH_cons; [reflexivity|apply allH_chainC]. Qed.
Lemma allH_wleafC l t kp : allH (wleafC p hf ps ss l t kp).
Proof.
  apply allH_app; [apply allH_flat_map; intros; apply allH_wvalC|]. apply allH_cons; [reflexivity|constructor].
Qed.
Lemma allH_xnodeC l t z i : allH (xnodeC p hf ps ss l t z i).
Proof. apply allH_mnodeC; [apply allH_wleafC|reflexivity]. Qed.
Lemma allH_prootC : allH (prootC p hf ps ss).
Proof. apply allH_xnodeC. Qed.
Lemma allH_xsigC l t idx m : allH (xsigC p hf ps ss l t idx m).
Proof.
  apply allH_app; apply allH_flat_map; intros; [|apply allH_wvalC].
  apply allH_mnodeC; [apply allH_wleafC|reflexivity].
Qed.
Lemma allH_hsigC t0 l0 m : allH (hsigC p hf ps ss t0 l0 m).
Proof.
  apply allH_flat_map. intros j _. apply allH_app; [apply allH_xsigC|].
  destruct (_ <? _)%nat; [apply allH_xpkC|constructor].
Qed.
Lemma allH_fsigC t kp md : allH (fsigC p hf ps ss t kp md).
Proof.
  apply allH_flat_map. intros i _. apply allH_cons; [reflexivity|]. apply allH_flat_map. intros k _.
  apply allH_mnodeC; [|reflexivity]. intros. apply allH_cons; [reflexivity|]. apply allH_cons; [reflexivity|constructor].
Qed.
Lemma allH_sig_tailC dg : allH (sig_tailC p hf ps ss dg).
Proof. apply allH_app; [apply allH_fsigC|]. apply allH_app; [apply allH_fpkC|apply allH_hsigC]. Qed.
End A.

(** observations depend on the calls only *)
Lemma draws_calls t : draws (calls t) = draws t.
Proof.
  induction t as [|e t IH]; [reflexivity|]. unfold calls. cbn [filter]. fold (calls t).
  destruct e; cbn [is_call draws flat_map app]; fold (draws t); fold (draws (calls t)); rewrite ?IH; reflexivity.
Qed.
Lemma hmsg_calls_calls t : hmsg_calls (calls t) = hmsg_calls t.
Proof.
  induction t as [|e t IH]; [reflexivity|]. unfold calls. cbn [filter]. fold (calls t).
  destruct e; cbn [is_call hmsg_calls flat_map app]; fold (hmsg_calls t); fold (hmsg_calls (calls t));
    rewrite ?IH; reflexivity.
Qed.
Lemma draws_app a b : draws (a ++ b) = draws a ++ draws b.
Proof. apply flat_map_app. Qed.
Lemma hmsg_calls_app a b : hmsg_calls (a ++ b) = hmsg_calls a ++ hmsg_calls b.
Proof. apply flat_map_app. Qed.
Lemma draws_allH L : allH L -> draws L = [].
Proof.
  induction 1 as [|e L He _ IH]; [reflexivity|]. cbn [draws flat_map]. fold (draws L). rewrite IH.
  destruct e; try discriminate He; reflexivity.
Qed.
Lemma hmsg_calls_allH L : allH L -> hmsg_calls L = [].
Proof.
  induction 1 as [|e L He _ IH]; [reflexivity|]. cbn [hmsg_calls flat_map]. fold (hmsg_calls L). rewrite IH.
  destruct e; try discriminate He; reflexivity.
Qed.

Section B.
Context {P : Prims} (p : Params).
Lemma draws_sign_calls sk o mp : draws (sign_calls p (hf_of p) sk o mp) = [].
Proof. cbn [sign_calls draws flat_map app]. apply draws_allH, allH_sig_tailC. Qed.
Lemma hmsg_sign_calls sk o mp :
  hmsg_calls (sign_calls p (hf_of p) sk o mp) =
  [(sign_R (hf_of p) sk o (concat mp), sk_pk_seed sk, sk_pk_root sk, concat mp)].
Proof.
  cbn [sign_calls hmsg_calls flat_map app]. f_equal. apply hmsg_calls_allH, allH_sig_tailC.
Qed.
Lemma draws_verify_calls pk sg mp : draws (verify_calls p (hf_of p) pk sg mp) = [].
Proof. cbn [verify_calls draws flat_map app]. apply draws_allH, allH_vrootC. Qed.
Lemma hmsg_verify_calls pk sg mp :
  hmsg_calls (verify_calls p (hf_of p) pk sg mp) = [(randomness sg, pk_seed pk, pk_root pk, concat mp)].
Proof.
  cbn [verify_calls hmsg_calls flat_map app]. f_equal. apply hmsg_calls_allH, allH_vrootC.
Qed.
End B.

(** what a signing call shows *)
Lemma sign_desc_draws {T : Target} {P : Prims} p r g sk mp hedged x :
  sign_desc p r g sk mp hedged x -> draws (trace (snd x)) = if hedged then [cN p] else [].
Proof.
  intros [_ [_ C]]. rewrite <- draws_calls, C, draws_app.
  replace (draws (match snd (draw p r g hedged (sk_pk_seed sk)) with
                  | Val b => sign_calls p (hf_of p) sk b mp | _ => [] end)) with (@nil N).
  - destruct hedged; reflexivity.
  - destruct (snd (draw p r g hedged (sk_pk_seed sk))); [|reflexivity..]. symmetry. apply draws_sign_calls.
Qed.

Lemma sign_desc_hmsg {T : Target} {P : Prims} p r g sk mp hedged x sig :
  sign_desc p r g sk mp hedged x -> result (snd x) = Val sig ->
  exists R, hmsg_calls (trace (snd x)) = [(R, sk_pk_seed sk, sk_pk_root sk, concat mp)] /\
            exists b, sig = sign_bytes p sk b (concat mp) /\ R = sign_R (hf_of p) sk b (concat mp).
Proof.
  intros [_ [V C]] E. rewrite V in E.
  destruct (snd (draw p r g hedged (sk_pk_seed sk))) as [b|e|q] eqn:D; [|discriminate..].
  injection E as <-. eexists. split; [|exists b; split; reflexivity].
  rewrite <- hmsg_calls_calls, C, hmsg_calls_app, hmsg_sign_calls.
  destruct hedged; reflexivity.
Qed.
