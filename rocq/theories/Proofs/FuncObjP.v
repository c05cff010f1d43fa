(** Function objects: each evaluation stores its result in its own place. *)
From Coq Require Import ZArith List Bool Lia ZifyBool.
From Verif Require Import Model.Outcome Model.PSimple Model.FuncObj Spec.Funcs Proofs.OutcomeP.
Import ListNotations.
Local Open Scope Z_scope.

Lemma lset_self : forall (A : Type) (l : list A) n a, nth_error l n = Some a -> lset l n a = l.
Proof.
  induction l as [|x l IH]; intros [|n] a H; simpl in *; try discriminate.
  - congruence.
  - now rewrite IH.
Qed.

Lemma vget_lset_same : forall (A : Type) (l : list A) i a b, vget l i = Ok b -> vget (lset l (Z.to_nat i) a) i = Ok a.
Proof.
  intros A l i a b H. apply vget_some in H. destruct H as [H0 H]. apply vget_some. split; auto.
  apply nth_error_lset_same. apply nth_error_Some. congruence.
Qed.

Lemma vget_lset_other : forall (A : Type) (l : list A) i j a, 0 <= i -> i <> j ->
  vget (lset l (Z.to_nat i) a) j = vget l j.
Proof.
  intros A l i j a H0 H. unfold vget. destruct (0 <=? j) eqn:E; auto.
  rewrite nth_error_lset_other; auto. lia.
Qed.

Section FuncObj.
Context {V A : Type}.
Implicit Types (o : fobj V A) (F : family V A).

Lemma on_elem_ret : forall (S B : Type) (m : M S B) i l s s' b,
  vget l i = Ok s -> m s = RRet s' b -> on_elem i m l = RRet (lset l (Z.to_nat i) s') b.
Proof. intros S B m i l s s' b H H1. unfold on_elem. now rewrite H, H1. Qed.

Lemma on_elem_throw : forall (S B : Type) (m : M S B) i l s e,
  vget l i = Ok s -> m s = RThrow s e -> on_elem i m l = RThrow l e.
Proof.
  intros S B m i l s e H H1. unfold on_elem. rewrite H, H1. rewrite lset_self; auto.
  apply vget_some in H. tauto.
Qed.

Lemma sp_call_ok : forall (s : simple V A) v a, sp_eval s v = Ok a ->
  sp_call v s = RRet (mkSimple (sp_name s) (sp_eval s) (Some a)) a.
Proof. intros s v a H. unfold sp_call, mbind, mget, mlift, mput, mret. now rewrite H. Qed.

Lemma sp_call_throw : forall (s : simple V A) v e, sp_eval s v = Throw e -> sp_call v s = RThrow s e.
Proof. intros s v e H. unfold sp_call, mbind, mget, mlift. now rewrite H. Qed.

(** The component that answers a quantity. *)
Definition component o (q : quantity) : outcome (simple V A) :=
  match q with
  | QVal => Ok (fo_val o)
  | QGrad i => vget (fo_grad o) i
  | QHess i j => let* row := vget (fo_hess o) i in vget row j
  end.

Lemma vget_not : forall (B : Type) (l : list B) i, (exists b, vget l i = Ok b) \/ vget l i = UB UBOutOfBounds.
Proof.
  intros B l i. unfold vget. destruct (0 <=? i); auto. destruct (nth_error l (Z.to_nat i)); eauto.
Qed.

Lemma component_family : forall o F, built_from o F -> forall q,
  F q = match component o q with Ok s => Some (sp_eval s) | _ => None end.
Proof.
  intros o F (H0 & H1 & H2) [|i|i j]; simpl; auto. rewrite H2.
  destruct (vget (fo_hess o) i) as [row| | | |]; reflexivity.
Qed.

Lemma family_component : forall o F, (forall q, F q = match component o q with Ok s => Some (sp_eval s) | _ => None end) ->
  built_from o F.
Proof.
  intros o F H. split; [|split].
  - exact (H QVal).
  - intros i. exact (H (QGrad i)).
  - intros i j. rewrite (H (QHess i j)). simpl. destruct (vget (fo_hess o) i); reflexivity.
Qed.

Lemma stored_component : forall o q, stored o q = let* s := component o q in read_member (sp_val s).
Proof.
  intros o [|i|i j]; simpl; unfold fo_get, fo_get_grad, fo_get_hess, sp_get; auto.
  destruct (vget (fo_hess o) i); reflexivity.
Qed.

(** [o'] is [o] with the component of [q] replaced by [s]. *)
Definition replaced o (q : quantity) (s : simple V A) o' : Prop :=
  component o' q = Ok s /\ forall q', q' <> q -> component o' q' = component o q'.

Lemma evaluate_ret : forall o q s v a, component o q = Ok s -> sp_eval s v = Ok a ->
  exists o', evaluate q v o = RRet o' a /\ replaced o q (mkSimple (sp_name s) (sp_eval s) (Some a)) o'.
Proof.
  intros o q s v a Hc He. pose proof (sp_call_ok s v a He) as Hs.
  destruct q as [|i|i j]; simpl in Hc; simpl.
  - injection Hc as <-. unfold fo_call, on_val. rewrite Hs. eexists. split; [reflexivity|].
    split; [reflexivity|]. intros [|i'|i' j'] Hq; try reflexivity. congruence.
  - unfold fo_call_grad, on_grad. rewrite (on_elem_ret _ _ _ _ _ _ _ _ Hc Hs).
    eexists. split; [reflexivity|]. split.
    + simpl. eapply vget_lset_same; eauto.
    + intros [|i'|i' j'] Hq; try reflexivity. simpl. apply vget_some in Hc. apply vget_lset_other; [lia|congruence].
  - unfold fo_call_hess, on_hess.
    destruct (vget (fo_hess o) i) as [row| | | |] eqn:Er; simpl in Hc; try discriminate.
    rewrite (on_elem_ret _ _ _ _ _ _ _ _ Er (on_elem_ret _ _ _ _ _ _ _ _ Hc Hs)).
    eexists. split; [reflexivity|]. split.
    + simpl. rewrite (vget_lset_same _ _ _ _ _ Er). simpl. eapply vget_lset_same; eauto.
    + intros [|i'|i' j'] Hq; try reflexivity. simpl.
      destruct (Z.eq_dec i i') as [<-|Hi].
      * rewrite (vget_lset_same _ _ _ _ _ Er), Er. simpl. apply vget_some in Hc. apply vget_lset_other; [lia|congruence].
      * apply vget_some in Er. rewrite vget_lset_other; [reflexivity|lia|assumption].
Qed.

Lemma evaluate_throw : forall o q s v e, component o q = Ok s -> sp_eval s v = Throw e -> evaluate q v o = RThrow o e.
Proof.
  intros o q s v e Hc He. pose proof (sp_call_throw s v e He) as Hs.
  destruct o as [ov og oh]. destruct q as [|i|i j]; simpl in *.
  - injection Hc as <-. unfold fo_call, on_val. simpl. now rewrite Hs.
  - unfold fo_call_grad, on_grad. simpl. now rewrite (on_elem_throw _ _ _ _ _ _ _ Hc Hs).
  - unfold fo_call_hess, on_hess. simpl.
    destruct (vget oh i) as [row| | | |] eqn:Er; simpl in Hc; try discriminate.
    now rewrite (on_elem_throw _ _ _ _ _ _ _ Er (on_elem_throw _ _ _ _ _ _ _ Hc Hs)).
Qed.

(** Evaluating an existing component has the outcome of its function. *)
Lemma evaluate_outcome : forall o F q f v, built_from o F -> F q = Some f ->
  res_outcome (evaluate q v o) = f v.
Proof.
  intros o F q f v HF Hq. rewrite (component_family _ _ HF) in Hq.
  destruct (component o q) as [s| | | |] eqn:Ec; try discriminate. injection Hq as <-.
  destruct (sp_eval s v) eqn:E.
  - destruct (evaluate_ret _ _ _ _ _ Ec E) as (o' & -> & _). reflexivity.
  - now rewrite (evaluate_throw _ _ _ _ _ Ec E).
  - destruct q as [|i|i j]; simpl in *.
    + injection Ec as <-. unfold fo_call, on_val, sp_call, mbind, mget, mlift. now rewrite E.
    + unfold fo_call_grad, on_grad, on_elem, sp_call, mbind, mget, mlift. now rewrite Ec, E.
    + destruct (vget (fo_hess o) i) eqn:Er; simpl in Ec; try discriminate.
      unfold fo_call_hess, on_hess, on_elem, sp_call, mbind, mget, mlift. now rewrite Er, Ec, E.
  - destruct q as [|i|i j]; simpl in *.
    + injection Ec as <-. unfold fo_call, on_val, sp_call, mbind, mget, mlift. now rewrite E.
    + unfold fo_call_grad, on_grad, on_elem, sp_call, mbind, mget, mlift. now rewrite Ec, E.
    + destruct (vget (fo_hess o) i) eqn:Er; simpl in Ec; try discriminate.
      unfold fo_call_hess, on_hess, on_elem, sp_call, mbind, mget, mlift. now rewrite Er, Ec, E.
  - destruct q as [|i|i j]; simpl in *.
    + injection Ec as <-. unfold fo_call, on_val, sp_call, mbind, mget, mlift. now rewrite E.
    + unfold fo_call_grad, on_grad, on_elem, sp_call, mbind, mget, mlift. now rewrite Ec, E.
    + destruct (vget (fo_hess o) i) eqn:Er; simpl in Ec; try discriminate.
      unfold fo_call_hess, on_hess, on_elem, sp_call, mbind, mget, mlift. now rewrite Er, Ec, E.
Qed.

Lemma replaced_built : forall o q s s' o' F, built_from o F -> component o q = Ok s -> sp_eval s' = sp_eval s ->
  replaced o q s' o' -> built_from o' F.
Proof.
  intros o q s s' o' F HF Hc He [H1 H2]. apply family_component. intros q'.
  rewrite (component_family _ _ HF). destruct (quantity_eq_dec q' q) as [->|N].
  - rewrite H1, Hc, He. reflexivity.
  - now rewrite (H2 _ N).
Qed.

(** One evaluation that returns: the result is stored; every other stored result stays. *)
Lemma evaluate_spec : forall o F q f v a, built_from o F -> F q = Some f -> f v = Ok a ->
  exists o', evaluate q v o = RRet o' a /\ built_from o' F /\ stored o' q = Ok a /\
    forall q', q' <> q -> stored o' q' = stored o q'.
Proof.
  intros o F q f v a HF Hq Hf. rewrite (component_family _ _ HF) in Hq.
  destruct (component o q) as [s| | | |] eqn:Ec; try discriminate. injection Hq as <-.
  destruct (evaluate_ret _ _ _ _ _ Ec Hf) as (o' & E & R). exists o'. split; [exact E|]. split.
  - eapply replaced_built; [exact HF|exact Ec| |exact R]. reflexivity.
  - destruct R as [R1 R2]. split.
    + rewrite stored_component, R1. reflexivity.
    + intros q' N. now rewrite !stored_component, (R2 _ N).
Qed.

Lemma evaluate_throw_spec : forall o F q f v e, built_from o F -> F q = Some f -> f v = Throw e ->
  evaluate q v o = RThrow o e.
Proof.
  intros o F q f v e HF Hq Hf. rewrite (component_family _ _ HF) in Hq.
  destruct (component o q) as [s| | | |] eqn:Ec; try discriminate. injection Hq as <-.
  eapply evaluate_throw; eauto.
Qed.

(** What is stored agrees with a memory for all existing quantities. *)
Definition agrees o F (m : memory A) : Prop :=
  forall q, F q <> None -> stored o q = read_member (m q).

Lemma history_agrees : forall F o h o', evaluations F o h o' -> forall m, built_from o F -> agrees o F m ->
  built_from o' F /\ agrees o' F (fold_left (recall F) h m).
Proof.
  intros F o h o' H. induction H as [o|o h o1 q v o2 H IH Hq Hr]; intros m HF Ha.
  - split; auto.
  - destruct (IH m HF Ha) as [HF1 Ha1]. clear IH. rewrite fold_left_app. simpl. unfold recall at 1. simpl.
    destruct (F q) as [f|] eqn:Eq; [|congruence].
    pose proof (evaluate_outcome _ _ _ _ v HF1 Eq) as Ho.
    destruct Hr as [[a Hr]|[e Hr]]; rewrite Hr in Ho; simpl in Ho; rewrite <- Ho.
    + destruct (evaluate_spec _ _ _ _ _ _ HF1 Eq (eq_sym Ho)) as (o' & E & B & S1 & S2).
      rewrite E in Hr. injection Hr as <-. split; [exact B|].
      intros q' Hq'. unfold remember. destruct (quantity_eq_dec q' q) as [->|N]; [exact S1|].
      rewrite (S2 _ N). apply Ha1; auto.
    + rewrite (evaluate_throw_spec _ _ _ _ _ _ HF1 Eq (eq_sym Ho)) in Hr. injection Hr as <-. split; auto.
Qed.

(** Loops of evaluations, as in eval_grad and eval_hess. *)
Lemma grads_spec : forall l v o F, built_from o F ->
  (forall i, In i l -> exists f a, F (QGrad i) = Some f /\ f v = Ok a) ->
  exists o', fo_eval_grads l v o = RRet o' tt /\ built_from o' F /\
    (forall i f a, In i l -> F (QGrad i) = Some f -> f v = Ok a -> stored o' (QGrad i) = Ok a) /\
    (forall q, (forall i, In i l -> q <> QGrad i) -> stored o' q = stored o q).
Proof.
  induction l as [|i l IH]; intros v o F HF H.
  - exists o. split; [reflexivity|]. split; auto. split; auto. intros i f a [].
  - destruct (H i (or_introl eq_refl)) as (f & a & Hf & Ha).
    destruct (evaluate_spec _ _ _ _ _ _ HF Hf Ha) as (o1 & E1 & B1 & S1 & T1).
    destruct (IH v o1 F B1) as (o2 & E2 & B2 & S2 & T2).
    { intros j Hj. apply H. now right. }
    exists o2. split.
    { unfold fo_eval_grads in *. simpl. unfold mbind at 1. unfold mbind at 1. simpl in E1. rewrite E1. exact E2. }
    split; [exact B2|]. split.
    + intros j g b [<-|Hj] Hg Hb; [|eauto].
      destruct (in_dec Z.eq_dec i l) as [Hi|Hi]; [eauto|].
      rewrite T2. { assert (g = f) by congruence. subst g. assert (b = a) by congruence. now subst b. }
      intros j Hj Heq. injection Heq as <-. contradiction.
    + intros q Hq. rewrite T2.
      * apply T1. apply Hq. now left.
      * intros j Hj. apply Hq. now right.
Qed.

Lemma hesses_spec : forall l v o F, built_from o F ->
  (forall i j, In (i, j) l -> exists f a, F (QHess i j) = Some f /\ f v = Ok a) ->
  exists o', fo_eval_hesses l v o = RRet o' tt /\ built_from o' F /\
    (forall i j f a, In (i, j) l -> F (QHess i j) = Some f -> f v = Ok a -> stored o' (QHess i j) = Ok a) /\
    (forall q, (forall i j, In (i, j) l -> q <> QHess i j) -> stored o' q = stored o q).
Proof.
  induction l as [|[i j] l IH]; intros v o F HF H.
  - exists o. split; [reflexivity|]. split; auto. split; auto. intros i j f a [].
  - destruct (H i j (or_introl eq_refl)) as (f & a & Hf & Ha).
    destruct (evaluate_spec _ _ _ _ _ _ HF Hf Ha) as (o1 & E1 & B1 & S1 & T1).
    destruct (IH v o1 F B1) as (o2 & E2 & B2 & S2 & T2).
    { intros i' j' Hj. apply H. now right. }
    exists o2. split.
    { unfold fo_eval_hesses in *. simpl. unfold mbind at 1. unfold mbind at 1. simpl in E1. rewrite E1. exact E2. }
    split; [exact B2|]. split.
    + intros i' j' g b Hin Hg Hb.
      assert (D : {In (i', j') l} + {~ In (i', j') l}).
      { apply in_dec. intros [x1 y1] [x2 y2]. destruct (Z.eq_dec x1 x2), (Z.eq_dec y1 y2); [left|right|right|right]; congruence. }
      destruct D as [D|D]; [eauto|]. destruct Hin as [Hin|Hin]; [|contradiction]. injection Hin as <- <-.
      rewrite T2. { assert (g = f) by congruence. subst g. assert (b = a) by congruence. now subst b. }
      intros i' j' Hj Heq. injection Heq as <- <-. contradiction.
    + intros q Hq. rewrite T2.
      * apply T1. apply Hq. now left.
      * intros i' j' Hj. apply Hq. now right.
Qed.

End FuncObj.
