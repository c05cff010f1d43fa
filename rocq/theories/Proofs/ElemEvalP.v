(** eval of the element functions. *)
From Coq Require Import ZArith List Bool Lia.
From Verif Require Import Model.Outcome Model.Num Model.PSimple Model.FuncObj Model.Quad Model.Hexahedron.
From Verif Require Import Spec.Funcs Proofs.ElemObjP.
Import ListNotations.
Local Open Scope Z_scope.

Lemma eval_refresh : forall (V A : Type) (o : fobj V A) F v f a, built_from o F -> F QVal = Some f -> f v = Ok a ->
  exists o', fo_eval v o = RRet o' tt /\ built_from o' F /\ refreshed o o' v (fun q => q = QVal).
Proof.
  intros V A o F v f a B E Ef. pose proof B as (H1 & H2 & H3). rewrite H1 in E. injection E as <-.
  destruct o as [[n e r] g h]. cbn in *.
  assert (C : forall q, q = QVal -> evaluate q v (mkFobj (mkSimple n e r) g h) = RRet (mkFobj (mkSimple n e (Some a)) g h) a).
  { intros q ->. unfold evaluate, fo_call, on_val, sp_call, mbind, mget, mput, mret, mlift. cbn. rewrite Ef. reflexivity. }
  exists (mkFobj (mkSimple n e (Some a)) g h). split.
  - unfold fo_eval. unfold mbind. change (fo_call v) with (evaluate (A := A) QVal v). rewrite (C QVal eq_refl). reflexivity.
  - split; [split; [exact H1|split; [exact H2|exact H3]]|]. intros q. split.
    + intros ->. exists a. split; [reflexivity|]. rewrite (C QVal eq_refl). reflexivity.
    + intros N. destruct q; [congruence|reflexivity|reflexivity].
Qed.

Lemma quad_eval_ok : forall O (o : fobj (var2 O) (num O)) v, like o (quad_new O) ->
  exists o', fo_eval v o = RRet o' tt /\ like o' (quad_new O) /\ refreshed o o' v (fun q => q = QVal).
Proof.
  intros O o v L. pose proof (like_built O _ _ _ L (quad_built O)) as B. destruct (eval_refresh _ _ o _ v _ (quad_f O v) B eq_refl eq_refl) as (o' & E & B' & R).
  exists o'. split; [exact E|]. split; [|exact R]. exists (quad_family O). split; [exact B'|exact (quad_built O)].
Qed.
Lemma hex_eval_ok : forall O (o : fobj (var3 O) (num O)) v, like o (hex_new O) ->
  exists o', fo_eval v o = RRet o' tt /\ like o' (hex_new O) /\ refreshed o o' v (fun q => q = QVal).
Proof.
  intros O o v L. pose proof (like_built O _ _ _ L (hex_built O)) as B. destruct (eval_refresh _ _ o _ v _ (hex_f O v) B eq_refl eq_refl) as (o' & E & B' & R).
  exists o'. split; [exact E|]. split; [|exact R]. exists (hex_family O). split; [exact B'|exact (hex_built O)].
Qed.
