(** The conditions of a piece store their results: C40. *)
From Coq Require Import ZArith List Bool String.
From Verif Require Import Model.Outcome Model.PSimple Model.FuncObj Model.Piecewise.
From Verif Require Import Spec.Funcs Spec.Piecewise.
Import ListNotations.

Section Conditions.
Context {V T : Type}.

Lemma call_condition : forall v b (c : simple V bool), sp_eval c v = Ok b -> exists c', sp_call v c = RRet c' b /\ condition_after v b c c'.
Proof.
  intros v b c E. exists (mkSimple (sp_name c) (sp_eval c) (Some b)). unfold sp_call, mbind, mget, mlift, mput, mret. rewrite E. repeat split; auto.
Qed.

Lemma calls_hold : forall v (cs : list (simple V bool)), Forall (fun c => sp_eval c v = Ok true) cs ->
  exists cs', conds_call v cs = RRet cs' true /\ Forall2 (condition_after v true) cs cs'.
Proof.
  intros v cs H. induction H as [|c cs E H (cs' & E' & IH)]; [exists []; split; [reflexivity|constructor]|].
  destruct (call_condition v true c E) as (c' & Ec & Hc). exists (c' :: cs'). cbn [conds_call app]. rewrite Ec, E'. split; [reflexivity|]. constructor; assumption.
Qed.
Lemma calls_stop : forall v (cs1 : list (simple V bool)) c cs2, Forall (fun c => sp_eval c v = Ok true) cs1 -> sp_eval c v = Ok false ->
  exists cs' c', conds_call v (cs1 ++ c :: cs2) = RRet (cs' ++ c' :: cs2) false /\ Forall2 (condition_after v true) cs1 cs' /\ condition_after v false c c'.
Proof.
  intros v cs1 c cs2 H E. destruct (call_condition v false c E) as (c' & Ec & Hc). induction H as [|d cs1 Ed H (cs' & c1 & E' & IH & Hc1)].
  - exists [], c'. cbn [conds_call app]. rewrite Ec. split; [reflexivity|]. split; [constructor|exact Hc].
  - destruct (call_condition v true d Ed) as (d' & Edd & Hd). exists (d' :: cs'), c1. cbn [conds_call app]. rewrite Edd, E'. split; [reflexivity|]. split; [constructor; assumption|exact Hc1].
Qed.
Lemma calls_throw : forall v (cs1 : list (simple V bool)) c cs2 e, Forall (fun c => sp_eval c v = Ok true) cs1 -> sp_eval c v = Throw e ->
  exists cs', conds_call v (cs1 ++ c :: cs2) = RThrow (cs' ++ c :: cs2) e /\ Forall2 (condition_after v true) cs1 cs'.
Proof.
  intros v cs1 c cs2 e H E. induction H as [|d cs1 Ed H (cs' & E' & IH)].
  - exists []. cbn [conds_call app]. unfold sp_call, mbind, mget, mlift. rewrite E. split; [reflexivity|constructor].
  - destruct (call_condition v true d Ed) as (d' & Edd & Hd). exists (d' :: cs'). cbn [conds_call app]. rewrite Edd, E'. split; [reflexivity|]. constructor; assumption.
Qed.

Lemma piece_hold : forall v (p : piece V T), Forall (fun c => sp_eval c v = Ok true) (pc_get_condition p) ->
  exists p', pc_in_piece v p = RRet p' true /\ pc_get_expr p' = pc_get_expr p /\ Forall2 (condition_after v true) (pc_get_condition p) (pc_get_condition p').
Proof.
  intros v p H. destruct (calls_hold v _ H) as (cs' & E & F). exists (mkPiece (pc_expr p) cs'). unfold pc_in_piece. change (pc_cond p) with (pc_get_condition p). rewrite E.
  split; [reflexivity|]. split; [reflexivity|exact F].
Qed.
Lemma piece_stop : forall v (p : piece V T) cs1 c cs2, pc_get_condition p = cs1 ++ c :: cs2 -> Forall (fun c => sp_eval c v = Ok true) cs1 -> sp_eval c v = Ok false ->
  exists p' cs' c', pc_in_piece v p = RRet p' false /\ pc_get_expr p' = pc_get_expr p /\ pc_get_condition p' = cs' ++ c' :: cs2 /\
    Forall2 (condition_after v true) cs1 cs' /\ condition_after v false c c'.
Proof.
  intros v p cs1 c cs2 Ep H Ec. destruct (calls_stop v cs1 c cs2 H Ec) as (cs' & c' & E & F & G). exists (mkPiece (pc_expr p) (cs' ++ c' :: cs2)), cs', c'.
  unfold pc_in_piece. change (pc_cond p) with (pc_get_condition p). rewrite Ep, E. auto.
Qed.
Lemma piece_throw : forall v (p : piece V T) cs1 c cs2 e, pc_get_condition p = cs1 ++ c :: cs2 -> Forall (fun c => sp_eval c v = Ok true) cs1 -> sp_eval c v = Throw e ->
  exists p' cs', pc_in_piece v p = RThrow p' e /\ pc_get_expr p' = pc_get_expr p /\ pc_get_condition p' = cs' ++ c :: cs2 /\ Forall2 (condition_after v true) cs1 cs'.
Proof.
  intros v p cs1 c cs2 e Ep H Ec. destruct (calls_throw v cs1 c cs2 e H Ec) as (cs' & E & F). exists (mkPiece (pc_expr p) (cs' ++ c :: cs2)), cs'.
  unfold pc_in_piece. change (pc_cond p) with (pc_get_condition p). rewrite Ep, E. auto.
Qed.

(** Evaluating the piece leaves the conditions alone. *)
Lemma piece_ask : forall (A : Type) (K : fclass V A T) q v (p : piece V T),
  match ask (piece_class K) q v p with
  | RRet p' _ | RThrow p' _ => pc_get_condition p' = pc_get_condition p
  | _ => True
  end.
Proof.
  intros A K q v p. destruct q as [|i|i j]; cbn [ask piece_class k_call k_call_grad k_call_hess]; unfold on_expr;
    [destruct (k_call K v (pc_expr p))|destruct (k_call_grad K v i (pc_expr p))|destruct (k_call_hess K v i j (pc_expr p))]; reflexivity || exact I.
Qed.
End Conditions.
