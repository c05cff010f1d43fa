(** Property C40: the stored results of a piece's conditions. *)
From Coq Require Import ZArith List Bool String.
From Verif Require Import Model.Outcome Model.PSimple Model.FuncObj Model.Piecewise.
From Verif Require Import Spec.Funcs Spec.Piecewise.
From Verif Require Import Proofs.ConditionsP.
Import ListNotations.

(** C40. in_piece where all conditions hold: every condition, as condition() returns it, has "true" in store; expression, names and functions are as before. *)
Theorem C40_conditions_hold : forall (V T : Type) v (p : piece V T), Forall (fun c => sp_eval c v = Ok true) (pc_get_condition p) ->
  exists p', pc_in_piece v p = RRet p' true /\ pc_get_expr p' = pc_get_expr p /\ Forall2 (condition_after v true) (pc_get_condition p) (pc_get_condition p').
Proof. exact @piece_hold. Qed.
Print Assumptions C40_conditions_hold.

(** C40. Where a condition is false: those before it have "true" in store, it has "false", those after it are not evaluated and keep what they had. *)
Theorem C40_conditions_fail : forall (V T : Type) v (p : piece V T) cs1 c cs2, pc_get_condition p = cs1 ++ c :: cs2 ->
  Forall (fun c => sp_eval c v = Ok true) cs1 -> sp_eval c v = Ok false ->
  exists p' cs' c', pc_in_piece v p = RRet p' false /\ pc_get_expr p' = pc_get_expr p /\ pc_get_condition p' = cs' ++ c' :: cs2 /\
    Forall2 (condition_after v true) cs1 cs' /\ condition_after v false c c'.
Proof. exact @piece_stop. Qed.
Print Assumptions C40_conditions_fail.

(** C40. Where a condition throws: it and those after it keep what they had. *)
Theorem C40_conditions_throw : forall (V T : Type) v (p : piece V T) cs1 c cs2 e, pc_get_condition p = cs1 ++ c :: cs2 ->
  Forall (fun c => sp_eval c v = Ok true) cs1 -> sp_eval c v = Throw e ->
  exists p' cs', pc_in_piece v p = RThrow p' e /\ pc_get_expr p' = pc_get_expr p /\ pc_get_condition p' = cs' ++ c :: cs2 /\ Forall2 (condition_after v true) cs1 cs'.
Proof. exact @piece_throw. Qed.
Print Assumptions C40_conditions_throw.

(** C40. Evaluating the piece itself does not touch the conditions, returning or throwing. *)
Theorem C40_conditions_kept : forall (V T A : Type) (K : fclass V A T) q v (p : piece V T),
  match ask (piece_class K) q v p with
  | RRet p' _ | RThrow p' _ => pc_get_condition p' = pc_get_condition p
  | _ => True
  end.
Proof. exact @piece_ask. Qed.
Print Assumptions C40_conditions_kept.

(** For instance the conditions 0 < n, n < 5, and one that throws, of an expression that is itself a number: at 3 and at 7. *)
Example C40_case_conditions :
  let c1 := mkSimple "0<n"%string (fun n => Ok (Z.ltb 0 n)) None in let c2 := mkSimple "n<5"%string (fun n => Ok (Z.ltb n 5)) None in
  let c3 := mkSimple "bad"%string (fun _ => Throw DomainError) (Some true) in
  let p := mkPiece 42%Z [c1; c2; c3] in
  (pc_get_condition p = [c1; c2] ++ c3 :: [] /\ Forall (fun c => sp_eval c 3%Z = Ok true) [c1; c2] /\ sp_eval c3 3%Z = Throw DomainError) /\
  (pc_get_condition p = [c1] ++ c2 :: [c3] /\ Forall (fun c => sp_eval c 7%Z = Ok true) [c1] /\ sp_eval c2 7%Z = Ok false) /\
  Forall (fun c => sp_eval c 3%Z = Ok true) (pc_get_condition (mkPiece 42%Z [c1; c2])) /\
  match pc_in_piece 7%Z p with RRet p' _ => map sp_get (pc_get_condition p') = [Ok true; Ok false; Ok true] | _ => False end.
Proof. repeat split; repeat constructor. Qed.
