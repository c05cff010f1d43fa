(** C61: hard-coded function objects and their parts. *)
From Coq Require Import ZArith QArith List String Bool.
From Verif Require Import Model.Outcome Model.Num Model.NumInst Model.PSimple Model.FuncObj Model.Quad Model.Hexahedron Model.Samples Model.Parts Model.PartsClasses.
From Verif Require Import Spec.Funcs Spec.Parts.
From Verif Require Import Proofs.PartsUseP Proofs.PartsExamples.
Import ListNotations.
Open Scope Z_scope.

(** C61. Whatever a program does with objects of a class, it sees what it would see if objects were values: the same numbers, parts and exceptions, and
    the same undefined behaviour (of a dead variable, a subscript out of range, a result never stored) and no other. Copies are independent of the
    original. Classes that keep results may be assigned; Quad and Hexahedron only to themselves; the pieces of MyPieceWiseFunc never. *)
Theorem C61_objects_are_values : forall (V A : Type) (c : pclass V A) n os, class_of_arity c n -> Forall (allowed (pc_copying c)) os ->
  (let* r := parts_run c os in Ok (snd r)) = (let* r := values_run c (keeps (pc_copying c)) os in Ok (snd r)).
Proof. exact (fun V A => @same_answers V A). Qed.
Print Assumptions C61_objects_are_values.

(** C61. After any such program the memory held is that of the objects alive and nothing else. *)
Theorem C61_nothing_leaks : forall (V A : Type) (c : pclass V A) n os m a, class_of_arity c n -> Forall (allowed (pc_copying c)) os -> parts_run c os = Ok (m, a) ->
  exists vs, values_run c (keeps (pc_copying c)) os = Ok (vs, a) /\ holds_objects n (alive vs) m.
Proof. exact (fun V A => @same_memory V A). Qed.
Print Assumptions C61_nothing_leaks.

(** The classes meant. *)
Theorem C61_classes : forall (O : NumOps) pw piece, class_of_arity (quad_class O) 2 /\ class_of_arity (hexahedron_class O) 3 /\
  class_of_arity (quadratic_class O pw) 1 /\ class_of_arity (myfunc_class O pw) 2 /\ class_of_arity (piece_class O pw piece) 2.
Proof. exact classes. Qed.
Print Assumptions C61_classes.

Example C61_case_myfunc :
  let os := [PNew; PCall 0 QVal [2; -1]%Q; PCopy 0; PCall 0 QVal [1; 1]%Q; PNew; PAssign 2 1; PGet 2 QVal; PGet 0 QVal; PDestroy 1; PDestroy 0] in
  let c := myfunc_class QOps (fun a _ => a) in
  (let* r := parts_run c os in Ok (snd r)) = Ok [Done; Number 5; Done; Number 4; Done; Done; Number 5; Number 4; Done; Done]%Q /\
  match parts_run c os with Ok (m, _) => holds_objects 2 1 m | _ => False end.
Proof. exact myfunc_program. Qed.

(** C61, class by class: Quadratic and MyFunc are values whose copies keep the stored results, in every program; Quad, Hexahedron and the pieces are
    values whose copies are as new. *)
Theorem C61_quadratic_copies_keep : forall (O : NumOps) pw os,
  (let* r := parts_run (quadratic_class O pw) os in Ok (snd r)) = (let* r := values_run (quadratic_class O pw) true os in Ok (snd r)).
Proof. exact quadratic_keeps. Qed.
Print Assumptions C61_quadratic_copies_keep.
Theorem C61_myfunc_copies_keep : forall (O : NumOps) pw os,
  (let* r := parts_run (myfunc_class O pw) os in Ok (snd r)) = (let* r := values_run (myfunc_class O pw) true os in Ok (snd r)).
Proof. exact myfunc_keeps. Qed.
Print Assumptions C61_myfunc_copies_keep.
Theorem C61_quad_copies_are_new : forall (O : NumOps) os, Forall (allowed Fresh) os ->
  (let* r := parts_run (quad_class O) os in Ok (snd r)) = (let* r := values_run (quad_class O) false os in Ok (snd r)).
Proof. exact quad_forgets. Qed.
Print Assumptions C61_quad_copies_are_new.
Theorem C61_hexahedron_copies_are_new : forall (O : NumOps) os, Forall (allowed Fresh) os ->
  (let* r := parts_run (hexahedron_class O) os in Ok (snd r)) = (let* r := values_run (hexahedron_class O) false os in Ok (snd r)).
Proof. exact hexahedron_forgets. Qed.
Print Assumptions C61_hexahedron_copies_are_new.
Theorem C61_piece_copies_are_new : forall (O : NumOps) pw piece os, Forall (allowed Sharing) os ->
  (let* r := parts_run (piece_class O pw piece) os in Ok (snd r)) = (let* r := values_run (piece_class O pw piece) false os in Ok (snd r)).
Proof. exact piece_forgets. Qed.
Print Assumptions C61_piece_copies_are_new.

(** C61. eval_grad and eval_hess of a new object store every derivative, as its part computes it; Hexahedron's leave those with respect to the third
    variable without a value. *)
Theorem C61_quad_eval : forall (O : NumOps) v i j, 0 <= i < 2 -> 0 <= j < 2 ->
  after_new (quad_class O) (PEvalGrad 0 v) (QGrad i) = computed (quad_new O) (QGrad i) v /\
  after_new (quad_class O) (PEvalHess 0 v) (QHess i j) = computed (quad_new O) (QHess i j) v.
Proof. exact quad_stores. Qed.
Print Assumptions C61_quad_eval.
Theorem C61_hexahedron_eval : forall (O : NumOps) v i j, 0 <= i < 3 -> 0 <= j < 3 ->
  after_new (hexahedron_class O) (PEvalGrad 0 v) (QGrad i) = (if i =? 2 then UB UBUninit else computed (hex_new O) (QGrad i) v) /\
  after_new (hexahedron_class O) (PEvalHess 0 v) (QHess i j) = (if (i =? 2) || (j =? 2) then UB UBUninit else computed (hex_new O) (QHess i j) v).
Proof. exact hexahedron_stores. Qed.
Print Assumptions C61_hexahedron_eval.
Theorem C61_quadratic_eval : forall (O : NumOps) pw v, List.length v = 1%nat ->
  after_new (quadratic_class O pw) (PEvalGrad 0 v) (QGrad 0) = computed (quadratic O pw) (QGrad 0) v /\
  after_new (quadratic_class O pw) (PEvalHess 0 v) (QHess 0 0) = computed (quadratic O pw) (QHess 0 0) v.
Proof. exact quadratic_stores. Qed.
Print Assumptions C61_quadratic_eval.
Theorem C61_myfunc_eval : forall (O : NumOps) pw v i j, 0 <= i < 2 -> 0 <= j < 2 -> List.length v = 2%nat ->
  after_new (myfunc_class O pw) (PEvalGrad 0 v) (QGrad i) = computed (myfunc O pw) (QGrad i) v /\
  after_new (myfunc_class O pw) (PEvalHess 0 v) (QHess i j) = computed (myfunc O pw) (QHess i j) v.
Proof. exact myfunc_stores. Qed.
Print Assumptions C61_myfunc_eval.
Theorem C61_piece_eval : forall (O : NumOps) pw piece v i j, 0 <= i < 2 -> 0 <= j < 2 -> List.length v = 2%nat -> In piece ["piece0"; "piece1"; "piece2"]%string ->
  after_new (piece_class O pw piece) (PEvalGrad 0 v) (QGrad i) = computed (mypiece O pw piece) (QGrad i) v /\
  after_new (piece_class O pw piece) (PEvalHess 0 v) (QHess i j) = computed (mypiece O pw piece) (QHess i j) v.
Proof. exact piece_stores. Qed.
Print Assumptions C61_piece_eval.

Example C61_case_eval : let c := myfunc_class QOps (fun a _ => a) in
  after_new c (PEvalGrad 0 [2; -1]%Q) (QGrad 1) = Ok (Number 3%Q) /\ after_new c (PEvalHess 0 [2; -1]%Q) (QHess 0 1) = Ok (Number 2%Q) /\
  after_new c (PEvalGrad 0 [2; -1]%Q) (QHess 0 1) = UB UBUninit.
Proof. exact myfunc_evaluated. Qed.

(** C61. Copies and clones of Quad, Hexahedron and the pieces of MyPieceWiseFunc have no results: reading one is undefined. *)
Theorem C61_copies_forget : forall (V A : Type) (c : pclass V A) n os vs a x v q s, class_of_arity c n -> keeps (pc_copying c) = false ->
  Forall (allowed (pc_copying c)) os -> values_run c false os = Ok (vs, a) -> nth_error vs x = Some (Some v) -> part_of (pc_parts c) q = Ok s ->
  parts_run c (os ++ [PCopy x; PGet (List.length vs) q]) = UB UBUninit.
Proof. exact (fun V A => @copy_forgets V A). Qed.
Print Assumptions C61_copies_forget.

(** C61 refuted: a program that is fine if copies keep results is undefined with Quad. *)
Theorem C61_copies_keep_refuted : exists (os : list (parts_op (var2 QOps))) a, (let* r := values_run (quad_class QOps) true os in Ok (snd r)) = Ok a /\
  parts_run (quad_class QOps) os = UB UBUninit.
Proof. exact quad_copy_loses. Qed.
Print Assumptions C61_copies_keep_refuted.

(** C61. Quad and Hexahedron have the implicit assignment: after x = y the two have the same parts. Destroying both frees them twice... *)
Theorem C61_assigned_parts_freed_twice : forall (V A : Type) (c : pclass V A) n os vs an x y v w a b, class_of_arity c n -> pc_copying c = Fresh ->
  Forall (allowed Fresh) os -> values_run c false os = Ok (vs, an) -> nth_error vs x = Some (Some v) -> nth_error vs y = Some (Some w) -> x <> y ->
  (a = x /\ b = y \/ a = y /\ b = x) -> parts_run c (os ++ [PAssign x y; PDestroy a; PDestroy b]) = UB UBDoubleFree.
Proof. exact (fun V A => @assign_double_free V A). Qed.
Print Assumptions C61_assigned_parts_freed_twice.

(** ... and destroying one leaves the other without parts. *)
Theorem C61_assigned_parts_gone : forall (V A : Type) (c : pclass V A) n os vs an x y v w a b q var, class_of_arity c n -> pc_copying c = Fresh ->
  Forall (allowed Fresh) os -> values_run c false os = Ok (vs, an) -> nth_error vs x = Some (Some v) -> nth_error vs y = Some (Some w) -> x <> y ->
  (a = x /\ b = y \/ a = y /\ b = x) -> parts_run c (os ++ [PAssign x y; PDestroy a; PCall b q var]) = UB UBDangling.
Proof. exact (fun V A => @assign_dangling V A). Qed.
Print Assumptions C61_assigned_parts_gone.

Example C61_case_quad : let c := quad_class QOps in
  let at1 := mkVar2 (O := QOps) (1, 1)%Q (0, 0)%Q (2, 4)%Q (1, 1)%Q in let os := [PNew; PCall 0 QVal at1; PNew; PEvalGrad 1 at1] in Forall (allowed Fresh) os /\
  match values_run c false os with
  | Ok (vs, _) =>
      match nth_error vs 0, nth_error vs 1 with
      | Some (Some v), Some (Some w) => fo_get v = Ok (3 # 8)%Q /\ fo_get_grad w 0 = Ok (-(3) # 8)%Q /\ fo_get w = UB UBUninit
      | _, _ => False
      end
  | _ => False
  end.
Proof. exact quad_program. Qed.

(** C61 refuted for assignment: fine with values, a double free with Quad. *)
Theorem C61_assignment_refuted : exists (os : list (parts_op (var2 QOps))) a, (let* r := values_run (quad_class QOps) true os in Ok (snd r)) = Ok a /\
  parts_run (quad_class QOps) os = UB UBDoubleFree.
Proof. exact quad_assign_frees. Qed.
Print Assumptions C61_assignment_refuted.

(** C61. The assignment of the pieces of MyPieceWiseFunc ends without the value it should return. *)
Theorem C61_piece_assignment : forall (V A : Type) (c : pclass V A) n os vs an x y v w, class_of_arity c n -> pc_copying c = Sharing ->
  Forall (allowed Sharing) os -> values_run c false os = Ok (vs, an) -> nth_error vs x = Some (Some v) -> nth_error vs y = Some (Some w) ->
  parts_run c (os ++ [PAssign x y]) = UB UBNoReturn.
Proof. exact (fun V A => @assign_no_return V A). Qed.
Print Assumptions C61_piece_assignment.

Example C61_case_piece : let c := piece_class QOps (fun a _ => a) "piece0" in let os := [PNew; PCall 0 QVal [3; 1]%Q; PCopy 0; PGet 0 QVal] in
  Forall (allowed Sharing) os /\
  match values_run c false os with
  | Ok (vs, _) =>
      match nth_error vs 0, nth_error vs 1 with
      | Some (Some v), Some (Some w) => fo_get v = Ok 3%Q /\ fo_get w = UB UBUninit
      | _, _ => False
      end
  | _ => False
  end.
Proof. exact piece_program. Qed.

Theorem C61_piece_assignment_refuted : exists (os : list (parts_op (list Q))) a,
  (let* r := values_run (piece_class QOps (fun a _ => a) "piece0") true os in Ok (snd r)) = Ok a /\
  parts_run (piece_class QOps (fun a _ => a) "piece0") os = UB UBNoReturn.
Proof. exact piece_assign_ends. Qed.
Print Assumptions C61_piece_assignment_refuted.
