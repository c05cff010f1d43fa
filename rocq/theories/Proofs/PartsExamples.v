(** Cases for PartsProps.v: the classes of the library and of its tests. *)
From Coq Require Import ZArith QArith List String Bool Lia.
From Verif Require Import Model.Outcome Model.Num Model.NumInst Model.PSimple Model.Wrapper Model.FuncObj Model.Quad Model.Hexahedron Model.Samples Model.Parts Model.PartsClasses.
From Verif Require Import Spec.Funcs Spec.Parts.
From Verif Require Import Proofs.PartsUseP.
Import ListNotations.
Open Scope Z_scope.

Lemma classes (O : NumOps) pw piece : class_of_arity (quad_class O) 2 /\ class_of_arity (hexahedron_class O) 3 /\ class_of_arity (quadratic_class O pw) 1 /\
  class_of_arity (myfunc_class O pw) 2 /\ class_of_arity (piece_class O pw piece) 2.
Proof. repeat split; repeat constructor. Qed.

Lemma myfunc_program :
  let os := [PNew; PCall 0 QVal [2; -1]%Q; PCopy 0; PCall 0 QVal [1; 1]%Q; PNew; PAssign 2 1; PGet 2 QVal; PGet 0 QVal; PDestroy 1; PDestroy 0] in
  let c := myfunc_class QOps (fun a _ => a) in
  (let* r := parts_run c os in Ok (snd r)) = Ok [Done; Number 5; Done; Number 4; Done; Done; Number 5; Number 4; Done; Done]%Q /\
  match parts_run c os with Ok (m, _) => holds_objects 2 1 m | _ => False end.
Proof.
  intros os c. split; [vm_compute; reflexivity|]. vm_compute. repeat split.
Qed.

Lemma quad_copy_loses : exists (os : list (parts_op (var2 QOps))) a, (let* r := values_run (quad_class QOps) true os in Ok (snd r)) = Ok a /\
  parts_run (quad_class QOps) os = UB UBUninit.
Proof.
  exists [PNew; PCall 0 QVal (mkVar2 (O := QOps) (1, 1)%Q (0, 0)%Q (2, 4)%Q (1, 1)%Q); PCopy 0; PGet 1 QVal]. eexists. split; vm_compute; reflexivity.
Qed.

Lemma quad_assign_frees : exists (os : list (parts_op (var2 QOps))) a, (let* r := values_run (quad_class QOps) true os in Ok (snd r)) = Ok a /\
  parts_run (quad_class QOps) os = UB UBDoubleFree.
Proof.
  exists [PNew; PNew; PAssign 0 1; PDestroy 0; PDestroy 1]. eexists. split; vm_compute; reflexivity.
Qed.

Lemma piece_assign_ends : exists (os : list (parts_op (list Q))) a, (let* r := values_run (piece_class QOps (fun a _ => a) "piece0") true os in Ok (snd r)) = Ok a /\
  parts_run (piece_class QOps (fun a _ => a) "piece0") os = UB UBNoReturn.
Proof.
  exists [PNew; PNew; PAssign 0 1]. eexists. split; vm_compute; reflexivity.
Qed.

Lemma quad_program : let c := quad_class QOps in
  let at1 := mkVar2 (O := QOps) (1, 1)%Q (0, 0)%Q (2, 4)%Q (1, 1)%Q in let os := [PNew; PCall 0 QVal at1; PNew; PEvalGrad 1 at1] in Forall (allowed Fresh) os /\
  match values_run c false os with
  | Ok (vs, _) =>
      match nth_error vs 0, nth_error vs 1 with
      | Some (Some v), Some (Some w) => fo_get v = Ok (3 # 8)%Q /\ fo_get_grad w 0 = Ok (-(3) # 8)%Q /\ fo_get w = UB UBUninit
      | _, _ => False
      end
  | _ => False
  end.
Proof. intros c at1 os. split; [repeat constructor|]. vm_compute. repeat split. Qed.

Lemma piece_program : let c := piece_class QOps (fun a _ => a) "piece0" in let os := [PNew; PCall 0 QVal [3; 1]%Q; PCopy 0; PGet 0 QVal] in
  Forall (allowed Sharing) os /\
  match values_run c false os with
  | Ok (vs, _) =>
      match nth_error vs 0, nth_error vs 1 with
      | Some (Some v), Some (Some w) => fo_get v = Ok 3%Q /\ fo_get w = UB UBUninit
      | _, _ => False
      end
  | _ => False
  end.
Proof. intros c os. split; [repeat constructor|]. vm_compute. repeat split. Qed.

(** ** The classes one by one *)

Lemma anything_allowed {V : Type} (os : list (parts_op V)) : Forall (allowed Keeping) os.
Proof. apply Forall_forall. intros o _. destruct o; exact Logic.I. Qed.

Lemma quadratic_keeps (O : NumOps) pw os :
  (let* r := parts_run (quadratic_class O pw) os in Ok (snd r)) = (let* r := values_run (quadratic_class O pw) true os in Ok (snd r)).
Proof. exact (same_answers (quadratic_class O pw) 1 os (proj1 (proj2 (proj2 (classes O pw EmptyString)))) (anything_allowed os)). Qed.
Lemma myfunc_keeps (O : NumOps) pw os :
  (let* r := parts_run (myfunc_class O pw) os in Ok (snd r)) = (let* r := values_run (myfunc_class O pw) true os in Ok (snd r)).
Proof. exact (same_answers (myfunc_class O pw) 2 os (proj1 (proj2 (proj2 (proj2 (classes O pw EmptyString))))) (anything_allowed os)). Qed.
Lemma quad_forgets (O : NumOps) os : Forall (allowed Fresh) os ->
  (let* r := parts_run (quad_class O) os in Ok (snd r)) = (let* r := values_run (quad_class O) false os in Ok (snd r)).
Proof. exact (same_answers (quad_class O) 2 os (proj1 (classes O (fun a _ => a) EmptyString))). Qed.
Lemma hexahedron_forgets (O : NumOps) os : Forall (allowed Fresh) os ->
  (let* r := parts_run (hexahedron_class O) os in Ok (snd r)) = (let* r := values_run (hexahedron_class O) false os in Ok (snd r)).
Proof. exact (same_answers (hexahedron_class O) 3 os (proj1 (proj2 (classes O (fun a _ => a) EmptyString)))). Qed.
Lemma piece_forgets (O : NumOps) pw nm os : Forall (allowed Sharing) os ->
  (let* r := parts_run (piece_class O pw nm) os in Ok (snd r)) = (let* r := values_run (piece_class O pw nm) false os in Ok (snd r)).
Proof. exact (same_answers (piece_class O pw nm) 2 os (proj2 (proj2 (proj2 (proj2 (classes O pw nm)))))). Qed.

Lemma below2 i : 0 <= i < 2 -> i = 0 \/ i = 1.
Proof. lia. Qed.
Lemma below3 i : 0 <= i < 3 -> i = 0 \/ i = 1 \/ i = 2.
Proof. lia. Qed.

Lemma quad_stores (O : NumOps) v i j : 0 <= i < 2 -> 0 <= j < 2 ->
  after_new (quad_class O) (PEvalGrad 0 v) (QGrad i) = computed (quad_new O) (QGrad i) v /\
  after_new (quad_class O) (PEvalHess 0 v) (QHess i j) = computed (quad_new O) (QHess i j) v.
Proof. intros Hi Hj. destruct (below2 i Hi) as [-> | ->], (below2 j Hj) as [-> | ->]; split; reflexivity. Qed.
Lemma hexahedron_stores (O : NumOps) v i j : 0 <= i < 3 -> 0 <= j < 3 ->
  after_new (hexahedron_class O) (PEvalGrad 0 v) (QGrad i) = (if i =? 2 then UB UBUninit else computed (hex_new O) (QGrad i) v) /\
  after_new (hexahedron_class O) (PEvalHess 0 v) (QHess i j) = (if (i =? 2) || (j =? 2) then UB UBUninit else computed (hex_new O) (QHess i j) v).
Proof. intros Hi Hj. destruct (below3 i Hi) as [-> |[-> | ->]], (below3 j Hj) as [-> |[-> | ->]]; split; reflexivity. Qed.
Lemma quadratic_stores (O : NumOps) pw v : List.length v = 1%nat ->
  after_new (quadratic_class O pw) (PEvalGrad 0 v) (QGrad 0) = computed (quadratic O pw) (QGrad 0) v /\
  after_new (quadratic_class O pw) (PEvalHess 0 v) (QHess 0 0) = computed (quadratic O pw) (QHess 0 0) v.
Proof. destruct v as [|x [|y l]]; try discriminate. intros _. split; reflexivity. Qed.
Lemma myfunc_stores (O : NumOps) pw v i j : 0 <= i < 2 -> 0 <= j < 2 -> List.length v = 2%nat ->
  after_new (myfunc_class O pw) (PEvalGrad 0 v) (QGrad i) = computed (myfunc O pw) (QGrad i) v /\
  after_new (myfunc_class O pw) (PEvalHess 0 v) (QHess i j) = computed (myfunc O pw) (QHess i j) v.
Proof. destruct v as [|x [|y [|z l]]]; try discriminate. intros Hi Hj _. destruct (below2 i Hi) as [-> | ->], (below2 j Hj) as [-> | ->]; split; reflexivity. Qed.
Lemma piece_stores (O : NumOps) pw nm v i j : 0 <= i < 2 -> 0 <= j < 2 -> List.length v = 2%nat -> In nm ["piece0"; "piece1"; "piece2"]%string ->
  after_new (piece_class O pw nm) (PEvalGrad 0 v) (QGrad i) = computed (mypiece O pw nm) (QGrad i) v /\
  after_new (piece_class O pw nm) (PEvalHess 0 v) (QHess i j) = computed (mypiece O pw nm) (QHess i j) v.
Proof. destruct v as [|x [|y [|z l]]]; try discriminate. intros Hi Hj _ Hn. destruct (below2 i Hi) as [-> | ->], (below2 j Hj) as [-> | ->];
  repeat (destruct Hn as [<- | Hn]; [split; reflexivity|]); destruct Hn. Qed.
Lemma myfunc_evaluated : let c := myfunc_class QOps (fun a _ => a) in
  after_new c (PEvalGrad 0 [2; -1]%Q) (QGrad 1) = Ok (Number 3%Q) /\ after_new c (PEvalHess 0 [2; -1]%Q) (QHess 0 1) = Ok (Number 2%Q) /\
  after_new c (PEvalGrad 0 [2; -1]%Q) (QHess 0 1) = UB UBUninit.
Proof. vm_compute. repeat split. Qed.
