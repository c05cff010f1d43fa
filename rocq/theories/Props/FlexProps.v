(** C30: stored results. C42: PFlexFunction. *)
From Coq Require Import ZArith List String.
From Verif Require Import Model.Outcome Model.PSimple Model.FuncObj Model.PFlex Spec.Funcs Spec.Flex Proofs.FlexP.
Import ListNotations.
Local Open Scope Z_scope.

(** C30. An evaluation returns what the getter returns afterwards, and disturbs no other stored result (Quad, Hexahedron, the functions of the
    sample library, and a single PSimpleBase as QVal). *)
Theorem C30_return_is_stored : forall (V A : Type) (o : fobj V A) F q v o' a,
  built_from o F -> F q <> None -> evaluate q v o = RRet o' a ->
  stored o' q = Ok a /\ forall q', q' <> q -> stored o' q' = stored o q'.
Proof. exact @return_is_stored. Qed.
Print Assumptions C30_return_is_stored.

Example C30_case : built_from xy xyF /\ xyF QVal <> None /\ exists o', evaluate QVal (2, 3) xy = RRet o' 6.
Proof. exact (conj xy_built (conj xy_has_val
  (ex_intro _ (set_memory xy (Some 6) None None) eq_refl))). Qed.

(** C30. After any history of evaluations, returning or throwing, each getter gives the last result computed for its quantity. *)
Theorem C30_history : forall (V A : Type) F (o : fobj V A) h o', built_from o F -> evaluations F o h o' ->
  forall q, F q <> None -> stored o' q = read_member (fold_left (recall F) h (initial o) q).
Proof. exact @stored_history. Qed.
Print Assumptions C30_history.

Example C30_case_history : exists o', evaluations xyF xy xy_hist o' /\ stored o' QVal = Ok 6 /\ stored o' (QGrad 1) = Ok 5 /\
  stored o' (QGrad 0) = UB UBUninit /\ stored o' (QHess 0 1) = Ok 1.
Proof. exact xy_history. Qed.

(** C30. A simple function of the base class itself throws and keeps what is stored. *)
Theorem C30_simple_base : forall (V A : Type) (s : simple V A) v, sp_eval s = base_eval -> sp_call v s = RThrow s RuntimeError.
Proof. exact @base_throws. Qed.
Print Assumptions C30_simple_base.

(** C30. The same for PFlexFunction. *)
Theorem C30_flex_return_is_stored : forall (V A : Type) (f : flex V A) o F q v f' a,
  full f o -> built_from o F -> F q <> None -> flex_evaluate q v f = RRet f' a ->
  flex_stored f' q = Ok a /\ forall q', q' <> q -> flex_stored f' q' = flex_stored f q'.
Proof. exact @flex_return_is_stored. Qed.
Print Assumptions C30_flex_return_is_stored.

Theorem C30_flex_history : forall (V A : Type) F (f : flex V A) o h f', full f o -> built_from o F -> flex_evaluations F f h f' ->
  forall q, F q <> None -> flex_stored f' q = read_member (fold_left (recall F) h (initial o) q).
Proof. exact @flex_stored_history. Qed.
Print Assumptions C30_flex_history.

Example C30_case_flex : full xy_flex xy /\ exists f', flex_evaluations xyF xy_flex [(QVal, (2, 3)); (QGrad 1, (5, 7))] f' /\
  flex_stored f' QVal = Ok 6 /\ flex_stored f' (QGrad 1) = Ok 5.
Proof. exact (conj xy_full xy_flex_history). Qed.

(** C30. eval stores the value, and nothing else. *)
Theorem C30_flex_eval : forall (V A : Type) (f : flex V A) o F v fn a, full f o -> built_from o F -> F QVal = Some fn -> fn v = Ok a ->
  exists f', fl_eval v f = RRet f' tt /\ flex_stored f' QVal = Ok a /\ forall q, q <> QVal -> flex_stored f' q = flex_stored f q.
Proof. exact @flex_eval. Qed.
Print Assumptions C30_flex_eval.

(** C30. eval_grad and eval_hess store every component, and nothing else. *)
Theorem C30_flex_eval_grad : forall (V A : Type) (f : flex V A) o F v, full f o -> built_from o F ->
  (forall i fn, F (QGrad i) = Some fn -> exists a, fn v = Ok a) ->
  exists f', fl_eval_grad v f = RRet f' tt /\
    (forall i fn, F (QGrad i) = Some fn -> flex_stored f' (QGrad i) = fn v) /\
    (forall q, (forall i, q <> QGrad i) -> flex_stored f' q = flex_stored f q).
Proof. exact @flex_eval_grad. Qed.
Print Assumptions C30_flex_eval_grad.

Theorem C30_flex_eval_hess : forall (V A : Type) (f : flex V A) o F v n, full f o -> built_from o F ->
  (forall i j, F (QHess i j) <> None <-> 0 <= i < n /\ 0 <= j < n) -> Z.of_nat (List.length (fl_hess f)) = n ->
  (forall i j fn, F (QHess i j) = Some fn -> exists a, fn v = Ok a) ->
  exists f', fl_eval_hess v f = RRet f' tt /\
    (forall i j fn, F (QHess i j) = Some fn -> flex_stored f' (QHess i j) = fn v) /\
    (forall q, (forall i j, q <> QHess i j) -> flex_stored f' q = flex_stored f q).
Proof. exact @flex_eval_hess. Qed.
Print Assumptions C30_flex_eval_hess.

Example C30_case_eval : (forall v, 0 <= fst v -> forall q fn, xyF q = Some fn -> exists a, fn v = Ok a) /\
  (forall i j, xyF (QHess i j) <> None <-> 0 <= i < 2 /\ 0 <= j < 2).
Proof. exact (conj xy_defined (consistent_hess _ _ _ _ xy_built xy_consistent)). Qed.

(** C42. The constructor keeps consistent inputs and exits on all others. *)
Theorem C42_make : forall (V A : Type) name vars descr (v : simplef V A) g h,
  (consistent vars descr g h -> fl_make name vars descr v g h = Ok (mkFlex name vars descr v g h)) /\
  (~ consistent vars descr g h -> fl_make name vars descr v g h = Exit).
Proof. exact @make_spec. Qed.
Print Assumptions C42_make.

(** C42. So does set, whatever the object held before, if no given function is missing. *)
Theorem C42_set : forall (V A : Type) rg rh rr name vars descr (o : fobj V A) f,
  let g := map Some (fo_grad o) in let h := map (map Some) (fo_hess o) in
  (consistent vars descr (fo_grad o) (fo_hess o) ->
    fl_set rg rh rr name vars descr (Some (fo_val o)) g h f = Ok (mkFlex name vars descr (Some (fo_val o)) g h)) /\
  (~ consistent vars descr (fo_grad o) (fo_hess o) -> fl_set rg rh rr name vars descr (Some (fo_val o)) g h f = Exit).
Proof. exact @set_spec. Qed.
Print Assumptions C42_set.

Example C42_case : consistent ["x"; "y"]%string ["first"; "second"]%string (fo_grad xy) (fo_hess xy) /\
  ~ consistent ["x"; "y"]%string ["first"; "second"]%string (fo_grad xy) [[sx "0" (fun _ => 0); sx "1" (fun _ => 1)]; [sx "1" (fun _ => 1)]].
Proof. exact (conj xy_consistent xy_short). Qed.

(** C42. The object's value, gradient and Hessian are those of the given functions. *)
Theorem C42_values : forall (V A : Type) (f : flex V A) o F, full f o -> built_from o F ->
  forall q fn v, F q = Some fn -> res_outcome (flex_evaluate q v f) = fn v.
Proof. exact @flex_value. Qed.
Print Assumptions C42_values.

Example C42_case_values : full xy_flex xy /\ built_from xy xyF /\ res_outcome (flex_evaluate (QGrad 0) (2, 3) xy_flex) = Ok 3 /\
  res_outcome (flex_evaluate (QHess 1 0) (-1, 3) xy_flex) = Throw DomainError.
Proof. exact (conj xy_full (conj xy_built (conj eq_refl eq_refl))). Qed.

(** C42. The simple functions handed out are copies of the given functions, with the results stored so far. *)
Theorem C42_hands_out : forall (V A : Type) (f : flex V A) o F q fn, full f o -> built_from o F -> F q = Some fn ->
  exists s, flex_simple f q = Ok (Some s) /\ (forall v, res_outcome (sf_do (sp_call v) (Some s)) = fn v) /\ sf_get (Some s) = flex_stored f q.
Proof. exact @flex_hands_out. Qed.
Print Assumptions C42_hands_out.

Example C42_case_hands_out : exists s, flex_simple xy_flex (QHess 1 0) = Ok s /\ res_outcome (sf_do (sp_call (2, 3)) s) = Ok 1.
Proof. exact (ex_intro _ _ (conj eq_refl eq_refl)). Qed.

(** C42. With consistent lists the existing components are those of the variables. *)
Theorem C42_components : forall (V A : Type) (vars descr : list string) (o : fobj V A) F, built_from o F -> consistent vars descr (fo_grad o) (fo_hess o) ->
  forall i j, F (QHess i j) <> None <-> 0 <= i < Z.of_nat (List.length vars) /\ 0 <= j < Z.of_nat (List.length vars).
Proof. exact @consistent_hess. Qed.
Print Assumptions C42_components.

(** C42. clear() is undefined behaviour on every object. *)
Theorem C42_clear_undefined : forall (V A : Type) (f : flex V A), fl_clear f = UB UBNull.
Proof. exact @clear_bad. Qed.
Print Assumptions C42_clear_undefined.

(** C42. Copying is undefined behaviour exactly for an object without a value function, such as a default-constructed one. *)
Theorem C42_copy : forall (V A : Type) (f : flex V A), fl_copy f = match fl_val f with None => UB UBNull | Some _ => Ok f end.
Proof. exact @copy_spec. Qed.
Print Assumptions C42_copy.

Theorem C42_copy_default_refuted : exists f : flex (Z * Z) Z, f = fl_default /\ fl_copy f = UB UBNull /\ fl_clone f = UB UBNull.
Proof. exact (ex_intro _ fl_default (conj eq_refl (conj eq_refl eq_refl))). Qed.
Print Assumptions C42_copy_default_refuted.

(** C42. Assignment is undefined behaviour always: operator= does not return. *)
Theorem C42_assign_undefined : forall (V A : Type) rg rh rr (r f : flex V A), exists u, fl_assign rg rh rr r f = UB u.
Proof. exact @assign_bad. Qed.
Print Assumptions C42_assign_undefined.

Example C42_case_assign : fl_assign true true (fun _ => true) xy_flex xy_flex = UB UBNoReturn /\ fl_copy xy_flex = Ok xy_flex.
Proof. exact (conj eq_refl eq_refl). Qed.
