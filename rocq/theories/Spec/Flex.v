(** Specification vocabulary for functions made of simple functions. *)
From Coq Require Import ZArith List.
From Verif Require Import Model.Outcome Model.PSimple Model.FuncObj Model.PFlex Spec.Funcs.
Import ListNotations.

Section Flex.
Context {V A : Type}.

(** One description, one gradient component and one Hessian row per variable, one entry per variable in each row. *)
Definition consistent {X Y Z W : Type} (vars : list X) (descr : list Y) (g : list Z) (h : list (list W)) : Prop :=
  length descr = length vars /\ length g = length vars /\ length h = length vars /\ forall row, In row h -> length row = length vars.

(** The object's functions are those of [o], none of them missing. *)
Definition full (f : flex V A) (o : fobj V A) : Prop :=
  fl_val f = Some (fo_val o) /\ fl_grad f = map Some (fo_grad o) /\ fl_hess f = map (map Some) (fo_hess o).

Definition flex_evaluate (q : quantity) (v : V) : M (flex V A) A :=
  match q with
  | QVal => fl_call v
  | QGrad i => fl_call_grad v i
  | QHess i j => fl_call_hess v i j
  end.
Definition flex_stored (f : flex V A) (q : quantity) : outcome A :=
  match q with
  | QVal => fl_get f
  | QGrad i => fl_get_grad f i
  | QHess i j => fl_get_hess f i j
  end.
(** The simple function handed out for a quantity. *)
Definition flex_simple (f : flex V A) (q : quantity) : outcome (simplef V A) :=
  match q with
  | QVal => fl_simple f
  | QGrad i => fl_grad_simple f i
  | QHess i j => fl_hess_simple f i j
  end.

(** A client's history of evaluations, see Funcs.v. *)
Inductive flex_evaluations (F : family V A) : flex V A -> list (quantity * V) -> flex V A -> Prop :=
| FlNone : forall f, flex_evaluations F f [] f
| FlStep : forall f h f1 q v f2, flex_evaluations F f h f1 -> F q <> None ->
    ((exists a, flex_evaluate q v f1 = RRet f2 a) \/ (exists e, flex_evaluate q v f1 = RThrow f2 e)) ->
    flex_evaluations F f (h ++ [(q, v)]) f2.
End Flex.

(** What is in store at the beginning. *)
Definition initial {V A : Type} (o : fobj V A) : memory A := fun q => match stored o q with Ok a => Some a | _ => None end.
