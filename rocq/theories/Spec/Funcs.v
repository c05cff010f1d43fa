(** Specification vocabulary for function objects: which quantity is asked for, and what was computed last. *)
From Coq Require Import ZArith List Bool.
From Verif Require Import Model.Outcome Model.PSimple Model.FuncObj.
Import ListNotations.
Local Open Scope Z_scope.

(** What one can ask a function object for. *)
Inductive quantity : Type :=
| QVal
| QGrad (i : Z)
| QHess (i j : Z).

Definition quantity_eq_dec (p q : quantity) : {p = q} + {p <> q}.
Proof. decide equality; apply Z.eq_dec. Defined.

(** A family of mathematical functions: value, gradient and Hessian components (partial: a function may throw).
    [None] for a component that does not exist. *)
Definition family (V A : Type) : Type := quantity -> option (V -> outcome A).

(** The components a function object was built from. *)
Definition built_from {V A : Type} (o : fobj V A) (F : family V A) : Prop :=
  F QVal = Some (sp_eval (fo_val o)) /\
  (forall i, F (QGrad i) = match vget (fo_grad o) i with Ok s => Some (sp_eval s) | _ => None end) /\
  (forall i j, F (QHess i j) =
     match vget (fo_hess o) i with
     | Ok row => match vget row j with Ok s => Some (sp_eval s) | _ => None end
     | _ => None
     end).

(** One evaluation. *)
Definition evaluate {V A : Type} (q : quantity) (v : V) : M (fobj V A) A :=
  match q with
  | QVal => fo_call v
  | QGrad i => fo_call_grad v i
  | QHess i j => fo_call_hess v i j
  end.

(** The stored result of a quantity. *)
Definition stored {V A : Type} (o : fobj V A) (q : quantity) : outcome A :=
  match q with
  | QVal => fo_get o
  | QGrad i => fo_get_grad o i
  | QHess i j => fo_get_hess o i j
  end.

(** What was computed last for each quantity. *)
Definition memory (A : Type) : Type := quantity -> option A.
Definition remember {A : Type} (m : memory A) (q : quantity) (a : A) : memory A :=
  fun q' => if quantity_eq_dec q' q then Some a else m q'.

(** Effect of evaluating [q] at [v] on the memory: the result replaces the last one; nothing is kept of an evaluation
    that threw. *)
Definition recall {V A : Type} (F : family V A) (m : memory A) (qv : quantity * V) : memory A :=
  match F (fst qv) with
  | Some f => match f (snd qv) with Ok a => remember m (fst qv) a | _ => m end
  | None => m
  end.

(** A client's history on one object: single evaluations of existing quantities that return or throw (and are
    caught). *)
Inductive evaluations {V A : Type} (F : family V A) : fobj V A -> list (quantity * V) -> fobj V A -> Prop :=
| EvNone : forall o, evaluations F o [] o
| EvStep : forall o h o1 q v o2, evaluations F o h o1 -> F q <> None ->
    ((exists a, evaluate q v o1 = RRet o2 a) \/ (exists e, evaluate q v o1 = RThrow o2 e)) ->
    evaluations F o (h ++ [(q, v)]) o2.

(** [o] has the component functions of [o0]; its stored results may be anything. *)
Definition like {V A : Type} (o o0 : fobj V A) : Prop := exists F, built_from o F /\ built_from o0 F.

(** [o'] stores fresh results at [v] for the quantities selected by [P], and what [o] stored for all others. *)
Definition refreshed {V A : Type} (o o' : fobj V A) (v : V) (P : quantity -> Prop) : Prop :=
  forall q, (P q -> exists a, stored o' q = Ok a /\ res_outcome (evaluate q v o) = Ok a) /\
            (~ P q -> stored o' q = stored o q).
