(** Model of include/IntegrationTools/pfunction/PFlexFunction.hh. *)
From Coq Require Import ZArith List Bool String.
From Verif Require Import Model.Outcome Model.PSimple Model.BasisSet.
Import ListNotations.
Local Open Scope Z_scope.

(** A PSimpleFunction as a value of its own (justified by C28): [None] when its pointer is NULL. *)
Definition simplef (V A : Type) : Type := option (simple V A).

Section Flex.
Context {V A : Type}.

(** A call delegated by a PSimpleFunction: PSimpleFunction.hh 21-58. *)
Definition sf_do {B : Type} (m : M (simple V A) B) : M (simplef V A) B :=
  fun f => match f with
           | None => RUB UBNull
           | Some s => match m s with
                       | RRet s' b => RRet (Some s') b
                       | RThrow s' e => RThrow (Some s') e
                       | RExit => RExit
                       | RUB r => RUB r
                       | RNoFuel => RNoFuel
                       end
           end.

(** PSimpleFunction.hh 31-34: operator()(). *)
Definition sf_get (f : simplef V A) : outcome A := match f with None => UB UBNull | Some s => sp_get s end.

(** PSimpleFunction.hh 62-68: operator=, from another PSimpleFunction: RHS.ptr->clone(). *)
Definition sf_assign (old new : simplef V A) : outcome (simplef V A) := match new with None => UB UBNull | Some s => Ok (Some s) end.

(** std::vector's operator=. Either the storage is reused ([reuse], depending on the capacity) - then the first elements are assigned and
    the others copy-constructed - or all elements are copy-constructed. [asg i] assigns element [i]. *)
Fixpoint assign_items {T : Type} (asg : nat -> T -> T -> outcome T) (i : nat) (old new : list T) : outcome (list T) :=
  match old, new with
  | _, [] => Ok []
  | [], _ => Ok new
  | o :: old', n :: new' =>
      let* x := asg i o n in
      let* l := assign_items asg (Datatypes.S i) old' new' in
      Ok (x :: l)
  end.
Definition vec_assign {T : Type} (asg : nat -> T -> T -> outcome T) (reuse : bool) (old new : list T) : outcome (list T) :=
  if reuse then assign_items asg 0 old new else Ok new.

(** PFlexFunction.hh 18-22 and PFuncBase.hh 22-25 (_name, _var_name, _var_description). *)
Record flex : Type := mkFlex {
  fl_name : string;
  fl_vars : list string;
  fl_descr : list string;
  fl_val : simplef V A;
  fl_grad : list (simplef V A);
  fl_hess : list (list (simplef V A))
}.

(** 171-197: check. *)
Definition fl_check (f : flex) : outcome unit :=
  let n := List.length (fl_vars f) in
  if negb (Nat.eqb (List.length (fl_descr f)) n) then Exit
  else if negb (Nat.eqb (List.length (fl_grad f)) n) then Exit
  else if negb (Nat.eqb (List.length (fl_hess f)) n) then Exit
  else ofold (fun (_ : unit) row => if negb (Nat.eqb (List.length row) n) then Exit else Ok tt) (fl_hess f) tt.

(** 29-32: default constructor. *)
Definition fl_default : flex := mkFlex "" [] [] None [] [].

(** 34-44: constructor; the lists are copied element by element. *)
Definition fl_make (name : string) (vars descr : list string) (f : simplef V A) (g : list (simplef V A)) (h : list (list (simplef V A))) : outcome flex :=
  let o := mkFlex name vars descr f g h in
  let* _ := fl_check o in Ok o.

(** 46-54: clear; _val is assigned from a temporary, default-constructed PSimpleFunction. *)
Definition fl_clear (o : flex) : outcome flex :=
  let* f := sf_assign (fl_val o) None in
  Ok (mkFlex "" [] [] f [] []).

(** 56-71: set. [rg], [rh] and [rr i]: whether the vectors of the gradient, of the Hessian and of its row i reuse their storage. *)
Definition fl_set (rg rh : bool) (rr : nat -> bool) (name : string) (vars descr : list string) (f : simplef V A) (g : list (simplef V A))
    (h : list (list (simplef V A))) (o : flex) : outcome flex :=
  let* f' := sf_assign (fl_val o) f in
  let* g' := vec_assign (fun _ => sf_assign) rg (fl_grad o) g in
  let* h' := vec_assign (fun i => vec_assign (fun _ => sf_assign) (rr i)) rh (fl_hess o) h in
  let o' := mkFlex name vars descr f' g' h' in
  let* _ := fl_check o' in Ok o'.

(** 73-82: copy constructor; the members are default-constructed and then assigned. An empty vector's storage holds no elements to assign. *)
Definition fl_copy (r : flex) : outcome flex :=
  let* f := sf_assign None (fl_val r) in
  Ok (mkFlex (fl_name r) (fl_vars r) (fl_descr r) f (fl_grad r) (fl_hess r)).

(** 84-94: operator=; there is no return statement. *)
Definition fl_assign (rg rh : bool) (rr : nat -> bool) (r o : flex) : outcome flex :=
  let* f := sf_assign (fl_val o) (fl_val r) in
  let* g := vec_assign (fun _ => sf_assign) rg (fl_grad o) (fl_grad r) in
  let* h := vec_assign (fun i => vec_assign (fun _ => sf_assign) (rr i)) rh (fl_hess o) (fl_hess r) in
  UB UBNoReturn.

(** 101-104: clone. *)
Definition fl_clone (r : flex) : outcome flex := fl_copy r.

(** 106-119: the simple functions. *)
Definition fl_simple (o : flex) : outcome (simplef V A) := Ok (fl_val o).
Definition fl_grad_simple (o : flex) (di : Z) : outcome (simplef V A) := vget (fl_grad o) di.
Definition fl_hess_simple (o : flex) (di dj : Z) : outcome (simplef V A) := let* row := vget (fl_hess o) di in vget row dj.

(** A call on a member. *)
Definition on_fval {B : Type} (m : M (simplef V A) B) : M flex B :=
  fun o => match m (fl_val o) with
           | RRet s b => RRet (mkFlex (fl_name o) (fl_vars o) (fl_descr o) s (fl_grad o) (fl_hess o)) b
           | RThrow s e => RThrow (mkFlex (fl_name o) (fl_vars o) (fl_descr o) s (fl_grad o) (fl_hess o)) e
           | RExit => RExit | RUB r => RUB r | RNoFuel => RNoFuel
           end.
Definition on_fgrad {B : Type} (m : M (list (simplef V A)) B) : M flex B :=
  fun o => match m (fl_grad o) with
           | RRet s b => RRet (mkFlex (fl_name o) (fl_vars o) (fl_descr o) (fl_val o) s (fl_hess o)) b
           | RThrow s e => RThrow (mkFlex (fl_name o) (fl_vars o) (fl_descr o) (fl_val o) s (fl_hess o)) e
           | RExit => RExit | RUB r => RUB r | RNoFuel => RNoFuel
           end.
Definition on_fhess {B : Type} (m : M (list (list (simplef V A))) B) : M flex B :=
  fun o => match m (fl_hess o) with
           | RRet s b => RRet (mkFlex (fl_name o) (fl_vars o) (fl_descr o) (fl_val o) (fl_grad o) s) b
           | RThrow s e => RThrow (mkFlex (fl_name o) (fl_vars o) (fl_descr o) (fl_val o) (fl_grad o) s) e
           | RExit => RExit | RUB r => RUB r | RNoFuel => RNoFuel
           end.

(** 121-134: operator()(var), grad(var, di), hess(var, di, dj). *)
Definition fl_call (var : V) : M flex A := on_fval (sf_do (sp_call var)).
Definition fl_call_grad (var : V) (di : Z) : M flex A := on_fgrad (on_elem di (sf_do (sp_call var))).
Definition fl_call_hess (var : V) (di dj : Z) : M flex A := on_fhess (on_elem di (on_elem dj (sf_do (sp_call var)))).

(** 136-152: eval, eval_grad, eval_hess. *)
Definition fl_eval (var : V) : M flex unit := fl_call var ;;; mret tt.
Definition fl_eval_grad (var : V) : M flex unit :=
  do* o := mget in
  mfor (zseq (Z.of_nat (List.length (fl_grad o)))) (fun i => fl_call_grad var i ;;; mret tt).
Definition fl_eval_hess (var : V) : M flex unit :=
  do* o := mget in
  mfor (zseq (Z.of_nat (List.length (fl_hess o)))) (fun i =>
    do* o' := mget in
    do* row := mlift (vget (fl_hess o') i) in
    mfor (zseq (Z.of_nat (List.length row))) (fun j => fl_call_hess var i j ;;; mret tt)).

(** 154-167: the getters. *)
Definition fl_get (o : flex) : outcome A := sf_get (fl_val o).
Definition fl_get_grad (o : flex) (di : Z) : outcome A := let* s := vget (fl_grad o) di in sf_get s.
Definition fl_get_hess (o : flex) (di dj : Z) : outcome A :=
  let* row := vget (fl_hess o) di in let* s := vget row dj in sf_get s.
End Flex.
Arguments flex V A : clear implicits.
