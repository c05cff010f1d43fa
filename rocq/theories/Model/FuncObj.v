(** The object layout shared by Quad, Hexahedron and the function classes of the sample library: one PSimpleBase object
    for the value, an array for the gradient, an array of arrays for the Hessian. *)
From Coq Require Import ZArith List String.
From Verif Require Import Model.Outcome Model.PSimple.
Import ListNotations.
Local Open Scope Z_scope.

(** Quad.hh 165-167, Hexahedron.hh 291-293, tests/testlib/MyFunc.hh: _val, _grad_val, _hess_val. *)
Record fobj (V A : Type) : Type := mkFobj {
  fo_val : simple V A;
  fo_grad : list (simple V A);
  fo_hess : list (list (simple V A))
}.
Arguments mkFobj {V A}.
Arguments fo_val {V A}.
Arguments fo_grad {V A}.
Arguments fo_hess {V A}.

Section Methods.
Context {V A : Type}.

(** A call on the member _val. *)
Definition on_val {B : Type} (m : M (simple V A) B) : M (fobj V A) B :=
  fun o => match m (fo_val o) with
           | RRet s a => RRet (mkFobj s (fo_grad o) (fo_hess o)) a
           | RThrow s e => RThrow (mkFobj s (fo_grad o) (fo_hess o)) e
           | RExit => RExit
           | RUB r => RUB r
           | RNoFuel => RNoFuel
           end.

(** A call on the member _grad_val. *)
Definition on_grad {B : Type} (m : M (list (simple V A)) B) : M (fobj V A) B :=
  fun o => match m (fo_grad o) with
           | RRet s a => RRet (mkFobj (fo_val o) s (fo_hess o)) a
           | RThrow s e => RThrow (mkFobj (fo_val o) s (fo_hess o)) e
           | RExit => RExit
           | RUB r => RUB r
           | RNoFuel => RNoFuel
           end.

(** A call on the member _hess_val. *)
Definition on_hess {B : Type} (m : M (list (list (simple V A))) B) : M (fobj V A) B :=
  fun o => match m (fo_hess o) with
           | RRet s a => RRet (mkFobj (fo_val o) (fo_grad o) s) a
           | RThrow s e => RThrow (mkFobj (fo_val o) (fo_grad o) s) e
           | RExit => RExit
           | RUB r => RUB r
           | RNoFuel => RNoFuel
           end.

(** Quad.hh 220-223, Hexahedron.hh 350-353: operator()(var). *)
Definition fo_call (var : V) : M (fobj V A) A := on_val (sp_call var).

(** Quad.hh 225-228, Hexahedron.hh 355-358: grad(var, di). *)
Definition fo_call_grad (var : V) (di : Z) : M (fobj V A) A := on_grad (on_elem di (sp_call var)).

(** Quad.hh 230-233, Hexahedron.hh 360-363: hess(var, di, dj). *)
Definition fo_call_hess (var : V) (di dj : Z) : M (fobj V A) A :=
  on_hess (on_elem di (on_elem dj (sp_call var))).

(** Quad.hh 235-238, Hexahedron.hh 365-368: eval(var). *)
Definition fo_eval (var : V) : M (fobj V A) unit := fo_call var ;;; mret tt.

(** The statement [( *_grad_val\[i\])(var);] for each listed i (bodies of eval_grad, see Quad.v and Hexahedron.v). *)
Definition fo_eval_grads (l : list Z) (var : V) : M (fobj V A) unit :=
  mfor l (fun i => fo_call_grad var i ;;; mret tt).

(** The statement [( *_hess_val\[i\]\[j\])(var);] for each listed (i,j) (bodies of eval_hess). *)
Definition fo_eval_hesses (l : list (Z * Z)) (var : V) : M (fobj V A) unit :=
  mfor l (fun ij => fo_call_hess var (fst ij) (snd ij) ;;; mret tt).

(** Quad.hh 254-257, Hexahedron.hh 384-387: operator()(). *)
Definition fo_get (o : fobj V A) : outcome A := sp_get (fo_val o).

(** Quad.hh 259-262, Hexahedron.hh 389-392: grad(di). *)
Definition fo_get_grad (o : fobj V A) (di : Z) : outcome A :=
  let* s := vget (fo_grad o) di in sp_get s.

(** Quad.hh 264-267, Hexahedron.hh 394-397: hess(di, dj). *)
Definition fo_get_hess (o : fobj V A) (di dj : Z) : outcome A :=
  let* row := vget (fo_hess o) di in
  let* s := vget row dj in sp_get s.

End Methods.
