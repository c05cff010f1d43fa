(** Model of include/IntegrationTools/pfield/interpolation/Interpolator.hh. *)
From Coq Require Import ZArith List.
From Verif Require Import Model.Outcome Model.Num.
Import ListNotations.
Local Open Scope Z_scope.

(** Interpolator.hh 16-18 (_node, _element) and 38-72 (the virtual functions of the dynamic class) of one
    interpolator object; [P] is the type of points. unsigned long members are unbounded integers here.
    The methods of the derived classes overwrite their scratch entry _var\[0\] before reading it, and the shared basis
    function object is only used through calls that pass all of _var, so they are functions of the point
    (Proofs/ElemObjP.v, quad_call_value and hex_call_value). *)
Record interp (O : NumOps) (P : Type) : Type := mkInterp {
  it_node : Z;
  it_elem : Z;
  it_min : P;
  it_max : P;
  it_range : P -> bool;
  it_val : P -> num O;
  it_grad : P -> Z -> outcome (num O);
  it_hess : P -> Z -> Z -> outcome (num O)
}.
Arguments mkInterp {O P}.
Arguments it_node {O P}.
Arguments it_elem {O P}.
Arguments it_min {O P}.
Arguments it_max {O P}.
Arguments it_range {O P}.
Arguments it_val {O P}.
Arguments it_grad {O P}.
Arguments it_hess {O P}.
