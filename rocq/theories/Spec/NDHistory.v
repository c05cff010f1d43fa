(** Call histories of an array object: what a client may do to it. *)
From Coq Require Import ZArith List.
From Verif Require Import Model.Outcome Model.PNDArray Spec.Tensor.
Import ListNotations.
Local Open Scope Z_scope.

(** One call on an array object. *)
Inductive nd_op (A : Type) : Type :=
| OpResize (dims : list Z)
| OpReshape (dims : list Z)
| OpClear
| OpSet (i : Z) (a : A)
| OpPut (t : list Z) (a : A).
Arguments OpResize {A} dims.
Arguments OpReshape {A} dims.
Arguments OpClear {A}.
Arguments OpSet {A} i a.
Arguments OpPut {A} t a.

(** A state-changing expression as a method call. *)
Definition lift_set {S : Type} (f : S -> outcome S) : M S unit :=
  fun s => match f s with
           | Ok s' => RRet s' tt
           | Throw e => RThrow s e
           | Exit => RExit
           | UB r => RUB r
           | NoFuel => RNoFuel
           end.

(** The effect of a call. *)
Definition nd_step {A : Type} (d : A) (o : nd_op A) : M (nd A) unit :=
  match o with
  | OpResize dims => nd_resize d dims
  | OpReshape dims => nd_reshape dims
  | OpClear => nd_clear
  | OpSet i a => lift_set (fun s => nd_set s i a)
  | OpPut t a => lift_set (fun s => nd_put s t a)
  end.

(** What the caller must respect. *)
Definition nd_op_pre {A : Type} (s : nd A) (o : nd_op A) : Prop :=
  match o with
  | OpResize dims => usable_shape dims
  | OpReshape dims => usable_shape dims
  | OpClear => True
  | OpSet i _ => 0 <= i < nd_volume s
  | OpPut t _ => nd_dim s <> [] /\ valid_index (nd_dim s) t
  end.

(** Arrays reachable by respectful calls from a default-constructed array. *)
Inductive nd_reachable {A : Type} (d : A) : nd A -> Prop :=
| NdInit : nd_reachable d nd_empty
| NdStep : forall s o s', nd_reachable d s -> nd_op_pre s o -> nd_step d o s = RRet s' tt -> nd_reachable d s'.

