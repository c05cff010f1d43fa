(** Specification vocabulary for shapes, index tuples and row-major order.
    Independent of the model: nothing here mentions strides or the model's functions. *)
From Coq Require Import ZArith List.
Import ListNotations.
Local Open Scope Z_scope.

(** Product of a list of integers. *)
Definition zprod (l : list Z) : Z := fold_right Z.mul 1 l.

(** Largest value of a 32-bit int. *)
Definition int_max : Z := 2 ^ 31 - 1.
Definition fits_int (z : Z) : Prop := - 2 ^ 31 <= z <= 2 ^ 31 - 1.

(** A proper shape: at least one extent, all positive, element count fits in an int. *)
Definition proper_shape (dims : list Z) : Prop :=
  dims <> [] /\ Forall (fun d => 0 < d) dims /\ zprod dims <= int_max.

(** A valid index tuple for a shape. *)
Definition valid_index (dims t : list Z) : Prop := Forall2 (fun d i => 0 <= i < d) dims t.

(** Row-major position of an index tuple, in Horner form. *)
Definition row_major (dims t : list Z) : Z :=
  fold_left (fun acc p => acc * fst p + snd p) (combine dims t) 0.

(** Lexicographic order on tuples. *)
Fixpoint lex_lt (a b : list Z) : Prop :=
  match a, b with
  | x :: a', y :: b' => x < y \/ (x = y /\ lex_lt a' b')
  | _, _ => False
  end.

(** The shapes for which every int product the array code forms is representable: products of the
    leading extents and products of the trailing extents (the whole list excluded there). *)
Definition leading_fit (dims : list Z) : Prop := forall k, fits_int (zprod (firstn k dims)).
Definition trailing_fit (dims : list Z) : Prop := forall k, (1 <= k)%nat -> fits_int (zprod (skipn k dims)).

(** Shapes with non-negative extents the array code supports. *)
Definition usable_shape (dims : list Z) : Prop :=
  dims <> [] /\ Forall (fun d => 0 <= d) dims /\ leading_fit dims /\ trailing_fit dims.
