(** Model of include/IntegrationTools/datastruc/PNDArray.hh (class PNDArray). *)
From Coq Require Import ZArith List Bool.
From Verif Require Import Model.Outcome.
Import ListNotations.
Local Open Scope Z_scope.

(** PNDArray.hh 18-22: data members _dim, _unroll, _val, _order, _volume. *)
Record nd (A : Type) : Type := mkNd {
  nd_dim : list Z;
  nd_unroll : list Z;
  nd_val : list A;
  nd_order : Z;
  nd_volume : Z
}.
Arguments mkNd {A}.
Arguments nd_dim {A}.
Arguments nd_unroll {A}.
Arguments nd_val {A}.
Arguments nd_order {A}.
Arguments nd_volume {A}.

(** PNDArray.hh 26: default constructor. *)
Definition nd_empty {A : Type} : nd A := mkNd [] [] [] 0 0.

(** PNDArray.hh 133-146: calc_volume. Each [vol *= dim\[i\]] may overflow. *)
Definition calc_volume (dim : list Z) : outcome Z :=
  match dim with
  | [] => Ok 0
  | _ => ofold (fun vol d => cint (vol * d)) dim 1
  end.

(** PNDArray.hh 152-153: the descending loop, from the back of [_dim]. Returns the table for the
    suffix [dim]; its head is the stride of the first extent of that suffix. *)
Fixpoint unroll_rec (dim : list Z) : outcome (list Z) :=
  match dim with
  | [] => UB UBOutOfBounds   (* 151: _unroll[-1] = 1 on an empty vector *)
  | [_] => Ok [1]            (* 151 *)
  | _ :: (d1 :: _) as rest =>
      let* u := unroll_rec rest in
      match u with
      | u1 :: _ => let* x := cint (u1 * d1) in Ok (x :: u)   (* 153 *)
      | [] => UB UBOutOfBounds
      end
  end.

(** PNDArray.hh 148-154: generate_unroll. *)
Definition generate_unroll {A : Type} : M (nd A) unit :=
  do* s := mget in
  do* u := mlift (unroll_rec (nd_dim s)) in
  mput (mkNd (nd_dim s) u (nd_val s) (nd_order s) (nd_volume s)).

(** PNDArray.hh 54-61: resize. [d] is the value-initialised OutType. The vector resize (59) converts the
    int volume to an unsigned size: a negative volume exceeds max_size() and throws length_error.
    Simplification: memory exhaustion is not modelled. *)
Definition nd_resize {A : Type} (d : A) (dim : list Z) : M (nd A) unit :=
  do* s := mget in
  do* vol := mlift (calc_volume dim) in
  mput (mkNd dim (nd_unroll s) (nd_val s) (Z.of_nat (length dim)) vol) ;;;
  (if vol <? 0 then mlift (Throw LengthError)
   else mmod (fun s => mkNd (nd_dim s) (nd_unroll s) (vresize d (nd_val s) (Z.to_nat vol))
                            (nd_order s) (nd_volume s))) ;;;
  generate_unroll.

(** PNDArray.hh 63-76: reshape. *)
Definition nd_reshape {A : Type} (dim : list Z) : M (nd A) unit :=
  do* s := mget in
  do* vol := mlift (calc_volume dim) in
  if vol =? nd_volume s then
    mput (mkNd dim (nd_unroll s) (nd_val s) (Z.of_nat (length dim)) (nd_volume s)) ;;;
    generate_unroll
  else mlift Exit.

(** PNDArray.hh 78-86: clear. *)
Definition nd_clear {A : Type} : M (nd A) unit := mput nd_empty.

(** PNDArray.hh 27-30: constructor from a shape. *)
Definition nd_make {A : Type} (d : A) (dim : list Z) : outcome (nd A) :=
  match nd_resize d dim nd_empty with
  | RRet s _ => Ok s
  | RThrow _ e => Throw e
  | RExit => Exit
  | RUB r => UB r
  | RNoFuel => NoFuel
  end.

(** PNDArray.hh 32-42: constructor from a shape and values; [_volume != value.size()] compares an
    int converted to unsigned long with the size (a non-negative int here, since 34 has returned). *)
Definition nd_make_val {A : Type} (d : A) (dim : list Z) (value : list A) : outcome (nd A) :=
  let* s := nd_make d dim in
  if nd_volume s =? Z.of_nat (length value)
  then Ok (mkNd (nd_dim s) (nd_unroll s) value (nd_order s) (nd_volume s))
  else Exit.

(** PNDArray.hh 93-96: dim(i). *)
Definition nd_dim_i {A : Type} (s : nd A) (i : Z) : outcome Z := vget (nd_dim s) i.

(** PNDArray.hh 109-116: linear_index; [term\[i\]] for i < _unroll.size(). *)
Fixpoint linear_index_loop (unroll term : list Z) (lindex : Z) : outcome Z :=
  match unroll with
  | [] => Ok lindex
  | u :: us =>
      match term with
      | [] => UB UBOutOfBounds
      | t :: ts =>
          let* p := cint (t * u) in
          let* l := cint (lindex + p) in
          linear_index_loop us ts l
      end
  end.

(** PNDArray.hh 109-116: linear_index. *)
Definition linear_index {A : Type} (s : nd A) (term : list Z) : outcome Z :=
  linear_index_loop (nd_unroll s) term 0.

(** C++ int division [a/b]: truncation towards zero, undefined for b = 0 (and INT_MIN / -1). *)
Definition cdiv (a b : Z) : outcome Z :=
  if b =? 0 then UB UBDivZero else cint (Z.quot a b).

(** PNDArray.hh 123-127: the loop of tensor_indices, overwriting [term] element by element. *)
Fixpoint tensor_indices_loop (unroll : list Z) (lindex : Z) (term : list Z) : outcome (list Z) :=
  match unroll with
  | [] => Ok term
  | u :: us =>
      match term with
      | [] => UB UBOutOfBounds
      | _ :: ts =>
          let* q := cdiv lindex u in
          let* p := cint (q * u) in
          let* l := cint (lindex - p) in
          let* r := tensor_indices_loop us l ts in
          Ok (q :: r)
      end
  end.

(** PNDArray.hh 118-128: tensor_indices; the result is the updated [term]. *)
Definition tensor_indices {A : Type} (s : nd A) (lindex : Z) (term : list Z) : outcome (list Z) :=
  tensor_indices_loop (nd_unroll s) lindex term.

(** PNDArray.hh 98-101: operator()(int) used as an rvalue. *)
Definition nd_get {A : Type} (s : nd A) (i : Z) : outcome A := vget (nd_val s) i.

(** PNDArray.hh 98-101: operator()(int) used as an lvalue. *)
Definition nd_set {A : Type} (s : nd A) (i : Z) (a : A) : outcome (nd A) :=
  let* v := vset (nd_val s) i a in
  Ok (mkNd (nd_dim s) (nd_unroll s) v (nd_order s) (nd_volume s)).

(** PNDArray.hh 103-107: operator()(IndexContainer) used as an rvalue. *)
Definition nd_at {A : Type} (s : nd A) (term : list Z) : outcome A :=
  let* i := linear_index s term in nd_get s i.

(** PNDArray.hh 103-107: operator()(IndexContainer) used as an lvalue. *)
Definition nd_put {A : Type} (s : nd A) (term : list Z) (a : A) : outcome (nd A) :=
  let* i := linear_index s term in nd_set s i a.
