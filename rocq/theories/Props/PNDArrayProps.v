(** Properties C01-C05: the N-dimensional array. *)
From Coq Require Import ZArith List Lia.
From Verif Require Import Model.Outcome Model.PNDArray Spec.Tensor Spec.NDHistory Proofs.PNDArrayP.
Import ListNotations.
Local Open Scope Z_scope.

(** C01. In every array a client can build, linear_index and tensor_indices are mutually inverse
    between the valid index tuples and 0 .. volume-1, in row-major (= lexicographic) order. *)
Theorem C01_index_bijection :
  forall (A : Type) (d : A) (s : nd A), nd_reachable d s -> nd_dim s <> [] ->
  (forall t, valid_index (nd_dim s) t ->
     linear_index s t = Ok (row_major (nd_dim s) t) /\ 0 <= row_major (nd_dim s) t < nd_volume s) /\
  (forall t term, valid_index (nd_dim s) t -> length term = length (nd_dim s) ->
     tensor_indices s (row_major (nd_dim s) t) term = Ok t) /\
  (forall l term, 0 <= l < nd_volume s -> length term = length (nd_dim s) ->
     exists t, valid_index (nd_dim s) t /\ tensor_indices s l term = Ok t /\ linear_index s t = Ok l) /\
  (forall t1 t2, valid_index (nd_dim s) t1 -> valid_index (nd_dim s) t2 -> lex_lt t1 t2 ->
     row_major (nd_dim s) t1 < row_major (nd_dim s) t2).
Proof. exact index_bijection. Qed.
Print Assumptions C01_index_bijection.

(** C01, for a freshly built array: every proper shape is accepted. *)
Theorem C01_proper_shapes_are_built :
  forall (A : Type) (d : A) (dims : list Z), proper_shape dims ->
  exists s, nd_make d dims = Ok s /\ nd_reachable d s /\ nd_dim s = dims /\
            nd_volume s = zprod dims /\ nd_order s = Z.of_nat (length dims) /\
            (forall i, 0 <= i < zprod dims -> nd_get s i = Ok d).
Proof. exact proper_shapes_are_built. Qed.
Print Assumptions C01_proper_shapes_are_built.

Example C01_case : proper_shape [2; 3; 4] /\ valid_index [2; 3; 4] [1; 2; 3] /\
  (let* s := nd_make 0 [2; 3; 4] in linear_index s [1; 2; 3]) = Ok 23 /\
  (let* s := nd_make 0 [2; 3; 4] in tensor_indices s 17 [0; 0; 0]) = Ok [1; 1; 1].
Proof.
  split; [|split; [|split; vm_compute; reflexivity]].
  - repeat split; [discriminate|repeat constructor|vm_compute; discriminate].
  - repeat constructor; lia.
Qed.

(** C02. A write through an index tuple is read back, and changes nothing else. *)
Theorem C02_write_is_local :
  forall (A : Type) (d : A) (s : nd A) (t : list Z) (a : A),
  nd_reachable d s -> nd_dim s <> [] -> valid_index (nd_dim s) t ->
  exists s', nd_put s t a = Ok s' /\ nd_reachable d s' /\
    nd_dim s' = nd_dim s /\ nd_order s' = nd_order s /\ nd_volume s' = nd_volume s /\
    nd_at s' t = Ok a /\ nd_get s' (row_major (nd_dim s) t) = Ok a /\
    (forall t', valid_index (nd_dim s) t' -> t' <> t -> nd_at s' t' = nd_at s t') /\
    (forall i, i <> row_major (nd_dim s) t -> nd_get s' i = nd_get s i).
Proof. exact write_is_local. Qed.
Print Assumptions C02_write_is_local.

Example C02_case :
  (let* s := nd_make 0 [2; 3] in let* s1 := nd_put s [1; 1] 7 in
   let* x := nd_at s1 [1; 1] in let* y := nd_at s1 [1; 2] in Ok (x, y, nd_val s1))
  = Ok (7, 0, [0; 0; 0; 0; 7; 0]).
Proof. vm_compute; reflexivity. Qed.

(** C03. After any history of calls the observable bookkeeping is consistent. *)
Theorem C03_bookkeeping :
  forall (A : Type) (d : A) (s : nd A), nd_reachable d s ->
  nd_order s = Z.of_nat (length (nd_dim s)) /\
  nd_volume s = (match nd_dim s with [] => 0 | _ => zprod (nd_dim s) end) /\
  (forall i, (exists a, nd_get s i = Ok a) <-> 0 <= i < nd_volume s) /\
  (nd_dim s <> [] -> forall t, valid_index (nd_dim s) t -> exists a, nd_at s t = Ok a).
Proof. exact bookkeeping. Qed.
Print Assumptions C03_bookkeeping.

(** C03. Every respectful call returns, except that reshape to another volume exits. *)
Theorem C03_no_undefined_behaviour :
  forall (A : Type) (d : A) (s : nd A) (o : nd_op A), nd_reachable d s -> nd_op_pre s o ->
  (exists s', nd_step d o s = RRet s' tt /\ nd_reachable d s') \/
  (nd_step d o s = RExit /\ exists dims, o = OpReshape dims /\ zprod dims <> nd_volume s).
Proof. exact no_undefined_behaviour. Qed.
Print Assumptions C03_no_undefined_behaviour.

Example C03_case : exists s : nd Z,
  nd_reachable 0 s /\ nd_dim s = [3; 2] /\ nd_val s = [0; 5; 0; 0; 0; 0].
Proof. exact history_example. Qed.

(** C04. reshape to an equal volume keeps every linear position; to any other volume it exits. *)
Theorem C04_reshape :
  forall (A : Type) (d : A) (s : nd A) (dims : list Z), nd_reachable d s -> usable_shape dims ->
  (zprod dims = nd_volume s ->
     exists s', nd_reshape dims s = RRet s' tt /\ nd_dim s' = dims /\ nd_volume s' = nd_volume s /\
                (forall i, nd_get s' i = nd_get s i)) /\
  (zprod dims <> nd_volume s -> nd_reshape dims s = RExit).
Proof. exact reshape_spec. Qed.
Print Assumptions C04_reshape.

(** C04. resize keeps the elements below both volumes and default-initialises the others. *)
Theorem C04_resize :
  forall (A : Type) (d : A) (s : nd A) (dims : list Z), nd_reachable d s -> usable_shape dims ->
  exists s', nd_resize d dims s = RRet s' tt /\ nd_dim s' = dims /\ nd_volume s' = zprod dims /\
    (forall i, 0 <= i < Z.min (nd_volume s) (zprod dims) -> nd_get s' i = nd_get s i) /\
    (forall i, nd_volume s <= i < zprod dims -> nd_get s' i = Ok d).
Proof. exact resize_spec. Qed.
Print Assumptions C04_resize.

(** C04. The constructor with values accepts exactly value lists of the right length. *)
Theorem C04_construct_with_values :
  forall (A : Type) (d : A) (dims : list Z) (v : list A), usable_shape dims ->
  (Z.of_nat (length v) = zprod dims ->
     exists s, nd_make_val d dims v = Ok s /\ nd_dim s = dims /\ nd_volume s = zprod dims /\
       forall i, 0 <= i < zprod dims -> nd_get s i = vget v i) /\
  (Z.of_nat (length v) <> zprod dims -> nd_make_val d dims v = Exit).
Proof. exact construct_with_values. Qed.
Print Assumptions C04_construct_with_values.

Example C04_case :
  match nd_make_val 0 [2; 3] [1; 2; 3; 4; 5; 6] with
  | Ok s => match nd_reshape [3; 2] s, nd_resize 0 [2; 4] s, nd_reshape [5] s with
            | RRet a _, RRet b _, RExit => nd_val a = [1; 2; 3; 4; 5; 6] /\ nd_val b = [1; 2; 3; 4; 5; 6; 0; 0]
            | _, _, _ => False
            end
  | _ => False
  end.
Proof. vm_compute; auto. Qed.

(** C05. Exactly which shapes resize accepts, rejects, or leaves undefined. *)
Theorem C05_shape_preconditions :
  forall (A : Type) (d : A) (dims : list Z) (s : nd A),
  ((exists s', nd_resize d dims s = RRet s' tt) <->
     dims <> [] /\ leading_fit dims /\ trailing_fit dims /\ 0 <= zprod dims) /\
  ((exists s', nd_resize d dims s = RThrow s' LengthError) <->
     dims <> [] /\ leading_fit dims /\ zprod dims < 0) /\
  ((exists r, nd_resize d dims s = RUB r) <->
     dims = [] \/ ~ leading_fit dims \/ (0 <= zprod dims /\ ~ trailing_fit dims)).
Proof. exact shape_preconditions. Qed.
Print Assumptions C05_shape_preconditions.

(** C05. The empty shape, which a default-constructed array has, cannot be passed back. *)
Theorem C05_empty_shape_refuted :
  forall (A : Type) (d : A), exists (s : nd A) (r : ub_reason),
    nd_reachable d s /\ nd_resize d (nd_dim s) s = RUB r /\ nd_reshape (nd_dim s) s = RUB r.
Proof. exact empty_shape_refuted. Qed.
Print Assumptions C05_empty_shape_refuted.

(** C05. After the length_error the array is inconsistent: it reports a shape it does not store. *)
Theorem C05_length_error_leaves_inconsistent_refuted :
  exists s s' : nd Z,
    nd_reachable 0 s /\ nd_dim s = [2; 3] /\ nd_resize 0 [-1; 5] s = RThrow s' LengthError /\
    nd_dim s' = [-1; 5] /\ nd_volume s' = -5 /\ nd_get s' 5 = Ok 0.
Proof. exact length_error_leaves_inconsistent. Qed.
Print Assumptions C05_length_error_leaves_inconsistent_refuted.

Example C05_case : leading_fit [0; 65536; 65536] /\ ~ trailing_fit [0; 65536; 65536] /\
  nd_resize 0 [0; 65536; 65536] nd_empty = RUB UBOverflow.
Proof. exact overflow_example. Qed.
