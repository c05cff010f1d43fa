(** Model of handle management in src/c/PExtern.cc: the functions *_new, *_delete and calls through a handle. *)
From Coq Require Import ZArith List.
From Verif Require Import Model.Outcome Model.BasisSet Model.Wrapper.
Import ListNotations.
Local Open Scope Z_scope.

Section Handles.
(** Objects of any of the classes behind the handles. *)
Context {T : Type}.

(** The memory (Wrapper.v) and the caller's pointer variables, passed by reference. Simplification: they start out as NULL. *)
Record cstate : Type := mkC { c_heap : heap T; c_handles : list (option nat) }.

(** A handle of the caller. *)
Definition c_handle (s : cstate) (k : nat) : outcome (option nat) :=
  match nth_error (c_handles s) k with Some p => Ok p | None => UB UBDangling end.
Definition c_put (k : nat) (p : option nat) (s : cstate) : cstate := mkC (c_heap s) (lset (c_handles s) k p).

(** PExtern.cc 23-26, 56-59, 89-92, 176-179, 270-273, 275-282: the object is made (checked out of the library or constructed), then its
    address is assigned to the handle. [make] says what becomes of the making of the object. *)
Definition c_new (k : nat) (make : outcome T) : M cstate unit :=
  do* s := mget in
  do* p := mlift (c_handle s k) in
  do* x := mlift make in
  mput (mkC (h_new x (c_heap s)) (lset (c_handles s) k (Some (length (c_heap s))))).

(** PExtern.cc 516-520, 544-548: Body2D_new and Body3D_new assign the address of an empty body [x] first, and read the file then. *)
Definition c_new_then (k : nat) (x : T) (init : M T unit) : M cstate unit :=
  do* s := mget in
  do* p := mlift (c_handle s k) in
  let put := fun y => mkC (h_new y (c_heap s)) (lset (c_handles s) k (Some (length (c_heap s)))) in
  match init x with
  | RRet y _ => mput (put y)
  | RThrow y e => mput (put y) ;;; mlift (Throw e)
  | RExit => mlift Exit
  | RUB r => mlift (UB r)
  | RNoFuel => mlift NoFuel
  end.

(** PExtern.cc 28-32, 61-65, 94-98, 181-185, 284-288, 522-526, 550-554: delete f; f = NULL. delete does nothing on NULL.
    Simplification: deleting a Body is taken as fine here; see Life.v for what it does to the interpolators. *)
Definition c_delete (k : nat) : M cstate unit :=
  do* s := mget in
  do* p := mlift (c_handle s k) in
  do* h := mlift (match p with None => Ok (c_heap s) | Some a => h_delete (c_heap s) a end) in
  mput (mkC h (c_handles s)) ;;;
  mmod (c_put k None).

(** All other functions: a call on *f (34-54, 67-87, 100-170, 187-268, 290-510). *)
Definition c_call {B : Type} (k : nat) (m : M T B) : M cstate B :=
  do* s := mget in
  do* p := mlift (c_handle s k) in
  match p with
  | None => mlift (UB UBNull)
  | Some a =>
      do* x := mlift (h_read (c_heap s) a) in
      match m x with
      | RRet y b => mput (mkC (lset (c_heap s) a (Some y)) (c_handles s)) ;;; mret b
      | RThrow y e => mput (mkC (lset (c_heap s) a (Some y)) (c_handles s)) ;;; mlift (Throw e)
      | RExit => mlift Exit
      | RUB r => mlift (UB r)
      | RNoFuel => mlift NoFuel
      end
  end.

(** The caller's own assignment of one handle to another. *)
Definition c_alias (k j : nat) : M cstate unit :=
  do* s := mget in
  do* p := mlift (c_handle s j) in
  do* q := mlift (c_handle s k) in
  mput (c_put k p s).
End Handles.
Arguments cstate T : clear implicits.

(** PExtern.cc 197-200: PBasisSet_dd_size. *)
Definition dd_size {X A : Type} (b : bset X A) : Z := size_to_int (bs_size b).
(** PExtern.cc 202-205: PBasisSet_dd_resize. *)
Definition dd_resize {X A : Type} (d : A) (N : Z) : M (bset X A) unit := bs_resize d (int_to_size N).
(** PExtern.cc 207-210: PBasisSet_dd_max_size. *)
Definition dd_max_size {X A : Type} (b : bset X A) : Z := size_to_int (bs_max_size b).
