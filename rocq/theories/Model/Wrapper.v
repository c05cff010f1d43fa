(** Model of the owning wrappers: pfunction/PSimpleFunction.hh 17, 60-121, pfunction/PFunction.hh 135-198 and pfunction/PBasisSet.hh 121-186
    (under include/IntegrationTools). The three classes have the same members, word for word, around different base classes; [T] is the
    state of an object of a class derived from the base class. PBasisSet::set takes a PBasisSet* and cannot be instantiated. *)
From Coq Require Import ZArith List Bool.
From Verif Require Import Model.Outcome.
Import ListNotations.

Section Wrapper.
(** [clone] is the virtual clone() of the object: PSimpleBase.hh 36-39, PFuncBase.hh 69-72, PBasisSetBase.hh. *)
Context {T : Type} (clone : T -> outcome T).

(** Memory: the objects created so far by new; the address of an object is its position, [None] an object already deleted.
    Simplification: addresses are not used again after delete. *)
Definition heap : Type := list (option T).

(** new: the object is appended. *)
Definition h_new (x : T) (h : heap) : heap := h ++ [Some x].

(** *ptr: the object, which must not have been deleted. *)
Definition h_read (h : heap) (a : nat) : outcome T :=
  match nth_error h a with
  | Some (Some x) => Ok x
  | Some None => UB UBDangling
  | None => UB UBDangling
  end.

(** delete ptr. *)
Definition h_delete (h : heap) (a : nat) : outcome heap :=
  match nth_error h a with
  | Some (Some _) => Ok (lset h a None)
  | Some None => UB UBDoubleFree
  | None => UB UBDangling
  end.

(** The program's memory, its wrapper variables - the member ptr (PSimpleFunction.hh 17, PFunction.hh 198, PBasisSet.hh 185) of each,
    [None] after its destructor ran - and the addresses of the objects the client itself created by new. *)
Record wstate : Type := mkW { w_heap : heap; w_ptr : list (option (option nat)); w_raw : list nat }.

(** The member ptr of wrapper [i], which must be alive. *)
Definition w_slot (s : wstate) (i : nat) : outcome (option nat) :=
  match nth_error (w_ptr s) i with
  | Some (Some p) => Ok p
  | _ => UB UBDangling
  end.

(** Assignment to the member ptr of wrapper [i]; [None] ends its life. *)
Definition w_put (i : nat) (p : option (option nat)) (s : wstate) : wstate := mkW (w_heap s) (lset (w_ptr s) i p) (w_raw s).

(** if(ptr != NULL) delete ptr; (PSimpleFunction.hh 64-65, 75-76, 90-91, 119-120; PFunction.hh 139-140, 149-150, 164-165, 193-194;
    PBasisSet.hh 125-126, 135-136, 178-179): the member ptr keeps its value. *)
Definition w_release (i : nat) : M wstate unit :=
  do* s := mget in
  do* p := mlift (w_slot s i) in
  match p with
  | None => mret tt
  | Some a => do* h := mlift (h_delete (w_heap s) a) in mput (mkW h (w_ptr s) (w_raw s))
  end.

(** ptr->clone() of wrapper [i]: the new object's address. *)
Definition w_clone (i : nat) : M wstate nat :=
  do* s := mget in
  do* p := mlift (w_slot s i) in
  match p with
  | None => mlift (UB UBNull)
  | Some a =>
      do* x := mlift (h_read (w_heap s) a) in
      do* y := mlift (clone x) in
      mput (mkW (h_new y (w_heap s)) (w_ptr s) (w_raw s)) ;;; mret (length (w_heap s))
  end.

(** RHS.clone() of the client's object RHS (PSimpleFunction.hh 77, 113; PFunction.hh 151, 187; PBasisSet.hh 137, 173). Simplification: RHS is not
    the object owned by the wrapper itself. *)
Definition obj_clone (x : T) : M wstate nat :=
  do* s := mget in
  do* y := mlift (clone x) in
  mput (mkW (h_new y (w_heap s)) (w_ptr s) (w_raw s)) ;;; mret (length (w_heap s)).

(** A new wrapper variable whose member ptr is [p]. *)
Definition w_declare (p : option nat) : M wstate unit :=
  mmod (fun s => mkW (w_heap s) (w_ptr s ++ [Some p]) (w_raw s)).

(** Default constructor: PSimpleFunction.hh 96-99, PFunction.hh 170-173, PBasisSet.hh 156-159. *)
Definition w_new : M wstate unit := w_declare None.

(** Copy constructor: PSimpleFunction.hh 101-107, PFunction.hh 175-181, PBasisSet.hh 161-167. *)
Definition w_copy (j : nat) : M wstate unit :=
  do* s := mget in
  do* p := mlift (w_slot s j) in
  match p with
  | None => w_declare None
  | Some _ => do* a := w_clone j in w_declare (Some a)
  end.

(** Constructor from an object: PSimpleFunction.hh 109-115, PFunction.hh 183-189, PBasisSet.hh 169-174. *)
Definition w_from (x : T) : M wstate unit := do* a := obj_clone x in w_declare (Some a).

(** operator=(wrapper): PSimpleFunction.hh 62-68, PFunction.hh 137-143, PBasisSet.hh 123-129. *)
Definition w_assign (i j : nat) : M wstate unit :=
  w_release i ;;;
  do* a := w_clone j in
  mmod (w_put i (Some (Some a))).

(** operator=(object): PSimpleFunction.hh 70-79, PFunction.hh 145-153, PBasisSet.hh 131-139. *)
Definition w_assign_obj (i : nat) (x : T) : M wstate unit :=
  w_release i ;;;
  do* a := obj_clone x in
  mmod (w_put i (Some (Some a))).

(** set(pointer): PSimpleFunction.hh 83-94, PFunction.hh 157-168. *)
Definition w_set (i : nat) (p : option nat) : M wstate unit :=
  match p with
  | None => mlift Exit
  | Some a => w_release i ;;; mmod (w_put i (Some (Some a)))
  end.

(** Destructor: PSimpleFunction.hh 117-121, PFunction.hh 191-195, PBasisSet.hh 176-180. *)
Definition w_destroy (i : nat) : M wstate unit := w_release i ;;; mmod (w_put i None).

(** A call delegated to the object: PSimpleFunction.hh 21-58, PFunction.hh 47-132, PBasisSet.hh 20-119. *)
Definition w_call {B : Type} (i : nat) (m : M T B) : M wstate B :=
  do* s := mget in
  do* p := mlift (w_slot s i) in
  match p with
  | None => mlift (UB UBNull)
  | Some a =>
      do* x := mlift (h_read (w_heap s) a) in
      match m x with
      | RRet y b => mput (mkW (lset (w_heap s) a (Some y)) (w_ptr s) (w_raw s)) ;;; mret b
      | RThrow y e => mput (mkW (lset (w_heap s) a (Some y)) (w_ptr s) (w_raw s)) ;;; mlift (Throw e)
      | RExit => mlift Exit
      | RUB r => mlift (UB r)
      | RNoFuel => mlift NoFuel
      end
  end.

(** The client's own new and delete (the owner of the pointer given to set, PFunction.hh 155-157). *)
Definition raw_new (x : T) : M wstate unit :=
  mmod (fun s => mkW (h_new x (w_heap s)) (w_ptr s) (w_raw s ++ [length (w_heap s)])).
Definition raw_delete (k : nat) : M wstate unit :=
  do* s := mget in
  match nth_error (w_raw s) k with
  | None => mlift (UB UBDangling)
  | Some a => do* h := mlift (h_delete (w_heap s) a) in mput (mkW h (w_ptr s) (w_raw s))
  end.

End Wrapper.

Arguments heap T : clear implicits.
Arguments wstate T : clear implicits.
