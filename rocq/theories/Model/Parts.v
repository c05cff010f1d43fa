(** Model of who owns the parts of a hard-coded function object: the constructors, copy constructors, assignment operators and destructors of Quad
    and Hexahedron (pfield/interpolation/Quad.hh 163-218, 270-298 and Hexahedron.hh 289-349, 400-435, under include/IntegrationTools), of Quadratic
    and MyFunc (tests/testlib/Quadratic.hh 118-255, MyFunc.hh 262-423) and of the pieces of MyPieceWiseFunc (tests/testlib/MyPieceWiseFunc.hh
    262-405, 698-841, 1170-1313), at the level of single pointers. FuncObj.v has the same methods on objects taken as values. *)
From Coq Require Import ZArith List Bool.
From Verif Require Import Model.Outcome Model.PSimple Model.Wrapper Model.FuncObj.
Import ListNotations.
Local Open Scope Z_scope.

(** How the class copies: [Keeping], Quadratic and MyFunc; [Fresh], Quad and Hexahedron; [Sharing], the pieces of MyPieceWiseFunc. *)
Inductive copying : Type := Keeping | Fresh | Sharing.

(** A class: how it copies, the parts its construct() makes (Quad.hh 284-298; Hexahedron.hh 414-435; Quadratic.hh 250-254; MyFunc.hh 412-420;
    MyPieceWiseFunc.hh 392-404), none of them evaluated, and the parts its eval_grad and eval_hess call. *)
Record pclass (V A : Type) : Type := mkPclass {
  pc_copying : copying;
  pc_parts : fobj V A;
  pc_eval_grad : list Z;
  pc_eval_hess : list (Z * Z)
}.
Arguments mkPclass {V A}.
Arguments pc_copying {V A}.
Arguments pc_parts {V A}.
Arguments pc_eval_grad {V A}.
Arguments pc_eval_hess {V A}.

(** The members _val, _grad_val, _hess_val of one object (Quad.hh 165-167, Hexahedron.hh 291-293, Quadratic.hh 125-127, MyFunc.hh 268-270,
    MyPieceWiseFunc.hh 268-270): addresses, [None] while indeterminate. *)
Record pobj : Type := mkPobj { po_val : option nat; po_grad : option nat; po_hess : option nat }.

(** Memory, one list of objects (Wrapper.v) per type: PSimpleBase objects; arrays of PSimpleBase*; arrays of PSimpleBase**; the function objects. *)
Record pmem (V A : Type) : Type := mkPmem {
  pm_part : heap (simple V A);
  pm_row : heap (list (option nat));
  pm_tab : heap (list (option nat));
  pm_obj : heap pobj
}.
Arguments mkPmem {V A}.
Arguments pm_part {V A}.
Arguments pm_row {V A}.
Arguments pm_tab {V A}.
Arguments pm_obj {V A}.

Section Parts.
Context {V A : Type}.
Implicit Types m : pmem V A.

(** [0; 1; ...; n-1]: the literal subscripts of the unrolled statements. *)
Definition subscripts (n : nat) : list Z := map Z.of_nat (seq 0 n).

(** new Quad_f() and the like (Quad.hh 284-298, and at the lines of the other classes above): a copy of the object [s]. *)
Definition new_part (s : simple V A) : M (pmem V A) nat :=
  fun m => RRet (mkPmem (h_new s (pm_part m)) (pm_row m) (pm_tab m) (pm_obj m)) (length (pm_part m)).
(** new PSimpleBase*[n] (Quad.hh 286, 291-292; the elements are indeterminate). *)
Definition new_row (n : nat) : M (pmem V A) nat :=
  fun m => RRet (mkPmem (pm_part m) (h_new (repeat None n) (pm_row m)) (pm_tab m) (pm_obj m)) (length (pm_row m)).
(** new PSimpleBase**[n] (Quad.hh 290). *)
Definition new_tab (n : nat) : M (pmem V A) nat :=
  fun m => RRet (mkPmem (pm_part m) (pm_row m) (h_new (repeat None n) (pm_tab m)) (pm_obj m)) (length (pm_tab m)).

(** Element [i] of an array of pointers, as an lvalue read: the array must be alive, the subscript inside, the pointer assigned. *)
Definition get_elem (h : heap (list (option nat))) (a : nat) (i : Z) : outcome nat :=
  let* l := h_read h a in
  let* p := vget l i in
  read_member p.
(** Assignment to element [i] of an array of pointers. *)
Definition set_elem (h : heap (list (option nat))) (a : nat) (i : Z) (p : nat) : outcome (heap (list (option nat))) :=
  let* l := h_read h a in
  let* l' := vset l i (Some p) in
  Ok (lset h a (Some l')).

(** row[i] and row[i] = p, tab[i] and tab[i] = p (Quad.hh 287-298). *)
Definition get_row (r : nat) (i : Z) : M (pmem V A) nat := do* m := mget in mlift (get_elem (pm_row m) r i).
Definition set_row (r : nat) (i : Z) (p : nat) : M (pmem V A) unit :=
  do* m := mget in
  do* h := mlift (set_elem (pm_row m) r i p) in
  mput (mkPmem (pm_part m) h (pm_tab m) (pm_obj m)).
Definition get_tab (t : nat) (i : Z) : M (pmem V A) nat := do* m := mget in mlift (get_elem (pm_tab m) t i).
Definition set_tab (t : nat) (i : Z) (r : nat) : M (pmem V A) unit :=
  do* m := mget in
  do* h := mlift (set_elem (pm_tab m) t i r) in
  mput (mkPmem (pm_part m) (pm_row m) h (pm_obj m)).

(** The pointers _val, _grad_val[i] and _hess_val[i][j] of an object. *)
Definition val_ptr (o : pobj) : M (pmem V A) nat := mlift (read_member (po_val o)).
Definition grad_ptr (o : pobj) (i : Z) : M (pmem V A) nat := do* g := mlift (read_member (po_grad o)) in get_row g i.
Definition row_ptr (o : pobj) (i : Z) : M (pmem V A) nat := do* t := mlift (read_member (po_hess o)) in get_tab t i.
Definition hess_ptr (o : pobj) (i j : Z) : M (pmem V A) nat := do* r := row_ptr o i in get_row r j.

(** ptr->clone() (PSimpleBase.hh 36-39 and, for Quad_f, Quad.hh 35-38): Simplification: an indeterminate _val is copied as such. *)
Definition clone_part (p : nat) : M (pmem V A) nat :=
  do* m := mget in
  do* s := mlift (h_read (pm_part m) p) in
  new_part s.

(** A loop whose body knows the number of its turn, from [k] on. *)
Fixpoint mfori {S B : Type} (k : Z) (l : list B) (f : Z -> B -> M S unit) : M S unit :=
  match l with
  | [] => mret tt
  | b :: l' => f k b ;;; mfori (k + 1) l' f
  end.

(** row[i] = <pointer made by act>; for each i (Quad.hh 287-288, 293-298; MyFunc.hh 283-288, 414-420). *)
Definition fill_row (r : nat) (acts : list (M (pmem V A) nat)) : M (pmem V A) unit :=
  mfori 0 acts (fun i act => do* p := act in set_row r i p).
(** The same for the rows of a table. *)
Definition fill_tab (t : nat) (acts : list (list (M (pmem V A) nat))) : M (pmem V A) unit :=
  mfori 0 acts (fun i row => do* r := get_tab t i in fill_row r row).
(** _hess_val[i] = new PSimpleBase*[n]; for each i (Quad.hh 291-292; Hexahedron.hh 422-424; MyFunc.hh 407-408). *)
Definition new_rows (t n : nat) : M (pmem V A) unit :=
  mfor (subscripts n) (fun i => do* r := new_row n in set_tab t i r).

(** Quad.hh 270-298, Hexahedron.hh 400-435, MyPieceWiseFunc.hh 382-405, 818-841, 1290-1313: construct(), the pointer members. *)
Definition construct_all (c : pclass V A) : M (pmem V A) pobj :=
  let f := pc_parts c in
  let n := length (fo_grad f) in
  do* v := new_part (fo_val f) in
  do* g := new_row n in
  fill_row g (map new_part (fo_grad f)) ;;;
  do* t := new_tab n in
  new_rows t n ;;;
  fill_tab t (map (map new_part) (fo_hess f)) ;;;
  mret (mkPobj (Some v) (Some g) (Some t)).

(** Quadratic.hh 233-246, MyFunc.hh 394-410: construct(false), arrays only. *)
Definition construct_arrays (n : nat) : M (pmem V A) pobj :=
  do* g := new_row n in
  do* t := new_tab n in
  new_rows t n ;;;
  mret (mkPobj None (Some g) (Some t)).

(** The arrays of object [o], filled: Quadratic.hh 250-254, MyFunc.hh 412-420 (construct(true)); Quadratic.hh 138-140, MyFunc.hh 282-288 (the
    copy constructor). *)
Definition fill_parts (o : pobj) (av : M (pmem V A) nat) (ag : list (M (pmem V A) nat)) (ah : list (list (M (pmem V A) nat))) : M (pmem V A) pobj :=
  do* v := av in
  do* g := mlift (read_member (po_grad o)) in
  fill_row g ag ;;;
  do* t := mlift (read_member (po_hess o)) in
  fill_tab t ah ;;;
  mret (mkPobj (Some v) (Some g) (Some t)).

(** The default constructor: Quad.hh 173-176, Hexahedron.hh 296-299, MyPieceWiseFunc.hh 272-275 (708-711, 1180-1183); Quadratic.hh 129-132,
    MyFunc.hh 272-275. *)
Definition po_construct (c : pclass V A) : M (pmem V A) pobj :=
  let f := pc_parts c in
  match pc_copying c with
  | Keeping =>
      do* o := construct_arrays (length (fo_grad f)) in
      fill_parts o (new_part (fo_val f)) (map new_part (fo_grad f)) (map (map new_part) (fo_hess f))
  | Fresh | Sharing => construct_all c
  end.

(** The copy constructor from the object [r] (RHS): Quadratic.hh 134-142, MyFunc.hh 277-290 clone every part; Quad.hh 178-181, Hexahedron.hh
    301-304, MyPieceWiseFunc.hh 277-280 (713-716, 1185-1188) make new ones. *)
Definition po_copy (c : pclass V A) (r : pobj) : M (pmem V A) pobj :=
  let n := length (fo_grad (pc_parts c)) in
  match pc_copying c with
  | Keeping =>
      do* o := construct_arrays n in
      fill_parts o (do* p := val_ptr r in clone_part p) (map (fun i => do* p := grad_ptr r i in clone_part p) (subscripts n))
        (map (fun i => map (fun j => do* p := hess_ptr r i j in clone_part p) (subscripts n)) (subscripts n))
  | Fresh | Sharing => construct_all c
  end.

(** delete ptr and delete [] array. *)
Definition delete_part (p : nat) : M (pmem V A) unit :=
  do* m := mget in
  do* h := mlift (h_delete (pm_part m) p) in
  mput (mkPmem h (pm_row m) (pm_tab m) (pm_obj m)).
Definition delete_row (r : nat) : M (pmem V A) unit :=
  do* m := mget in
  do* h := mlift (h_delete (pm_row m) r) in
  mput (mkPmem (pm_part m) h (pm_tab m) (pm_obj m)).
Definition delete_tab (t : nat) : M (pmem V A) unit :=
  do* m := mget in
  do* h := mlift (h_delete (pm_tab m) t) in
  mput (mkPmem (pm_part m) (pm_row m) h (pm_obj m)).

(** The destructor: Quad.hh 183-198, Hexahedron.hh 306-328, Quadratic.hh 155-165, MyFunc.hh 307-321, MyPieceWiseFunc.hh 295-309 (731-745,
    1203-1217). *)
Definition po_destroy (c : pclass V A) (o : pobj) : M (pmem V A) unit :=
  let n := length (fo_grad (pc_parts c)) in
  (do* p := val_ptr o in delete_part p) ;;;
  mfor (subscripts n) (fun i => do* p := grad_ptr o i in delete_part p) ;;;
  (do* g := mlift (read_member (po_grad o)) in delete_row g) ;;;
  mfor (subscripts n) (fun i => mfor (subscripts n) (fun j => do* p := hess_ptr o i j in delete_part p)) ;;;
  mfor (subscripts n) (fun i => do* r := row_ptr o i in delete_row r) ;;;
  do* t := mlift (read_member (po_hess o)) in delete_tab t.

(** swap of the elements [i] of two arrays (Quadratic.hh 149-150, MyFunc.hh 297-302). *)
Definition swap_elem (r s : nat) (i : Z) : M (pmem V A) unit :=
  do* a := get_row r i in
  do* b := get_row s i in
  set_row r i b ;;;
  set_row s i a.

(** The swaps of operator= between the objects [x] ( *this ) and [y] (the parameter): Quadratic.hh 146-150, MyFunc.hh 294-302. Swapping _val gives
    the two objects new members; the arrays stay and their elements are swapped. *)
Definition po_swap (c : pclass V A) (x y : pobj) : M (pmem V A) (pobj * pobj) :=
  let n := length (fo_grad (pc_parts c)) in
  do* a := val_ptr x in
  do* b := val_ptr y in
  mfor (subscripts n) (fun i =>
    do* g := mlift (read_member (po_grad x)) in
    do* g' := mlift (read_member (po_grad y)) in
    swap_elem g g' i) ;;;
  mfor (subscripts n) (fun i => mfor (subscripts n) (fun j =>
    do* r := row_ptr x i in
    do* r' := row_ptr y i in
    swap_elem r r' j)) ;;;
  mret (mkPobj (Some b) (po_grad x) (po_hess x), mkPobj (Some a) (po_grad y) (po_hess y)).

(** The assignments of MyPieceWiseFunc.hh 283-293 (719-729, 1191-1201): the pointers to the parts are copied. *)
Definition po_share (c : pclass V A) (x y : pobj) : M (pmem V A) pobj :=
  let n := length (fo_grad (pc_parts c)) in
  do* b := val_ptr y in
  mfor (subscripts n) (fun i =>
    do* p := grad_ptr y i in
    do* g := mlift (read_member (po_grad x)) in
    set_row g i p) ;;;
  mfor (subscripts n) (fun i => mfor (subscripts n) (fun j =>
    do* p := hess_ptr y i j in
    do* r := row_ptr x i in
    set_row r j p)) ;;;
  mret (mkPobj (Some b) (po_grad x) (po_hess x)).

(** ** Function objects as variables of a program, named by their order of creation *)

(** The object [x], which must be alive. *)
Definition po_read (x : nat) : M (pmem V A) pobj := do* m := mget in mlift (h_read (pm_obj m) x).
(** The end of the life of object [x], or new members for it. *)
Definition po_write (x : nat) (o : option pobj) : M (pmem V A) unit :=
  mmod (fun m => mkPmem (pm_part m) (pm_row m) (pm_tab m) (lset (pm_obj m) x o)).
(** A new variable. *)
Definition po_declare (o : pobj) : M (pmem V A) unit :=
  mmod (fun m => mkPmem (pm_part m) (pm_row m) (pm_tab m) (h_new o (pm_obj m))).

(** Default construction. *)
Definition pv_new (c : pclass V A) : M (pmem V A) unit := do* o := po_construct c in po_declare o.

(** Copy construction and clone() (Quad.hh 200-203, Hexahedron.hh 330-333, Quadratic.hh 167-170, MyFunc.hh 324-327, MyPieceWiseFunc.hh 312-315). *)
Definition pv_copy (c : pclass V A) (x : nat) : M (pmem V A) unit :=
  do* r := po_read x in
  do* o := po_copy c r in
  po_declare o.

(** Destruction. *)
Definition pv_destroy (c : pclass V A) (x : nat) : M (pmem V A) unit :=
  do* o := po_read x in
  po_destroy c o ;;;
  po_write x None.

(** x = y. Quadratic.hh 144-153, MyFunc.hh 292-305: the parameter is a copy of y and is destroyed at the end. Quad and Hexahedron have the implicit
    operator=, which copies the three pointers. MyPieceWiseFunc.hh 283-293 (719-729, 1191-1201) returns no value. *)
Definition pv_assign (c : pclass V A) (x y : nat) : M (pmem V A) unit :=
  do* ox := po_read x in
  do* oy := po_read y in
  match pc_copying c with
  | Keeping =>
      do* t := po_copy c oy in
      do* xt := po_swap c ox t in
      po_write x (Some (fst xt)) ;;;
      po_destroy c (snd xt)
  | Fresh => po_write x (Some oy)
  | Sharing => do* o := po_share c ox oy in po_write x (Some o) ;;; mlift (UB UBNoReturn)
  end.

(** A call on the PSimpleBase object at [p]. *)
Definition at_part {B : Type} (p : nat) (f : M (simple V A) B) : M (pmem V A) B :=
  fun m =>
    match h_read (pm_part m) p with
    | Ok s =>
        let put s' := mkPmem (lset (pm_part m) p (Some s')) (pm_row m) (pm_tab m) (pm_obj m) in
        match f s with
        | RRet s' b => RRet (put s') b
        | RThrow s' e => RThrow (put s') e
        | RExit => RExit
        | RUB r => RUB r
        | RNoFuel => RNoFuel
        end
    | Throw e => RThrow m e
    | Exit => RExit
    | UB r => RUB r
    | NoFuel => RNoFuel
    end.

(** The evaluations: Quad.hh 220-238, Hexahedron.hh 350-368, Quadratic.hh 187-205, MyFunc.hh 344-362, MyPieceWiseFunc.hh 332-350. *)
Definition pv_call (x : nat) (var : V) : M (pmem V A) A := do* o := po_read x in do* p := val_ptr o in at_part p (sp_call var).
Definition pv_call_grad (x : nat) (var : V) (i : Z) : M (pmem V A) A := do* o := po_read x in do* p := grad_ptr o i in at_part p (sp_call var).
Definition pv_call_hess (x : nat) (var : V) (i j : Z) : M (pmem V A) A := do* o := po_read x in do* p := hess_ptr o i j in at_part p (sp_call var).

(** eval_grad, eval_hess: Quad.hh 240-252, Hexahedron.hh 370-382, Quadratic.hh 207-215, MyFunc.hh 364-376, MyPieceWiseFunc.hh 352-364. *)
Definition pv_eval_grad (c : pclass V A) (x : nat) (var : V) : M (pmem V A) unit :=
  po_read x ;;; mfor (pc_eval_grad c) (fun i => pv_call_grad x var i ;;; mret tt).
Definition pv_eval_hess (c : pclass V A) (x : nat) (var : V) : M (pmem V A) unit :=
  po_read x ;;; mfor (pc_eval_hess c) (fun ij => pv_call_hess x var (fst ij) (snd ij) ;;; mret tt).

(** The part itself, by value: what simplefunction, grad_simplefunction and hess_simplefunction clone (Quad.hh 205-218, Hexahedron.hh 335-348,
    Quadratic.hh 172-185, MyFunc.hh 329-342, MyPieceWiseFunc.hh 317-330; PSimpleFunction.hh 109-115). *)
Definition pv_part (x : nat) : M (pmem V A) (simple V A) := do* o := po_read x in do* p := val_ptr o in at_part p mget.
Definition pv_part_grad (x : nat) (i : Z) : M (pmem V A) (simple V A) := do* o := po_read x in do* p := grad_ptr o i in at_part p mget.
Definition pv_part_hess (x : nat) (i j : Z) : M (pmem V A) (simple V A) := do* o := po_read x in do* p := hess_ptr o i j in at_part p mget.

(** The stored results: Quad.hh 254-267, Hexahedron.hh 384-397, Quadratic.hh 217-230, MyFunc.hh 378-391, MyPieceWiseFunc.hh 366-379. *)
Definition pv_get (x : nat) : M (pmem V A) A := do* s := pv_part x in mlift (sp_get s).
Definition pv_get_grad (x : nat) (i : Z) : M (pmem V A) A := do* s := pv_part_grad x i in mlift (sp_get s).
Definition pv_get_hess (x : nat) (i j : Z) : M (pmem V A) A := do* s := pv_part_hess x i j in mlift (sp_get s).

End Parts.
