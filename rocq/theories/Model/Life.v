(** Model of who owns what in a Body (under include/IntegrationTools/pfield): Body.hh 20-33, Mesh.hh 115-156, interpolation/Interpolator.hh 15-30,
    PField.hh 24-73, and the calls of src/c/PExtern.cc 516-565. Only the objects, their addresses and their lifetimes; the numbers are in Mesh.v,
    PField.v and Vtk.v. *)
From Coq Require Import ZArith List Bool.
From Verif Require Import Model.Outcome Model.Wrapper.
Import ListNotations.

(** A Body. Mesh.hh 128: _interp, the addresses of its interpolators; 134: _bfunc, those of its basis functions; Body.hh 24: scalar_field, of
    which the pointer _mesh of each (PField.hh 31): the address of the Body whose mesh it is.
    Simplification: the pointers in _bin (Mesh.hh 138) are among those of _interp and not listed again. *)
Record lbody : Type := mkLB { lb_interp : list nat; lb_bfunc : list nat; lb_field : list nat }.

(** Memory, one list of objects (Wrapper.v) per class: the bodies; the QuadValues or HexahedronValues, each with its pointer _bfunc
    (Interpolator.hh 20); the Quad or Hexahedron objects; and the PFields made by clone(), each with its pointer _mesh. *)
Record life : Type := mkLife { lf_body : heap lbody; lf_interp : heap nat; lf_bfunc : heap unit; lf_clone : heap nat }.
Definition life_start : life := mkLife [] [] [] [].

(** Body.hh 33 (and new Body, PExtern.cc 518, 546). *)
Definition l_new (s : life) : outcome life :=
  Ok (mkLife (h_new (mkLB [] [] []) (lf_body s)) (lf_interp s) (lf_bfunc s) (lf_clone s)).

(** Body.hh 41-123 with Mesh.hh 159-350, for a file with [n] interpolators (four or eight per cell) and [k] fields: Mesh.hh 276-292 one basis
    function, 308-316 with 65-69 or 97-101 the interpolators, Body.hh 115 the fields, made on this body's mesh.
    Simplification: Mesh.hh 65, 97 and 277 push a copy of an indeterminate pointer, overwritten at once; taken as harmless. *)
Definition l_read (a n k : nat) (s : life) : outcome life :=
  let* b := h_read (lf_body s) a in
  let bf := length (lf_bfunc s) in
  let b' := mkLB (lb_interp b ++ seq (length (lf_interp s)) n) (lb_bfunc b ++ [bf]) (lb_field b ++ repeat a k) in
  Ok (mkLife (lset (lf_body s) a (Some b')) (lf_interp s ++ repeat (Some bf) n) (h_new tt (lf_bfunc s)) (lf_clone s)).

(** delete _interp[i] (Mesh.hh 147-149). The static type is Interpolator, which has no destructor of its own (Interpolator.hh 15-87); the object
    is of a derived class. [virt]: whether Interpolator's destructor is virtual. In the code it is not: [delete_interp false]. *)
Definition delete_interp (virt : bool) (h : heap nat) (p : nat) : outcome (heap nat) :=
  let* h' := h_delete h p in
  if virt then Ok h' else UB UBBadDelete.

(** delete b (PExtern.cc 522-526, 550-554) or the end of a Body's life: ~Mesh, Mesh.hh 145-156. PFuncBase's destructor is virtual
    (PFuncBase.hh 37). *)
Definition l_delete (virt : bool) (a : nat) (s : life) : outcome life :=
  let* b := h_read (lf_body s) a in
  let* hi := ofold (delete_interp virt) (lb_interp b) (lf_interp s) in
  let* hb := ofold h_delete (lb_bfunc b) (lf_bfunc s) in
  let* ho := h_delete (lf_body s) a in
  Ok (mkLife ho hi hb (lf_clone s)).

(** The implicit copy constructor of Body and Mesh: member by member, the pointers included. The copied PFields keep their _mesh. *)
Definition l_copy (a : nat) (s : life) : outcome life :=
  let* b := h_read (lf_body s) a in
  Ok (mkLife (h_new b (lf_body s)) (lf_interp s) (lf_bfunc s) (lf_clone s)).

(** The implicit operator= of Body and Mesh. *)
Definition l_assign (a c : nat) (s : life) : outcome life :=
  let* b := h_read (lf_body s) c in
  let* _ := h_read (lf_body s) a in
  Ok (mkLife (lset (lf_body s) a (Some b)) (lf_interp s) (lf_bfunc s) (lf_clone s)).

(** An evaluation on the mesh of body [a] that asks the interpolators numbered [seen] (those in a bin, Mesh.hh 389-480): the body, the
    interpolators and their basis functions must be alive. *)
Definition l_touch (a : nat) (seen : list nat) (s : life) : outcome life :=
  let* b := h_read (lf_body s) a in
  ofold (fun s' i =>
    match nth_error (lb_interp b) i with
    | None => UB UBOutOfBounds
    | Some p => let* bf := h_read (lf_interp s') p in let* _ := h_read (lf_bfunc s') bf in Ok s'
    end) seen s.

(** The pointer _mesh of field [k] of body [a] (Body.hh 125-133; PExtern.cc 534-537, 562-565). *)
Definition l_field (a k : nat) (s : life) : outcome nat :=
  let* b := h_read (lf_body s) a in
  match nth_error (lb_field b) k with Some m => Ok m | None => UB UBOutOfBounds end.

(** An evaluation of field [k] of body [a] (PField.hh 100-220). *)
Definition l_eval (a k : nat) (seen : list nat) (s : life) : outcome life :=
  let* m := l_field a k s in l_touch m seen s.

(** clone of a field (PField.hh 70-73), as when it is put into a PFunction (PFunction.hh 183-189). *)
Definition l_clone (a k : nat) (s : life) : outcome life :=
  let* m := l_field a k s in
  Ok (mkLife (lf_body s) (lf_interp s) (lf_bfunc s) (h_new m (lf_clone s))).

(** An evaluation of a clone, and its deletion. *)
Definition l_eval_clone (c : nat) (seen : list nat) (s : life) : outcome life :=
  let* m := h_read (lf_clone s) c in l_touch m seen s.
Definition l_delete_clone (c : nat) (s : life) : outcome life :=
  let* h := h_delete (lf_clone s) c in
  Ok (mkLife (lf_body s) (lf_interp s) (lf_bfunc s) h).
