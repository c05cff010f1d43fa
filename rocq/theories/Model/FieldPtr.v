(** Model of pointers to the fields of a Body: include/IntegrationTools/pfield/Body.hh 24, 115, 125-133 and src/c/PExtern.cc 94-170, 512-566. A Body's
    fields are the elements of a std::vector, whose memory is modelled here; the interpolators and the mesh are in Life.v. *)
From Coq Require Import ZArith List String.
From Verif Require Import Model.Outcome Model.Wrapper.
Import ListNotations.

Section FieldPtr.
(** A field (PField.v), its name (PFuncBase.hh 39-42), and the std::vector's choice of a capacity larger than the given one, which is
    left to the implementation. *)
Context {F : Type} (name : F -> string) (grow : nat -> nat).

(** The memory of a vector: its elements, and how many it has room for. *)
Record block : Type := mkBlock { bk_fields : list F; bk_room : nat }.

(** A pointer to an element: the block, and the position in it. *)
Definition fptr : Type := (nat * nat)%type.

(** Memory: the bodies, each with the address of the block of scalar_field (Body.hh 24), and the blocks; the caller's variables
    of type Body* and PFuncBase*, which start out as NULL (as in CApi.v). Simplification: an empty vector has an (empty) block. *)
Record fstate : Type := mkF { f_body : heap nat; f_block : heap block; f_bvar : list (option nat); f_pvar : list (option fptr) }.
Definition f_start (nb np : nat) : fstate := mkF [] [] (repeat None nb) (repeat None np).

(** A variable of the caller. *)
Definition f_var {A : Type} (l : list (option A)) (k : nat) : outcome (option A) :=
  match nth_error l k with Some p => Ok p | None => UB UBDangling end.
(** The address in a variable that is to be dereferenced. *)
Definition f_deref {A : Type} (l : list (option A)) (k : nat) : outcome A :=
  let* p := f_var l k in match p with Some a => Ok a | None => UB UBNull end.

(** Body.hh 115: scalar_field.push_back. When there is no room, the elements move to a new block and the old one is freed. *)
Definition push_back (st : heap block * nat) (x : F) : outcome (heap block * nat) :=
  let (h, p) := st in
  let* b := h_read h p in
  if Nat.ltb (List.length (bk_fields b)) (bk_room b) then Ok (lset h p (Some (mkBlock (bk_fields b ++ [x]) (bk_room b))), p)
  else
    let* h' := h_delete h p in
    Ok (h_new (mkBlock (bk_fields b ++ [x]) (grow (bk_room b))) h', List.length h').

(** Body.hh 41-123, of which only the fields read, [fs]: one push_back for each. *)
Definition f_read_body (a : nat) (fs : list F) (s : fstate) : outcome fstate :=
  let* p := h_read (f_body s) a in
  let* r := ofold push_back fs (f_block s, p) in
  Ok (mkF (lset (f_body s) a (Some (snd r))) (fst r) (f_bvar s) (f_pvar s)).

(** PExtern.cc 516-520, 544-548: Body2D_new and Body3D_new, for a file with the fields [fs] that can be read. *)
Definition f_new (k : nat) (fs : list F) : M fstate unit :=
  do* s := mget in
  do* _ := mlift (f_var (f_bvar s) k) in
  let a := List.length (f_body s) in
  do* s' := mlift (f_read_body a fs (mkF (h_new (List.length (f_block s)) (f_body s)) (h_new (mkBlock [] 0) (f_block s))
                                        (lset (f_bvar s) k (Some a)) (f_pvar s))) in
  mput s'.

(** A further file read into a body (read_vtk in C++; the C interface has no function for it). *)
Definition f_read (k : nat) (fs : list F) : M fstate unit :=
  do* s := mget in
  do* a := mlift (f_deref (f_bvar s) k) in
  do* s' := mlift (f_read_body a fs s) in
  mput s'.

(** PExtern.cc 522-526, 550-554: delete b; b = NULL. The vector frees its block. *)
Definition f_delete_body (k : nat) : M fstate unit :=
  do* s := mget in
  do* v := mlift (f_var (f_bvar s) k) in
  match v with
  | None => mret tt
  | Some a =>
      do* p := mlift (h_read (f_body s) a) in
      do* hb := mlift (h_delete (f_block s) p) in
      do* h := mlift (h_delete (f_body s) a) in
      mput (mkF h hb (lset (f_bvar s) k None) (f_pvar s))
  end.

(** Body.hh 127-131: the position of the first field of that name. *)
Fixpoint position (x : string) (fs : list F) : option nat :=
  match fs with
  | [] => None
  | f :: fs' => if String.eqb (name f) x then Some O else option_map S (position x fs')
  end.

(** PExtern.cc 534-537, 562-565: ScalarField2D and ScalarField3D; find_scalar_field (Body.hh 125-133) throws when there is no such field,
    before f is assigned. *)
Definition f_find (j k : nat) (x : string) : M fstate unit :=
  do* s := mget in
  do* _ := mlift (f_var (f_pvar s) j) in
  do* a := mlift (f_deref (f_bvar s) k) in
  do* p := mlift (h_read (f_body s) a) in
  do* b := mlift (h_read (f_block s) p) in
  match position x (bk_fields b) with
  | Some i => mput (mkF (f_body s) (f_block s) (f_bvar s) (lset (f_pvar s) j (Some (p, i))))
  | None => mlift (Throw InvalidArgument)
  end.

(** PExtern.cc 100-170: a call on *f, which may change the object. *)
Definition f_call {B : Type} (j : nat) (m : M F B) : M fstate B :=
  do* s := mget in
  do* q := mlift (f_deref (f_pvar s) j) in
  do* b := mlift (h_read (f_block s) (fst q)) in
  do* x := mlift (match nth_error (bk_fields b) (snd q) with Some x => Ok x | None => UB UBDangling end) in
  let put := fun y => mkF (f_body s) (lset (f_block s) (fst q) (Some (mkBlock (lset (bk_fields b) (snd q) y) (bk_room b)))) (f_bvar s) (f_pvar s) in
  match m x with
  | RRet y v => mput (put y) ;;; mret v
  | RThrow y e => mput (put y) ;;; mlift (Throw e)
  | RExit => mlift Exit
  | RUB u => mlift (UB u)
  | RNoFuel => mlift NoFuel
  end.

(** PExtern.cc 94-98: PFunction_dsd_delete, delete f; f = NULL. An element of a vector was not made by new. *)
Definition f_delete (j : nat) : M fstate unit :=
  do* s := mget in
  do* v := mlift (f_var (f_pvar s) j) in
  match v with
  | None => mret tt
  | Some q => mlift (UB UBBadDelete)
  end.
End FieldPtr.
Arguments block F : clear implicits.
Arguments fstate F : clear implicits.
