(** Model of src/c/PExtern.cc beyond handles (CApi.v): names copied into the caller's buffer, basis sets checked out of the library, and the
    series functions PSeriesFunction_dsis_*. *)
From Coq Require Import ZArith List Ascii String.
From Verif Require Import Model.Outcome Model.Num Model.PNDArray Model.BasisSet Model.Series Model.Samples.
Import ListNotations.
Local Open Scope Z_scope.

(** std::strcpy(buffer, src): the characters of [src] up to the first NUL, and a NUL; writing behind the buffer is undefined. *)
Fixpoint strcpy (src buffer : list ascii) : outcome (list ascii) :=
  match buffer with
  | [] => UB UBOutOfBounds
  | _ :: rest =>
      match src with
      | [] => Ok (zero :: rest)
      | c :: src' => if Ascii.eqb c zero then Ok (zero :: rest) else let* r := strcpy src' rest in Ok (c :: r)
      end
  end.

(** PExtern.cc 34-37, 67-70, 100-103, 110-113, 115-118, 187-190, 192-195: the name (or description, or the name or description of a variable)
    of the object, copied into the caller's [buffer]. *)
Definition c_text (name : string) (buffer : list ascii) : outcome (list ascii) := strcpy (list_ascii_of_string name) buffer.

Section Dsis.
Variable O : NumOps.
Local Notation D := (num O).
Local Notation dset := (bset (num O) (num O)).
Local Notation dseries := (series (num_series O)).

(** A generated basis set class (tests/testlib/Monomial.hh 2620-2914): the name its objects report, its limit and its term functions. *)
Record bclass : Type := mkClass {
  bc_name : string;
  bc_limit : option Z;
  bc_fun : Z -> D -> outcome D;
  bc_dfun : Z -> D -> outcome D;
  bc_ddfun : Z -> D -> outcome D
}.

(** Class(N); the int [N] becomes a size_type. *)
Definition bc_new (c : bclass) (N : Z) : outcome dset :=
  bs_make (nofZ O 0) (bc_name c) (bc_limit c) (bc_fun c) (bc_dfun c) (bc_ddfun c) (int_to_size N).

(** The generated checkout functions for basis sets (lw.cpp 860-871, 993-1002), PExtern.cc 176-179: the class whose name is asked for, else
    runtime_error. Simplification: the literal compared with is the name the class's objects report, as the function writer makes them. *)
Fixpoint checkout_set (lib : list bclass) (name : string) (N : Z) : outcome dset :=
  match lib with
  | [] => Throw RuntimeError
  | c :: lib' => if String.eqb name (bc_name c) then bc_new c N else checkout_set lib' name N
  end.

(** *basis_set[i], for the caller's array of pointers; [None] is NULL. *)
Definition star (arr : list (option dset)) (i : Z) : outcome dset :=
  let* p := vget arr i in match p with None => UB UBNull | Some b => Ok b end.

(** PExtern.cc 270-273: PSeriesFunction_dsis_new. *)
Definition dsis_new : dseries := @se_new0 (num_series O) (nofZ O 0) (nofZ O 1).

(** PExtern.cc 275-282: PSeriesFunction_dsis_setnew; push_back makes a PBasisSet, a clone. *)
Definition dsis_setnew (arr : list (option dset)) (order : Z) : outcome dseries :=
  let* vec := ofold (fun vec i => let* b := star arr i in Ok (vec ++ [Some b])) (zseq order) [] in
  @se_new (num_series O) (nofZ O 0) (nofZ O 1) vec.

(** PExtern.cc 295-306: PSeriesFunction_dsis_set; each set is checked out anew by name and size. *)
Definition dsis_set (lib : list bclass) (arr : list (option dset)) (order : Z) : M dseries unit :=
  do* vec := mlift (ofold (fun vec i => let* b := star arr i in
                                        let* tmp := checkout_set lib (bs_name b) (size_to_int (bs_size b)) in
                                        Ok (vec ++ [Some tmp])) (zseq order) []) in
  @se_set (num_series O) vec.

(** PExtern.cc 308-311, 313-316, 318-321: the shape of the coefficient array. *)
Definition dsis_order (s : dseries) : Z := nd_order (se_coeff s).
Definition dsis_volume (s : dseries) : Z := nd_volume (se_coeff s).
Definition dsis_dim (s : dseries) (i : Z) : outcome Z := nd_dim_i (se_coeff s) i.

(** PExtern.cc 323-326, 328-331: coefficients read. *)
Definition dsis_get_linear_coeff (s : dseries) (i : Z) : outcome D := nd_get (se_coeff s) i.
Definition dsis_get_tensor_coeff (s : dseries) (term : list Z) : outcome D := nd_at (se_coeff s) term.

(** PExtern.cc 333-336, 338-341: coefficients assigned. *)
Definition dsis_set_linear_coeff (i : Z) (a : D) : M dseries unit :=
  on_coeff (S := num_series O) (do* c := mget in do* c' := mlift (nd_set c i a) in mput c').
Definition dsis_set_tensor_coeff (term : list Z) (a : D) : M dseries unit :=
  on_coeff (S := num_series O) (do* c := mget in do* c' := mlift (nd_put c term a) in mput c').

(** PExtern.cc 343-346, 348-353: positions; tensor_indices overwrites [term]. *)
Definition dsis_linear_index (s : dseries) (term : list Z) : outcome Z := linear_index (se_coeff s) term.
Definition dsis_tensor_indices (s : dseries) (l : Z) (term : list Z) : outcome (list Z) := tensor_indices (se_coeff s) l term.
End Dsis.
Arguments mkClass {O}.
Arguments bc_name {O}.
Arguments bc_limit {O}.
Arguments bc_fun {O}.
Arguments bc_dfun {O}.
Arguments bc_ddfun {O}.
Arguments bc_new {O}.
Arguments checkout_set {O}.
Arguments star {O}.
Arguments dsis_setnew {O}.
Arguments dsis_set {O}.
Arguments dsis_order {O}.
Arguments dsis_volume {O}.
Arguments dsis_dim {O}.
Arguments dsis_get_linear_coeff {O}.
Arguments dsis_get_tensor_coeff {O}.
Arguments dsis_set_linear_coeff {O}.
Arguments dsis_set_tensor_coeff {O}.
Arguments dsis_linear_index {O}.
Arguments dsis_tensor_indices {O}.

(** tests/testlib/Monomial.hh and Chebyshev.hh 2620-2914: the two sample classes, as a library. *)
Definition sample_class (O : NumOps) (pw : num O -> num O -> num O) (name : string) (l : list sclass) (cases : list (string * string * string)) : bclass O :=
  mkClass name (Some 30) (term_fun O pw l cases (fun c => fst (fst c))) (term_fun O pw l cases (fun c => snd (fst c))) (term_fun O pw l cases snd).
Definition sample_library (O : NumOps) (pw : num O -> num O -> num O) : list (bclass O) :=
  [sample_class O pw "Chebyshev" chebyshev_classes chebyshev_cases; sample_class O pw "Monomial" monomial_classes monomial_cases].
