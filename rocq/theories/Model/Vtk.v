(** Model of the text parsing of include/IntegrationTools/pfield/Mesh.hh (read_vtk) and of pfield/Body.hh. *)
From Coq Require Import ZArith List Bool Ascii String.
From Verif Require Import Model.Outcome Model.Num Model.PNDArray Model.Bin Model.PSimple Model.Interpolator Model.Quad
  Model.Hexahedron Model.Mesh Model.PField Model.Stream.
Import ListNotations.
Local Open Scope Z_scope.

(** Mesh.hh 202-211, 215: the point made of the three numbers of a line (the third one is dropped in 2D); Coordinate.hh 16 leaves
    the coordinates of a new point indeterminate. *)
Record vkind (O : NumOps) : Type := mkVkind {
  vk_kind : kind O;
  vk_point : option (num O) -> option (num O) -> option (num O) -> outcome (kpoint vk_kind)
}.
Arguments vk_kind {O}.
Arguments vk_point {O}.

(** Mesh.hh 202-206: DIM = 2. *)
Definition quad_vkind (O : NumOps) : vkind O :=
  mkVkind O (quad_kind O) (fun x y _ => let* a := read_member x in let* b := read_member y in Ok (a, b)).

(** Mesh.hh 207-211: DIM = 3. *)
Definition hex_vkind (O : NumOps) : vkind O :=
  mkVkind O (hex_kind O)
    (fun x y z => let* a := read_member x in let* b := read_member y in let* c := read_member z in Ok (mkC3 a b c)).

(** std::vector::max_size for elements of [bytes] bytes: reserve, resize and the sized constructor throw length_error
    beyond it (Mesh.hh 198, 290, 296, 306; Body.hh 86). Running out of memory below it is not modelled. *)
Definition max_elems (bytes : Z) : Z := 9223372036854775807 / bytes.
Definition check_size {S : Type} (bytes n : Z) : M S unit :=
  if max_elems bytes <? n then mlift (Throw LengthError) else mret tt.

Section Vtk.
Context {O : NumOps} (V : vkind O).
Local Notation K := (vk_kind V).
Local Notation P := (kpoint (vk_kind V)).
(** operator>>(stream, double). *)
Context (num_scanner : scanner (num O)).

(** Mesh.hh 161-171: the local variables of read_vtk that live across iterations ([l_x], [l_y], [l_z] are _coord and d_dummy; str and
    type are written before they could be read and left out, Ncell_numbers and i_dummy are never used). *)
Record mlocals : Type := mkLoc {
  l_line : text;
  l_np : option Z;
  l_nc : option Z;
  l_uli : option Z;
  l_cell : list Z;
  l_x : option (num O);
  l_y : option (num O);
  l_z : option (num O)
}.
Definition loc_new : mlocals := mkLoc [] None None None [] None None None.

(** The mesh being read, the file and the local variables. *)
Record vst : Type := mkVst { v_mesh : mesh O K; v_in : istr; v_loc : mlocals }.

(** A call on the mesh. *)
Definition on_mesh {A : Type} (a : M (mesh O K) A) : M vst A :=
  fun v => match a (v_mesh v) with
           | RRet m x => RRet (mkVst m (v_in v) (v_loc v)) x
           | RThrow m e => RThrow (mkVst m (v_in v) (v_loc v)) e
           | RExit => RExit
           | RUB r => RUB r
           | RNoFuel => RNoFuel
           end.

(** Mesh.hh 189-191, 279-282, 341-345: ss.clear(); ss.str(line); ss >> str >> n, with [old] the value of n before. *)
Definition header_count (line : text) (old : option Z) : option Z :=
  let (_, s) := extract word_scanner None (is_open (Some line)) in
  fst (extract ulong_scanner old s).

(** Mesh.hh 202-211, 215: the three numbers of a point. *)
Definition read_point : M vst P :=
  fun v =>
    let l := v_loc v in
    let (x, s1) := extract num_scanner (l_x l) (v_in v) in
    let (y, s2) := extract num_scanner (l_y l) s1 in
    let (z, s3) := extract num_scanner (l_z l) s2 in
    mlift (vk_point V x y z)
      (mkVst (v_mesh v) s3 (mkLoc (l_line l) (l_np l) (l_nc l) (l_uli l) (l_cell l) x y z)).

(** Mesh.hh 200-216: [n] points. *)
Fixpoint read_points (n : nat) : M vst (list P) :=
  match n with
  | 0%nat => mret []
  | S n' => do* p := read_point in do* ps := read_points n' in mret (p :: ps)
  end.

(** Mesh.hh 187-269: a POINTS line was read. The int counter overflows after 2^31 points; the iterations before can only
    return or be undefined themselves. *)
Definition points_section : M vst unit :=
  mmod (fun v => let l := v_loc v in
                 mkVst (v_mesh v) (v_in v)
                   (mkLoc (l_line l) (header_count (l_line l) (l_np l)) (l_nc l) (l_uli l) (l_cell l) (l_x l) (l_y l) (l_z l))) ;;;
  do* v := mget in
  do* n := mlift (read_member (l_np (v_loc v))) in
  check_size (8 * Z.of_nat (kdim K)) n ;;;
  if INT_MAX <? n then mlift (UB UBOverflow)
  else do* ps := read_points (Z.to_nat n) in on_mesh (mesh_points ps).

(** Mesh.hh 307-310: the node numbers of a cell, from position [j] on. *)
Fixpoint read_ids (n : nat) (j : Z) : M vst unit :=
  match n with
  | 0%nat => mret tt
  | S n' =>
      do* v := mget in
      let l := v_loc v in
      do* old := mlift (vget (l_cell l) j) in
      (let (a, s) := extract ulong_scanner (Some old) (v_in v) in
       do* a' := mlift (read_member a) in
       do* c := mlift (vset (l_cell l) j a') in
       mput (mkVst (v_mesh v) s (mkLoc (l_line l) (l_np l) (l_nc l) (l_uli l) c (l_x l) (l_y l) (l_z l)))) ;;;
      read_ids n' (j + 1)
  end.

(** Mesh.hh 304-310: one cell: its number of nodes, then their numbers. The int counter j overflows after 2^31 numbers. *)
Definition read_cell : M vst unit :=
  mmod (fun v => let l := v_loc v in
                 let (u, s) := extract ulong_scanner (l_uli l) (v_in v) in
                 mkVst (v_mesh v) s (mkLoc (l_line l) (l_np l) (l_nc l) u (l_cell l) (l_x l) (l_y l) (l_z l))) ;;;
  do* v := mget in
  let l := v_loc v in
  do* u := mlift (read_member (l_uli l)) in
  check_size 8 u ;;;
  if INT_MAX <? u then mlift (UB UBOverflow)
  else
    mput (mkVst (v_mesh v) (v_in v)
            (mkLoc (l_line l) (l_np l) (l_nc l) (l_uli l) (vresize 0 (l_cell l) (Z.to_nat u)) (l_x l) (l_y l) (l_z l))) ;;;
    read_ids (Z.to_nat u) 0.

(** Mesh.hh 315-323: the interpolators of the cell just read are appended. *)
Definition build_cell (i : Z) (cell : list Z) : M (mesh O K) unit :=
  do* m := mget in
  do* its := mlift (cell_interp (me_node m) i cell) in
  mput (mkMesh (me_min m) (me_max m) (me_node m) (me_interp m ++ its) (me_bin m)).

(** Mesh.hh 302-324: [n] cells, the next one being number [i]. *)
Fixpoint read_cells (n : nat) (i : Z) : M vst unit :=
  match n with
  | 0%nat => mret tt
  | S n' =>
      read_cell ;;;
      do* v := mget in
      on_mesh (build_cell i (l_cell (v_loc v))) ;;;
      read_cells n' (i + 1)
  end.

(** Mesh.hh 330-334: all interpolators are binned; the size of the fullest bin is computed for the log. *)
Definition bin_all : M (mesh O K) unit :=
  do* m := mget in
  mfor (me_interp m) (fun it => on_bin (bin_add_range it (kcoords K (it_min it)) (kcoords K (it_max it)))) ;;;
  do* m' := mget in
  do* mx := mlift (mesh_max_bin_size m') in
  mret tt.

(** Mesh.hh 278-337: a CELLS line was read; reserve(Ncells*4), reserve(Ncells*8) compute modulo 2^64. The counter overflows
    after 2^31 cells. *)
Definition cells_section : M vst unit :=
  mmod (fun v => let l := v_loc v in
                 mkVst (v_mesh v) (v_in v)
                   (mkLoc (l_line l) (l_np l) (header_count (l_line l) (l_nc l)) (l_uli l) (l_cell l) (l_x l) (l_y l) (l_z l))) ;;;
  do* v := mget in
  do* n := mlift (read_member (l_nc (v_loc v))) in
  check_size 8 ((n * Z.of_nat (kcorners K)) mod (ULONG_MAX + 1)) ;;;
  read_cells (Z.to_nat (Z.min n (INT_MAX + 1))) 0 ;;;
  if INT_MAX <? n then mlift (UB UBOverflow) else on_mesh bin_all.

(** Mesh.hh 347-357: [n] cell types. *)
Fixpoint read_types (n : nat) : M vst unit :=
  match n with
  | 0%nat => mret tt
  | S n' =>
      mmod (fun v => let l := v_loc v in
                     let (u, s) := extract ulong_scanner (l_uli l) (v_in v) in
                     mkVst (v_mesh v) s (mkLoc (l_line l) (l_np l) (l_nc l) u (l_cell l) (l_x l) (l_y l) (l_z l))) ;;;
      do* v := mget in
      do* u := mlift (read_member (l_uli (v_loc v))) in
      if negb (u =? 9) && negb (u =? 12) then mlift Exit else read_types n'
  end.

(** Mesh.hh 340-359: a CELL_TYPES line was read. *)
Definition types_section : M vst unit :=
  mmod (fun v => let l := v_loc v in
                 mkVst (v_mesh v) (v_in v)
                   (mkLoc (l_line l) (l_np l) (header_count (l_line l) (l_nc l)) (l_uli l) (l_cell l) (l_x l) (l_y l) (l_z l))) ;;;
  do* v := mget in
  do* n := mlift (read_member (l_nc (v_loc v))) in
  read_types (Z.to_nat (Z.min n (INT_MAX + 1))) ;;;
  if INT_MAX <? n then mlift (UB UBOverflow) else mret tt.

(** Mesh.hh 175-361: the body of the loop; the result says whether the function returns (359). An empty line has
    line\[0\] = '\0' (C++11). *)
Definition mesh_iteration : M vst bool :=
  mmod (fun v => let l := v_loc v in
                 let (line, s) := getline (l_line l) (v_in v) in
                 mkVst (v_mesh v) s (mkLoc line (l_np l) (l_nc l) (l_uli l) (l_cell l) (l_x l) (l_y l) (l_z l))) ;;;
  do* v := mget in
  let line := l_line (v_loc v) in
  if prefix_of (txt "POINTS") line then points_section ;;; mret false
  else if prefix_of (txt "CELLS") line then cells_section ;;; mret false
  else if prefix_of (txt "CELL_TYPES") line then types_section ;;; mret true
  else mret false.

(** Mesh.hh 173-362: while(!infile.eof()), at most [fuel] times. *)
Fixpoint mesh_loop (fuel : nat) : M vst unit :=
  fun v =>
    if is_eof (v_in v) then RRet v tt
    else match fuel with
         | 0%nat => RNoFuel
         | S f => (do* stop := mesh_iteration in if stop then mret tt else mesh_loop f) v
         end.

(** Body.hh 22-24: data members. *)
Record body : Type := mkBody { bo_mesh : mesh O K; bo_fields : list (@pfield O (scalar_field O)) }.

(** Body.hh 33: default constructor. *)
Definition body_new : body := mkBody mesh_new [].

(** Body.hh 53-56: local variables (numcomp is never used). *)
Record bst : Type := mkBst {
  b_body : body;
  b_in : istr;
  b_line : text;
  b_name : text;
  b_np : option Z
}.

(** Body.hh 86-90: the data of a field; the vector's elements start as 0.0. *)
Fixpoint read_data (n : nat) (s : istr) : list (num O) * istr :=
  match n with
  | 0%nat => ([], s)
  | S n' =>
      let (a, s1) := extract num_scanner (Some (nofZ O 0)) s in
      let (l, s2) := read_data n' s1 in
      (match a with Some x => x | None => nofZ O 0 end :: l, s2)
  end.

(** Body.hh 77-79: ss >> str >> name. *)
Definition header_name (line : text) (old : text) : text :=
  let (_, s) := extract word_scanner None (is_open (Some line)) in
  match fst (extract word_scanner (Some old) s) with Some n => n | None => old end.

(** Body.hh 75-118: a SCALARS line was read. *)
Definition scalars_section : M bst unit :=
  mmod (fun b => let (line, s) := getline (b_line b) (b_in b) in
                 mkBst (b_body b) s line (header_name (b_line b) (b_name b)) (b_np b)) ;;;
  do* b := mget in
  do* n := mlift (read_member (b_np b)) in
  check_size 8 n ;;;
  if INT_MAX <? n then mlift (UB UBOverflow)
  else
    (let (data, s) := read_data (Z.to_nat n) (b_in b) in
     do* p := mlift (pf_new (F := scalar_field O) (string_of_list_ascii (b_name b)) (bo_mesh (b_body b)) data (nofZ O 0)) in
     mput (mkBst (mkBody (bo_mesh (b_body b)) (bo_fields (b_body b) ++ [p])) s (b_line b) (b_name b) (b_np b))).

(** Body.hh 60-119: the body of the loop. *)
Definition body_iteration : M bst unit :=
  mmod (fun b => let (line, s) := getline (b_line b) (b_in b) in mkBst (b_body b) s line (b_name b) (b_np b)) ;;;
  do* b := mget in
  if prefix_of (txt "POINT_DATA") (b_line b) then
    mput (mkBst (b_body b) (b_in b) (b_line b) (b_name b) (header_count (b_line b) (b_np b)))
  else if prefix_of (txt "SCALARS") (b_line b) then scalars_section
  else mret tt.

(** Body.hh 58-120: while(!infile.eof()), at most [fuel] times. *)
Fixpoint body_loop (fuel : nat) : M bst unit :=
  fun b =>
    if is_eof (b_in b) then RRet b tt
    else match fuel with
         | 0%nat => RNoFuel
         | S f => (body_iteration ;;; body_loop f) b
         end.

(** Body.hh 41-123: read_vtk of a file with contents [f] ([None]: it cannot be opened). [fuel] bounds each of the two
    loops. *)
Definition body_read_vtk (fuel : nat) (f : option text) : M body unit :=
  fun bo =>
    match mesh_loop fuel (mkVst (bo_mesh bo) (is_open f) loc_new) with
    | RRet v _ =>
        match body_loop fuel (mkBst (mkBody (v_mesh v) (bo_fields bo)) (v_in v) [] [] None) with
        | RRet b _ => RRet (b_body b) tt
        | RThrow b e => RThrow (b_body b) e
        | RExit => RExit
        | RUB r => RUB r
        | RNoFuel => RNoFuel
        end
    | RThrow v e => RThrow (mkBody (v_mesh v) (bo_fields bo)) e
    | RExit => RExit
    | RUB r => RUB r
    | RNoFuel => RNoFuel
    end.

(** Body.hh 125-133: find_scalar_field; the result is the position of the field returned by reference. *)
Fixpoint find_from (i : nat) (l : list (@pfield O (scalar_field O))) (name : string) : outcome nat :=
  match l with
  | [] => Throw InvalidArgument
  | p :: l' => if String.eqb (pf_name p) name then Ok i else find_from (S i) l' name
  end.
Definition find_scalar_field (b : body) (name : string) : outcome nat := find_from 0 (bo_fields b) name.

End Vtk.
