(** Model of include/IntegrationTools/pfield/Mesh.hh (class Mesh, without the parsing of text: see Vtk.v). *)
From Coq Require Import ZArith List Bool.
From Verif Require Import Model.Outcome Model.Num Model.PNDArray Model.Bin Model.PSimple Model.Interpolator Model.Quad
  Model.Hexahedron.
Import ListNotations.
Local Open Scope Z_scope.

(** What depends on the template argument DIM: the point type, its coordinates, the number of corners of a cell
    (Mesh.hh 62, 93), the corner opposite to corner 0 (58-59, 88-90), the difference of points (58-59, 88-90) and the
    interpolator constructed for a corner (65, 96). *)
Record kind (O : NumOps) : Type := mkKind {
  kpoint : Type;
  kdim : nat;
  kcoords : kpoint -> list (num O);
  kcorners : nat;
  kfar : Z;
  kdiff : kpoint -> kpoint -> kpoint;
  kvalues : Z -> Z -> kpoint -> kpoint -> Z -> interp O kpoint
}.
Arguments kpoint {O}.
Arguments kdim {O}.
Arguments kcoords {O}.
Arguments kcorners {O}.
Arguments kfar {O}.
Arguments kdiff {O}.
Arguments kvalues {O}.

(** Mesh.hh 19-30, 45-73: DIM = 2, Quad. *)
Definition quad_kind (O : NumOps) : kind O :=
  mkKind O (c2 O) 2 (fun p => [fst p; snd p]) 4 2
         (fun p q => (nsub O (fst p) (fst q), nsub O (snd p) (snd q))) (quad_values O).

(** Mesh.hh 32-43, 75-104: DIM = 3, Hexahedron. *)
Definition hex_kind (O : NumOps) : kind O :=
  mkKind O (c3 O) 3 (fun p => [cx p; cy p; cz p]) 8 6
         (fun p q => mkC3 (nsub O (cx p) (cx q)) (nsub O (cy p) (cy q)) (nsub O (cz p) (cz q))) (hex_values O).

Section Mesh.
Context (O : NumOps) (K : kind O).
Local Notation P := (kpoint K).
Local Notation ip := (interp O (kpoint K)).

(** Mesh.hh 115-138: data members. _min and _max are indeterminate before points are read. A pointer to an interpolator
    is identified with the (immutable) interpolator. _bfunc is left out (see Interpolator.v). *)
Record mesh : Type := mkMesh {
  me_min : option (list (num O));
  me_max : option (list (num O));
  me_node : list P;
  me_interp : list ip;
  me_bin : bin O ip
}.

(** Mesh.hh 143: default constructor. *)
Definition mesh_new : mesh := mkMesh None None [] [] bin_empty.

(** Mesh.hh 518-536: add_once. The counts in [hist] are never used and left out. *)
Definition axis_add (l : list (num O)) (v : num O) : list (num O) :=
  if existsb (fun x => neqb O x v) l then l else l ++ [v].

(** Mesh.hh 240: std::sort with operator<, as insertion sort (the values are pairwise different). *)
Fixpoint axis_insert (v : num O) (l : list (num O)) : list (num O) :=
  match l with
  | [] => [v]
  | x :: l' => if nltb O v x then v :: l else x :: axis_insert v l'
  end.
Definition axis_sort (l : list (num O)) : list (num O) := fold_right axis_insert [] l.

(** Mesh.hh 220-222, 247-248: one axis of the search grid (min, N, incr) and of the surrounding box. *)
Record axis : Type := mkAxis { ax_min : num O; ax_N : Z; ax_incr : num O; ax_lo : num O; ax_hi : num O }.

(** Mesh.hh 213-214 and 240-252 for one j; [vs] are the j-th coordinates of the points in file order. Sorting with a NaN among the
    values breaks the precondition of std::sort; value\[j\]\[0\] of an empty list is out of range. A count of values
    beyond int (whose conversion at 243 is implementation-defined) is treated as overflow. *)
Definition axis_grid (vs : list (num O)) : outcome axis :=
  if existsb (fun v => negb (neqb O v v)) vs then UB UBOutOfBounds
  else
    match axis_sort (fold_left axis_add vs []) with
    | [] => UB UBOutOfBounds
    | a :: l =>
        let z := last l a in
        let* n := cint (Z.of_nat (length (a :: l))) in
        let h := ndiv O (nsub O z a) (nmul O (nofZ O 1) (nofZ O n)) in
        let* n2 := cint (n + 2) in
        Ok (mkAxis (nsub O a h) n2 h a z)
    end.

(** Mesh.hh 213-214: the j-th coordinates of all points (the default of nth is never used for j < DIM). *)
Definition column (pts : list P) (j : nat) : list (num O) :=
  map (fun p => nth j (kcoords K p) (nofZ O 0)) pts.

(** A loop that appends one computed element per iteration (Mesh.hh 225-253, 62-66, 93-97). *)
Fixpoint omap {A B : Type} (f : A -> outcome B) (l : list A) : outcome (list B) :=
  match l with
  | [] => Ok []
  | a :: l' => let* b := f a in let* r := omap f l' in Ok (b :: r)
  end.

(** Mesh.hh 185-269: a POINTS section whose numbers are [pts]. *)
Definition mesh_points (pts : list P) : M mesh unit :=
  mmod (fun m => mkMesh (me_min m) (me_max m) (me_node m ++ pts) (me_interp m) (me_bin m)) ;;;
  do* ax := mlift (omap (fun j => axis_grid (column pts j)) (seq 0 (kdim K))) in
  do* b := mlift (bin_make (map ax_min ax) (map ax_incr ax) (map ax_N ax)) in
  mmod (fun m => mkMesh (Some (map ax_lo ax)) (Some (map ax_hi ax)) (me_node m) (me_interp m) b).

(** Mesh.hh 45-104: construct_interpolating_functions for cell number [i]. *)
Definition cell_interp (node : list P) (i : Z) (cell : list Z) : outcome (list ip) :=
  let* cf := vget cell (kfar K) in
  let* pf := vget node cf in
  let* c0 := vget cell 0 in
  let* p0 := vget node c0 in
  let h := kdiff K pf p0 in
  omap (fun j =>
          let* cj := vget cell (Z.of_nat j) in
          let* pj := vget node cj in
          Ok (kvalues K cj i pj h (Z.of_nat j)))
       (seq 0 (kcorners K)).

(** Mesh.hh 138: a call on the member _bin. *)
Definition on_bin {A : Type} (a : M (bin O ip) A) : M mesh A :=
  fun m => match a (me_bin m) with
           | RRet b x => RRet (mkMesh (me_min m) (me_max m) (me_node m) (me_interp m) b) x
           | RThrow b e => RThrow (mkMesh (me_min m) (me_max m) (me_node m) (me_interp m) b) e
           | RExit => RExit
           | RUB r => RUB r
           | RNoFuel => RNoFuel
           end.

(** Mesh.hh 302-324: the loop over the cells; [i] is the number of the next cell. *)
Fixpoint cells_loop (i : Z) (cells : list (list Z)) : M mesh unit :=
  match cells with
  | [] => mret tt
  | cell :: rest =>
      do* m := mget in
      do* its := mlift (cell_interp (me_node m) i cell) in
      mput (mkMesh (me_min m) (me_max m) (me_node m) (me_interp m ++ its) (me_bin m)) ;;;
      cells_loop (i + 1) rest
  end.

(** Mesh.hh 276-337: a CELLS section whose cells are [cells]; 330-333 bins all interpolators (also those of an earlier
    section). *)
Definition mesh_cells (cells : list (list Z)) : M mesh unit :=
  cells_loop 0 cells ;;;
  do* m := mget in
  mfor (me_interp m) (fun it => on_bin (bin_add_range it (kcoords K (it_min it)) (kcoords K (it_max it)))).

(** Mesh.hh 378-386: min(i) and max(i) (366-376 copy all components). *)
Definition mesh_min (m : mesh) (i : Z) : outcome (num O) := let* l := read_member (me_min m) in vget l i.
Definition mesh_max (m : mesh) (i : Z) : outcome (num O) := let* l := read_member (me_max m) in vget l i.

(** Mesh.hh 389-392: max_bin_size. *)
Definition mesh_max_bin_size (m : mesh) : outcome Z := bin_max_size (me_bin m).

(** The caller's vectors bfunc and node_index (PField.hh 97-98; the length s is returned as the result below). *)
Record scratch : Type := mkScratch { sc_bf : list (num O); sc_ni : list Z }.

(** Mesh.hh 412-424: the inner loop, from position [i] on; [f] evaluates one interpolator. *)
Fixpoint fill (f : ip -> outcome (num O)) (elem : Z) (i : Z) (its : list ip) (sc : scratch) : outcome scratch :=
  match its with
  | [] => Ok sc
  | it :: rest =>
      let* b := (if it_elem it =? elem then f it else Ok (nofZ O 0)) in
      let* bf := vset (sc_bf sc) i b in
      let* ni := vset (sc_ni sc) i (it_node it) in
      fill f elem (i + 1) rest (mkScratch bf ni)
  end.

(** Mesh.hh 399-435, 438-476, 479-514: basis_functions, grad_basis_functions, hess_basis_functions, which differ only in the
    evaluated quantity [f]. The result is s. If no interpolator is in range the vectors keep their contents. *)
Definition mesh_basis (f : ip -> outcome (num O)) (c : P) : M (mesh * scratch) Z :=
  fun ms =>
    match on_bin (bin_contents (kcoords K c)) (fst ms) with
    | RRet m its =>
        match cint (Z.of_nat (length its)) with
        | Ok s =>
            match find (fun it => it_range it c) its with
            | Some it0 =>
                match fill f (it_elem it0) 0 its (snd ms) with
                | Ok sc => RRet (m, sc) s
                | Throw e => RThrow (m, snd ms) e
                | Exit => RExit
                | UB r => RUB r
                | NoFuel => RNoFuel
                end
            | None => RRet (m, snd ms) s
            end
        | Throw e => RThrow (m, snd ms) e
        | Exit => RExit
        | UB r => RUB r
        | NoFuel => RNoFuel
        end
    | RThrow m e => RThrow (m, snd ms) e
    | RExit => RExit
    | RUB r => RUB r
    | RNoFuel => RNoFuel
    end.

End Mesh.

Arguments mkMesh {O K}.
Arguments me_min {O K}.
Arguments me_max {O K}.
Arguments me_node {O K}.
Arguments me_interp {O K}.
Arguments me_bin {O K}.
Arguments mesh_new {O K}.
Arguments mesh_points {O K}.
Arguments mesh_cells {O K}.
Arguments cells_loop {O K}.
Arguments cell_interp {O K}.
Arguments on_bin {O K A}.
Arguments mesh_min {O K}.
Arguments mesh_max {O K}.
Arguments mesh_max_bin_size {O K}.
Arguments mesh_basis {O K}.
Arguments fill {O K}.
Arguments column {O K}.
Arguments axis_grid {O}.
Arguments axis_add {O}.
Arguments axis_sort {O}.
Arguments axis_insert {O}.
Arguments mkAxis {O}.
Arguments ax_min {O}.
Arguments ax_N {O}.
Arguments ax_incr {O}.
Arguments ax_lo {O}.
Arguments ax_hi {O}.
Arguments mkScratch {O}.
Arguments sc_bf {O}.
Arguments sc_ni {O}.
