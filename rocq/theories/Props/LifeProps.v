(** Property C49: the lifetimes of bodies, of their interpolators and basis functions, and of fields. *)
From Coq Require Import ZArith List Bool Ascii String Reals.
From Verif Require Import Model.Outcome Model.Num Model.NumInst Model.Interpolator Model.Quad Model.Hexahedron Model.Mesh Model.PField
  Model.Stream Model.Vtk Model.Life.
From Verif Require Import Spec.Fields Spec.Vtk Spec.Life.
From Verif Require Import Proofs.FieldExamples Proofs.VtkExamples Proofs.RectP Proofs.HexP Proofs.LifeP Proofs.LifeFileP.
Import ListNotations.

(** C49. If Interpolator had a virtual destructor: every program that copies no body and uses each body, field and clone of a field
    only while it (and, for a clone, the body it came from) is alive runs without undefined behaviour. *)
Theorem C49_careful_is_safe : forall os, proper os -> exists s, life_run true os life_start = Ok s.
Proof. exact careful_safe. Qed.
Print Assumptions C49_careful_is_safe.

(** C49. ... and if it deletes all its bodies and clones, nothing is left in memory: each interpolator and basis function was deleted. *)
Theorem C49_nothing_leaks : forall os, proper os ->
  (forall a, a < bodies os -> In (LDelete a) os) -> (forall c, c < clones os -> In (LDeleteClone c) os) ->
  exists s, life_run true os life_start = Ok s /\ all_freed s.
Proof. exact nothing_left. Qed.
Print Assumptions C49_nothing_leaks.

(** C49. The conditions are necessary: the first operation that is not careful (and does not copy) is undefined behaviour. *)
Theorem C49_careless_is_undefined : forall os o, proper os -> (forall a, o <> LCopy a) -> (forall a b, o <> LAssign a b) ->
  ~ careful os o -> exists u, life_run true (os ++ [o]) life_start = UB u.
Proof. exact only_careful. Qed.
Print Assumptions C49_careless_is_undefined.

(** Two bodies, two files, evaluations, a clone; everything deleted at the end. *)
Example C49_case : proper two_bodies /\ (forall a, a < bodies two_bodies -> In (LDelete a) two_bodies) /\
  (forall c, c < clones two_bodies -> In (LDeleteClone c) two_bodies) /\ ~ no_mesh_deleted two_bodies.
Proof. exact two_bodies_facts. Qed.
(** After its deletion, body 0 is not live: reading a file into it is not careful. *)
Example C49_careless_case : ~ careful two_bodies (LRead 0 4 1) /\ (forall a, LRead 0 4 1 <> LCopy a) /\ (forall a b, LRead 0 4 1 <> LAssign a b).
Proof. exact careless_case. Qed.

(** C49. The code as it is, without that virtual destructor: as long as no body with interpolators is destroyed, there is no difference. *)
Theorem C49_until_destroyed : forall os, proper os -> no_mesh_deleted os -> life_run false os life_start = life_run true os life_start.
Proof. exact no_virtual_safe. Qed.
Print Assumptions C49_until_destroyed.

(** C49. Careful programs are safe in the code as it is: refuted, by every careful program that destroys a body with interpolators. *)
Theorem C49_destruction_refuted : forall os, proper os -> ~ no_mesh_deleted os -> life_run false os life_start = UB UBBadDelete.
Proof. exact no_virtual_refuted. Qed.
Print Assumptions C49_destruction_refuted.

(** C49. Starting from files: in any arithmetic, every 2D file of the supported form with at least one cell that can be read gives a body
    with four interpolators for each cell, whose destruction is undefined behaviour. *)
Theorem C49_file_2d_refuted : forall (O : NumOps) num_text num_scanner pts cells fields t (m : mesh O (quad_kind O)) fuel,
  number_reader num_text num_scanner -> vtk_text num_text coords2 pts cells fields t -> mesh_of (K := quad_kind O) pts cells m ->
  cells <> [] -> (List.length t < fuel)%nat ->
  exists bo, body_read_vtk (quad_vkind O) num_scanner fuel (Some t) (body_new (quad_vkind O)) = RRet bo tt /\
    let n := List.length (me_interp (bo_mesh (quad_vkind O) bo)) in let k := List.length (bo_fields (quad_vkind O) bo) in
    n = 4 * List.length cells /\ k = List.length fields /\ life_run false [LNew; LRead 0 n k; LDelete 0] life_start = UB UBBadDelete.
Proof. exact file_deleted_2d. Qed.
Print Assumptions C49_file_2d_refuted.

(** C49. The same in 3D, with eight interpolators for each cell. *)
Theorem C49_file_3d_refuted : forall (O : NumOps) num_text num_scanner pts cells fields t (m : mesh O (hex_kind O)) fuel,
  number_reader num_text num_scanner -> vtk_text num_text coords3 pts cells fields t -> mesh_of (K := hex_kind O) pts cells m ->
  cells <> [] -> (List.length t < fuel)%nat ->
  exists bo, body_read_vtk (hex_vkind O) num_scanner fuel (Some t) (body_new (hex_vkind O)) = RRet bo tt /\
    let n := List.length (me_interp (bo_mesh (hex_vkind O) bo)) in let k := List.length (bo_fields (hex_vkind O) bo) in
    n = 8 * List.length cells /\ k = List.length fields /\ life_run false [LNew; LRead 0 n k; LDelete 0] life_start = UB UBBadDelete.
Proof. exact file_deleted_3d. Qed.
Print Assumptions C49_file_3d_refuted.

(** The files of C26 and the meshes they describe. *)
Example C49_file_case : number_reader whole_text (whole_scanner ROps) /\
  vtk_text whole_text coords2 (ex_points ROps) ex_cells (ex_fields ROps) ex_file /\
  (exists m, mesh_of (K := quad_kind ROps) (ex_points ROps) ex_cells m) /\ ex_cells <> [] /\
  vtk_text whole_text coords3 (st_points ROps) st_cells (st_fields ROps) st_file /\
  (exists m, mesh_of (K := hex_kind ROps) (st_points ROps) st_cells m) /\ st_cells <> [].
Proof. exact file_case. Qed.

(** C49. Bodies can be copied: refuted. Whatever careful program came before, copying a body that has interpolators and destroying both,
    in either order, deletes the interpolators twice. *)
Theorem C49_copy_refuted : forall os a, proper os -> live_body os a -> 0 < elements a os ->
  life_run true (os ++ [LCopy a; LDelete a; LDelete (bodies os)]) life_start = UB UBDoubleFree /\
  life_run true (os ++ [LCopy a; LDelete (bodies os); LDelete a]) life_start = UB UBDoubleFree.
Proof. exact copy_double_free. Qed.
Print Assumptions C49_copy_refuted.

(** C49. The same for assignment. *)
Theorem C49_assign_refuted : forall os a c, proper os -> live_body os a -> live_body os c -> a <> c -> 0 < elements c os ->
  life_run true (os ++ [LAssign a c; LDelete a; LDelete c]) life_start = UB UBDoubleFree /\
  life_run true (os ++ [LAssign a c; LDelete c; LDelete a]) life_start = UB UBDoubleFree.
Proof. exact assign_double_free. Qed.
Print Assumptions C49_assign_refuted.

(** C49. A copy is independent of its original: refuted. Its fields are on the original's mesh, and dangle when that is destroyed. *)
Theorem C49_copied_field_refuted : forall os a k seen, proper os -> live_body os a -> k < fields a os ->
  life_run true (os ++ [LCopy a; LDelete a; LEval (bodies os) k seen]) life_start = UB UBDangling.
Proof. exact copy_field_dangles. Qed.
Print Assumptions C49_copied_field_refuted.

(** C49. A clone of a field (what a PFunction keeps of a field given to it) is self-contained: refuted. Evaluated after the body is gone,
    it dangles. *)
Theorem C49_cloned_field_refuted : forall os a k seen, proper os -> live_body os a -> k < fields a os ->
  life_run true (os ++ [LClone a k; LDelete a; LEvalClone (clones os) seen]) life_start = UB UBDangling.
Proof. exact clone_dangles. Qed.
Print Assumptions C49_cloned_field_refuted.

(** C49. The same for a clone of a field of a copy: it dangles when the original is destroyed, though the copy is not. *)
Theorem C49_cloned_copy_refuted : forall os a k seen, proper os -> live_body os a -> k < fields a os ->
  life_run true (os ++ [LCopy a; LClone (bodies os) k; LDelete a; LEvalClone (clones os) seen]) life_start = UB UBDangling.
Proof. exact copy_clone_dangles. Qed.
Print Assumptions C49_cloned_copy_refuted.

(** The program above up to the first deletion of a body meets the hypotheses of the last six theorems (with bodies 0 and 1). *)
Example C49_copy_case : let os := firstn 8 two_bodies in proper os /\ no_mesh_deleted os /\ live_body os 0 /\ live_body os 1 /\
  elements 0 os = 8 /\ elements 1 os = 4 /\ fields 0 os = 2 /\ bodies os = 2 /\ clones os = 1.
Proof. exact start_facts. Qed.
