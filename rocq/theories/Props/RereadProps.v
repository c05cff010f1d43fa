(** Property C48: reading a second file into a body. *)
From Coq Require Import ZArith QArith List Bool Ascii String Reals.
From Verif Require Import Model.Outcome Model.Num Model.NumInst Model.PNDArray Model.Interpolator Model.Quad Model.Hexahedron
  Model.Mesh Model.PField Model.Stream Model.Vtk.
From Verif Require Import Spec.Tensor Spec.Funcs Spec.Shape Spec.Fields Spec.Vtk Spec.Reread.
From Verif Require Import Proofs.FieldExamples Proofs.VtkExamples Proofs.RereadP Proofs.RereadExamples.
Import ListNotations.
Local Open Scope Z_scope.

(** C48. In any arithmetic, a 2D text read into a body that already has contents (its mesh being the result of earlier reads): the
    fields of the text are appended to those present, and are made on the mesh that results from the points and cells of the text
    being added to the mesh present. *)
Theorem C48_second_read_2d :
  forall (O : NumOps) num_text num_scanner pts cells fields t (bo : body (quad_vkind O)) (m : mesh O (quad_kind O)) fuel,
  number_reader num_text num_scanner -> vtk_text num_text coords2 pts cells fields t -> mesh_read (K := quad_kind O) (bo_mesh (quad_vkind O) bo) ->
  mesh_onto (K := quad_kind O) (bo_mesh (quad_vkind O) bo) pts cells m -> (List.length t < fuel)%nat ->
  exists ps, body_read_vtk (quad_vkind O) num_scanner fuel (Some t) bo = RRet (mkBody (quad_vkind O) m (bo_fields (quad_vkind O) bo ++ ps)) tt /\
    Forall2 (fun f p => pf_new (F := scalar_field O) (string_of_list_ascii (fst f)) m (snd f) (nofZ O 0) = Ok p) fields ps.
Proof. exact onto2_ok. Qed.
Print Assumptions C48_second_read_2d.

(** C48. The same in 3D. *)
Theorem C48_second_read_3d :
  forall (O : NumOps) num_text num_scanner pts cells fields t (bo : body (hex_vkind O)) (m : mesh O (hex_kind O)) fuel,
  number_reader num_text num_scanner -> vtk_text num_text coords3 pts cells fields t -> mesh_read (K := hex_kind O) (bo_mesh (hex_vkind O) bo) ->
  mesh_onto (K := hex_kind O) (bo_mesh (hex_vkind O) bo) pts cells m -> (List.length t < fuel)%nat ->
  exists ps, body_read_vtk (hex_vkind O) num_scanner fuel (Some t) bo = RRet (mkBody (hex_vkind O) m (bo_fields (hex_vkind O) bo ++ ps)) tt /\
    Forall2 (fun f p => pf_new (F := scalar_field O) (string_of_list_ascii (fst f)) m (snd f) (nofZ O 0) = Ok p) fields ps.
Proof. exact onto3_ok. Qed.
Print Assumptions C48_second_read_3d.

(** C48. What the mesh then holds, in any arithmetic and dimension: the old nodes followed by the new ones, and the old interpolators
    followed by those of the new cells - whose node numbers now count from the first of the old nodes. *)
Theorem C48_second_read_contents :
  forall (O : NumOps) (K : kind O) (m0 : mesh O K) pts cells m, mesh_onto m0 pts cells m ->
  me_node m = me_node m0 ++ pts /\
  exists its, me_interp m = me_interp m0 ++ its /\ all_interpolators (me_node m0 ++ pts) cells its.
Proof. exact (@onto_contents). Qed.
Print Assumptions C48_second_read_contents.

(** C48. The box, in contrast, is that of the last points only: it does not depend on what the mesh held before. *)
Theorem C48_second_read_box :
  forall (O : NumOps) (K : kind O) (m0 m0' : mesh O K) pts cells cells' m m', mesh_onto m0 pts cells m -> mesh_onto m0' pts cells' m' ->
  me_min m = me_min m' /\ me_max m = me_max m'.
Proof. exact (@onto_box). Qed.
Print Assumptions C48_second_read_box.

(** C48. Reading the same file of rectangles twice, over the reals. Both reads succeed, there are twice as many fields, and every
    field of the second batch evaluates - value, derivatives and second derivatives - to TWICE the bilinear interpolation of its
    data. Looking a field up by its name still gives the one of the first batch, and evaluating that one is undefined behaviour
    (its scratch vectors are written out of bounds) at some point of the mesh. *)
Theorem C48_same_file_twice : forall num_text num_scanner pts cells fields t fuel,
  number_reader (A := R) num_text num_scanner -> vtk_text (O := ROps) num_text coords2 pts cells fields t -> rect_mesh pts cells ->
  8 * Z.of_nat (List.length cells) <= int_max ->
  Forall (fun f => (List.length pts <= List.length (snd f))%nat) fields -> (List.length t < fuel)%nat ->
  let QV := quad_vkind ROps in
  exists b1 b2, body_read_vtk QV num_scanner fuel (Some t) (body_new QV) = RRet b1 tt /\
    body_read_vtk QV num_scanner fuel (Some t) b1 = RRet b2 tt /\
    List.length (bo_fields QV b2) = (2 * List.length fields)%nat /\
    (forall k f r, nth_error fields k = Some f -> in_mesh2 pts cells r ->
      exists p, nth_error (bo_fields QV b2) (List.length fields + k) = Some p /\ named_field f p /\
      exists cell lo h v, In cell cells /\ cell_rect pts cell lo h /\ in_rect lo h r /\ cell_data (snd f) cell corners2 v /\
      forall q, on_axes 2 q ->
      exists s a, field_eval (K := quad_kind ROps) q r (bo_mesh QV b2, p) = RRet s (2 * a)%R /\ quantity2 (bilinear lo h v) q r a) /\
    (forall name, In name (map fst fields) ->
      exists k p r, find_scalar_field QV b2 (string_of_list_ascii name) = Ok k /\ nth_error (bo_fields QV b2) k = Some p /\ in_mesh2 pts cells r /\
      forall q, on_axes 2 q -> field_eval (K := quad_kind ROps) q r (bo_mesh QV b2, p) = RUB UBOutOfBounds).
Proof. exact same_file_twice. Qed.
Print Assumptions C48_same_file_twice.

(** The file of two rectangles satisfies the hypotheses. *)
Example C48_case : number_reader whole_text (whole_scanner ROps) /\
  vtk_text whole_text coords2 (ex_points ROps) ex_cells (ex_fields ROps) ex_file /\ rect_mesh (ex_points ROps) ex_cells /\
  8 * Z.of_nat (List.length ex_cells) <= int_max /\
  Forall (fun f => (List.length (ex_points ROps) <= List.length (snd f))%nat) (ex_fields ROps) /\
  in_mesh2 (ex_points ROps) ex_cells (5/2, 1/4)%R.
Proof. exact ex_twice. Qed.

(** C48. The same for fields made and used before: whatever was evaluated in between, the new field is doubled everywhere. *)
Theorem C48_new_field_doubled : forall pts cells (m m2 : mesh ROps (quad_kind ROps)) data name p2 r, rect_mesh pts cells ->
  8 * Z.of_nat (List.length cells) <= int_max -> mesh_of (K := quad_kind ROps) pts cells m -> mesh_onto (K := quad_kind ROps) m pts cells m2 ->
  (List.length pts <= List.length data)%nat -> pf_new (F := scalar_field ROps) name m2 data 0%R = Ok p2 -> in_mesh2 pts cells r ->
  exists cell lo h v, In cell cells /\ cell_rect pts cell lo h /\ in_rect lo h r /\ cell_data data cell corners2 v /\
    forall hist m' p', field_history (m2, p2) hist (m', p') -> forall q, on_axes 2 q ->
      exists s a, field_eval (K := quad_kind ROps) q r (m', p') = RRet s (2 * a)%R /\ quantity2 (bilinear lo h v) q r a.
Proof. exact rect_twice_value. Qed.
Print Assumptions C48_new_field_doubled.

(** C48. ... and a field made before the second read is unusable at some point, whatever was evaluated in between. *)
Theorem C48_old_field_out_of_bounds : forall pts cells (m : mesh ROps (quad_kind ROps)) data name p0, rect_mesh pts cells ->
  8 * Z.of_nat (List.length cells) <= int_max -> mesh_of (K := quad_kind ROps) pts cells m -> (List.length pts <= List.length data)%nat ->
  pf_new (F := scalar_field ROps) name m data 0%R = Ok p0 ->
  exists r, in_mesh2 pts cells r /\
    forall hist m' p' m2, field_history (m, p0) hist (m', p') -> mesh_onto (K := quad_kind ROps) m' pts cells m2 ->
    forall q, on_axes 2 q -> field_eval (K := quad_kind ROps) q r (m2, p') = RUB UBOutOfBounds.
Proof. exact rect_old_field. Qed.
Print Assumptions C48_old_field_out_of_bounds.

(** C48. After reading a second file, the fields have the values that the file describes: refuted. The unit square and the square
    of side 2 can each be read; after reading the one and then the other, the field of the second file has another value inside
    the unit square (the geometry of the first file is used, twice) and is zero outside of it. *)
Theorem C48_second_file_refuted : exists t1 t2 x y x' y', let WS := whole_scanner QOps in
  (exists v, value_after WS 400 [t1] 0 x y = Ok v) /\
  (exists v w, value_after WS 400 [t2] 0 x y = Ok v /\ value_after WS 400 [t1; t2] 1 x y = Ok w /\ ~ (v == w)%Q) /\
  (exists v, value_after WS 400 [t2] 0 x' y' = Ok v /\ ~ (v == 0)%Q /\ value_after WS 400 [t1; t2] 1 x' y' = Ok 0%Q).
Proof. exact second_file. Qed.
Print Assumptions C48_second_file_refuted.

(** C48. Two files that can each be read can be read one after the other: refuted. The second of two disjoint squares is refused
    with std::domain_error, because the first is not within its box. *)
Theorem C48_second_read_refuted : exists t1 t2 x y x' y', let WS := whole_scanner QOps in
  value_after WS 400 [t2] 0 x y = Ok (5 # 2) /\ value_after WS 400 [t1] 0 x' y' = Ok (5 # 2) /\ (exists b, read_all WS 400 [t1; t2] = RThrow b DomainError).
Proof. exact second_refused. Qed.
Print Assumptions C48_second_read_refuted.

(** The unit square read twice, computed: 5/2 in its centre after one read, 5 from the second batch, out of bounds from the first. *)
Example C48_twice_case : let A := square_file "0" "1" in let WS := whole_scanner QOps in
  value_after WS 400 [A] 0 (1 # 2) (1 # 2) = Ok (5 # 2) /\ value_after WS 400 [A; A] 1 (1 # 2) (1 # 2) = Ok 5%Q /\
  value_after WS 400 [A; A] 0 (1 # 2) (1 # 2) = UB UBOutOfBounds.
Proof. exact doubled. Qed.
