(** Property C50: files that have the form of a VTK file but a content that is not supported. *)
From Coq Require Import ZArith QArith List Bool Ascii String Reals.
From Verif Require Import Model.Outcome Model.Num Model.NumInst Model.PNDArray Model.Interpolator Model.Quad Model.Hexahedron
  Model.Mesh Model.PField Model.Stream Model.Vtk.
From Verif Require Import Spec.Tensor Spec.Grid Spec.Funcs Spec.Shape Spec.Fields Spec.Vtk Spec.Reread Spec.Malformed.
From Verif Require Import Proofs.FieldExamples Proofs.VtkExamples Proofs.MalformedP Proofs.ShortDataP Proofs.MalformedExamples Proofs.LooseP Proofs.LooseExamples Proofs.NegativeP Proofs.NegativeExamples.
Import ListNotations.
Local Open Scope Z_scope.

(** C50. In any arithmetic: if some cell of a 2D text has fewer than four corners, or names among its first four a node that does not
    exist, then reading the text is undefined behaviour (a read out of bounds), whatever comes after the cells. Nothing is checked:
    not the announced number of corners, nor the node numbers. In particular a negative node number is undefined behaviour: it stands for one
    near 2^64. *)
Theorem C50_bad_cell_2d : forall (O : NumOps) num_text num_scanner pts cells rest t (m1 : mesh O (quad_kind O)) fuel,
  number_reader num_text num_scanner -> upto_cells num_text coords2 pts cells rest t -> mesh_points (K := quad_kind O) pts mesh_new = RRet m1 tt ->
  Exists (bad_cell 4 (List.length pts)) cells -> (List.length t < fuel)%nat ->
  body_read_vtk (quad_vkind O) num_scanner fuel (Some t) (body_new (quad_vkind O)) = RUB UBOutOfBounds.
Proof. exact bad_cell2. Qed.
Print Assumptions C50_bad_cell_2d.

(** C50. The same in 3D, with eight corners. *)
Theorem C50_bad_cell_3d : forall (O : NumOps) num_text num_scanner pts cells rest t (m1 : mesh O (hex_kind O)) fuel,
  number_reader num_text num_scanner -> upto_cells num_text coords3 pts cells rest t -> mesh_points (K := hex_kind O) pts mesh_new = RRet m1 tt ->
  Exists (bad_cell 8 (List.length pts)) cells -> (List.length t < fuel)%nat ->
  body_read_vtk (hex_vkind O) num_scanner fuel (Some t) (body_new (hex_vkind O)) = RUB UBOutOfBounds.
Proof. exact bad_cell3. Qed.
Print Assumptions C50_bad_cell_3d.

(** C50. If the points and cells are good but some cell type is neither 9 nor 12, the process is terminated by exit() - after the whole
    mesh was built, and whatever comes after the types. *)
Theorem C50_unsupported_type_2d : forall (O : NumOps) num_text num_scanner pts cells types rest t (m : mesh O (quad_kind O)) fuel,
  number_reader num_text num_scanner -> upto_types num_text coords2 pts cells types rest t -> mesh_of (K := quad_kind O) pts cells m ->
  Exists (fun k => ~ supported_type k) types -> (List.length t < fuel)%nat ->
  body_read_vtk (quad_vkind O) num_scanner fuel (Some t) (body_new (quad_vkind O)) = RExit.
Proof. exact bad_type2. Qed.
Print Assumptions C50_unsupported_type_2d.

Theorem C50_unsupported_type_3d : forall (O : NumOps) num_text num_scanner pts cells types rest t (m : mesh O (hex_kind O)) fuel,
  number_reader num_text num_scanner -> upto_types num_text coords3 pts cells types rest t -> mesh_of (K := hex_kind O) pts cells m ->
  Exists (fun k => ~ supported_type k) types -> (List.length t < fuel)%nat ->
  body_read_vtk (hex_vkind O) num_scanner fuel (Some t) (body_new (hex_vkind O)) = RExit.
Proof. exact bad_type3. Qed.
Print Assumptions C50_unsupported_type_3d.

(** C50. A text that announces no points is undefined behaviour. *)
Theorem C50_no_points_2d : forall (O : NumOps) num_text num_scanner cells rest t fuel,
  number_reader num_text num_scanner -> upto_cells num_text coords2 ([] : list (c2 O)) cells rest t -> (List.length t < fuel)%nat ->
  body_read_vtk (quad_vkind O) num_scanner fuel (Some t) (body_new (quad_vkind O)) = RUB UBOutOfBounds.
Proof. exact no_points2. Qed.
Print Assumptions C50_no_points_2d.

Theorem C50_no_points_3d : forall (O : NumOps) num_text num_scanner cells rest t fuel,
  number_reader num_text num_scanner -> upto_cells num_text coords3 ([] : list (c3 O)) cells rest t -> (List.length t < fuel)%nat ->
  body_read_vtk (hex_vkind O) num_scanner fuel (Some t) (body_new (hex_vkind O)) = RUB UBOutOfBounds.
Proof. exact no_points3. Qed.
Print Assumptions C50_no_points_3d.

(** C50. These forms differ from the supported ones (C26) only in what they leave open. *)
Theorem C50_forms : forall (O : NumOps) (P : Type) num_text (coords_of : P -> list (num O) -> Prop) pts cells fields t,
  vtk_text num_text coords_of pts cells fields t <->
  exists types rest, upto_types num_text coords_of pts cells types rest t /\ Forall supported_type types /\ data_text num_text None fields rest.
Proof. exact supported_upto. Qed.
Print Assumptions C50_forms.

(** C50. A field with fewer data than the mesh has nodes can be made. In any arithmetic, and whatever was evaluated before, its
    evaluation at a point that some interpolator claims is a read out of bounds as soon as ANY interpolator in the same bin - not only
    those of the containing element - names a node without datum. *)
Theorem C50_short_data_2d_any_arithmetic :
  forall (O : NumOps) (F : FieldOps O) name (m0 : mesh O (quad_kind O)) (data : list (ft F)) zero p0 mx c l q h m p,
  mesh_read m0 -> mesh_max_bin_size m0 = Ok mx -> mx <= int_max -> pf_new name m0 data zero = Ok p0 ->
  view (me_bin m0) (kcoords (quad_kind O) c) = Ok l -> (exists it, In it l /\ it_range it c = true) ->
  (exists it, In it l /\ Z.of_nat (List.length data) <= it_node it) ->
  field_history (m0, p0) h (m, p) -> on_axes 2 q -> field_eval q c (m, p) = RUB UBOutOfBounds.
Proof. exact short_eval2. Qed.
Print Assumptions C50_short_data_2d_any_arithmetic.

Theorem C50_short_data_3d_any_arithmetic :
  forall (O : NumOps) (F : FieldOps O) name (m0 : mesh O (hex_kind O)) (data : list (ft F)) zero p0 mx c l q h m p,
  mesh_read m0 -> mesh_max_bin_size m0 = Ok mx -> mx <= int_max -> pf_new name m0 data zero = Ok p0 ->
  view (me_bin m0) (kcoords (hex_kind O) c) = Ok l -> (exists it, In it l /\ it_range it c = true) ->
  (exists it, In it l /\ Z.of_nat (List.length data) <= it_node it) ->
  field_history (m0, p0) h (m, p) -> on_axes 3 q -> field_eval q c (m, p) = RUB UBOutOfBounds.
Proof. exact short_eval3. Qed.
Print Assumptions C50_short_data_3d_any_arithmetic.

(** C50. Over the reals, for meshes of rectangles: a field is unusable in every cell that has a corner without datum. *)
Theorem C50_short_data_2d : forall pts cells (m : mesh ROps (quad_kind ROps)) (data : list R) name p0 cell lo h k n r,
  rect_mesh pts cells -> mesh_of (K := quad_kind ROps) pts cells m -> pf_new (F := scalar_field ROps) name m data 0%R = Ok p0 ->
  In cell cells -> cell_rect pts cell lo h -> In k corners2 -> vget cell k = Ok n -> Z.of_nat (List.length data) <= n -> in_rect lo h r ->
  forall hist m' p' q, field_history (m, p0) hist (m', p') -> on_axes 2 q -> field_eval (K := quad_kind ROps) q r (m', p') = RUB UBOutOfBounds.
Proof. exact rect_short. Qed.
Print Assumptions C50_short_data_2d.

Theorem C50_short_data_3d : forall pts cells (m : mesh ROps (hex_kind ROps)) (data : list R) name p0 cell lo h k n r,
  box_mesh pts cells -> mesh_of (K := hex_kind ROps) pts cells m -> pf_new (F := scalar_field ROps) name m data 0%R = Ok p0 ->
  In cell cells -> cell_box pts cell lo h -> In k corners3 -> vget cell k = Ok n -> Z.of_nat (List.length data) <= n -> in_box lo h r ->
  forall hist m' p' q, field_history (m, p0) hist (m', p') -> on_axes 3 q -> field_eval (K := hex_kind ROps) q r (m', p') = RUB UBOutOfBounds.
Proof. exact box_short. Qed.
Print Assumptions C50_short_data_3d.

(** C50. Neither header lines of the data part are checked: a SCALARS line without a name gives its field the name given last (none: the empty name), and a
    POINT_DATA line without a count leaves the count announced last. *)
Theorem C50_incomplete_headers_2d :
  forall (O : NumOps) num_text num_scanner pts cells types rest fields t (m : mesh O (quad_kind O)) fuel,
  number_reader num_text num_scanner -> upto_types num_text coords2 pts cells types rest t -> Forall supported_type types ->
  loose_data num_text None [] fields rest -> mesh_of (K := quad_kind O) pts cells m -> (List.length t < fuel)%nat ->
  exists ps, body_read_vtk (quad_vkind O) num_scanner fuel (Some t) (body_new (quad_vkind O)) = RRet (mkBody (quad_vkind O) m ps) tt /\
    Forall2 (fun f p => pf_new (F := scalar_field O) (string_of_list_ascii (fst f)) m (snd f) (nofZ O 0) = Ok p) fields ps /\
    Forall2 named_field fields ps.
Proof. exact loose2. Qed.
Print Assumptions C50_incomplete_headers_2d.

Theorem C50_incomplete_headers_3d :
  forall (O : NumOps) num_text num_scanner pts cells types rest fields t (m : mesh O (hex_kind O)) fuel,
  number_reader num_text num_scanner -> upto_types num_text coords3 pts cells types rest t -> Forall supported_type types ->
  loose_data num_text None [] fields rest -> mesh_of (K := hex_kind O) pts cells m -> (List.length t < fuel)%nat ->
  exists ps, body_read_vtk (hex_vkind O) num_scanner fuel (Some t) (body_new (hex_vkind O)) = RRet (mkBody (hex_vkind O) m ps) tt /\
    Forall2 (fun f p => pf_new (F := scalar_field O) (string_of_list_ascii (fst f)) m (snd f) (nofZ O 0) = Ok p) fields ps /\
    Forall2 named_field fields ps.
Proof. exact loose3. Qed.
Print Assumptions C50_incomplete_headers_3d.

(** C50. A field before any count is undefined behaviour: an indeterminate count is read. *)
Theorem C50_uncounted_2d : forall (O : NumOps) num_text num_scanner pts cells types pre l lookup r t (m : mesh O (quad_kind O)) fuel,
  number_reader num_text num_scanner -> upto_types num_text coords2 pts cells types (lines pre ++ l ++ newline :: lookup ++ newline :: r) t ->
  Forall supported_type types -> Forall (fun l => data_filler l \/ bare_line "POINT_DATA" l) pre -> one_line l -> starts_with "SCALARS" l -> one_line lookup ->
  mesh_of (K := quad_kind O) pts cells m -> (List.length t < fuel)%nat ->
  body_read_vtk (quad_vkind O) num_scanner fuel (Some t) (body_new (quad_vkind O)) = RUB UBUninit.
Proof. exact uncounted2. Qed.
Print Assumptions C50_uncounted_2d.

Theorem C50_uncounted_3d : forall (O : NumOps) num_text num_scanner pts cells types pre l lookup r t (m : mesh O (hex_kind O)) fuel,
  number_reader num_text num_scanner -> upto_types num_text coords3 pts cells types (lines pre ++ l ++ newline :: lookup ++ newline :: r) t ->
  Forall supported_type types -> Forall (fun l => data_filler l \/ bare_line "POINT_DATA" l) pre -> one_line l -> starts_with "SCALARS" l -> one_line lookup ->
  mesh_of (K := hex_kind O) pts cells m -> (List.length t < fuel)%nat ->
  body_read_vtk (hex_vkind O) num_scanner fuel (Some t) (body_new (hex_vkind O)) = RUB UBUninit.
Proof. exact uncounted3. Qed.
Print Assumptions C50_uncounted_3d.

(** Two rectangles, three fields of which the first and the last lack a name, and a POINT_DATA line without count; a field before any count. *)
Example C50_case_incomplete : (exists m, mesh_of (K := quad_kind ROps) (ex_points ROps) ex_cells m) /\
  upto_types (O := ROps) whole_text coords2 (ex_points ROps) ex_cells [9; 9] (newline :: loose_rest) (two_types loose_rest) /\
  Forall supported_type [9; 9] /\ loose_data (O := ROps) whole_text None [] (loose_fields ROps) (newline :: loose_rest) /\
  upto_types (O := ROps) whole_text coords2 (ex_points ROps) ex_cells [9; 9] (lines [[]; []; ls "POINT_DATA"] ++ ls "SCALARS heat float 1" ++ newline :: ls "LOOKUP_TABLE default" ++
    newline :: six "1" "2" "3" "4" "5" "6") (two_types uncounted_rest) /\
  Forall (fun l => data_filler l \/ bare_line "POINT_DATA" l) [[]; []; ls "POINT_DATA"].
Proof. exact ex_loose. Qed.

(** Computed: the names, the positions found for the names "", "heat" and "cold" - the last field is found under no name -, and the reading without count. *)
Example C50_case_names : names_read (two_types loose_rest) = Ok ([""; "heat"; "heat"]%string, [Ok 0%nat; Ok 1%nat; Throw InvalidArgument]) /\
  names_read (two_types uncounted_rest) = UB UBUninit.
Proof. exact loose_names. Qed.

(** Two rectangles: with a type 8 (pixel), with a cell that names node 6 of 0..5, and a text without points; followed by anything. *)
Example C50_case_forms : forall rest,
  (exists m1 m, mesh_points (K := quad_kind ROps) (ex_points ROps) mesh_new = RRet m1 tt /\ mesh_of (K := quad_kind ROps) (ex_points ROps) ex_cells m) /\
  upto_types (O := ROps) whole_text coords2 (ex_points ROps) ex_cells [9; 8] (newline :: rest) (bad_types ROps rest) /\
  Exists (fun k => ~ supported_type k) [9; 8] /\
  upto_cells (O := ROps) whole_text coords2 (ex_points ROps) [[0; 1; 4; 3]; [1; 2; 6; 4]] (newline :: rest) (bad_cells_text rest) /\
  Exists (bad_cell 4 (List.length (ex_points ROps))) [[0; 1; 4; 3]; [1; 2; 6; 4]] /\
  upto_cells (O := ROps) whole_text coords2 [] [] rest (no_points_text rest).
Proof. exact ex_damaged. Qed.

(** Five data for six nodes, and a point of the cell with the sixth. *)
Example C50_case_short : exists (m : mesh ROps (quad_kind ROps)) p0, mesh_of (K := quad_kind ROps) ex_pts ex_cells m /\
  pf_new (F := scalar_field ROps) "heat" m [1; 3; 0; 2; 5]%R 0%R = Ok p0 /\
  In [1; 2; 5; 4] ex_cells /\ cell_rect ex_pts [1; 2; 5; 4] (2, 0)%R (1, 1)%R /\ In 2 corners2 /\ vget [1; 2; 5; 4] 2 = Ok 5 /\
  in_rect (2, 0)%R (1, 1)%R (5/2, 1/4)%R.
Proof. exact ex_short_data. Qed.

(** Files of the unit square, computed: the good one; one with the type of a hexahedron (accepted); a triangle; a missing node; a
    pixel; and three data for four nodes. *)
Example C50_case_computed : let WS := whole_scanner QOps in let four := ["1"; "2"; "3"; "4"]%string in
  value_after WS 400 [square_with "4 0 1 3 2" "9" "4" four] 0 (1 # 2) (1 # 2) = Ok (5 # 2) /\
  value_after WS 400 [square_with "4 0 1 3 2" "12" "4" four] 0 (1 # 2) (1 # 2) = Ok (5 # 2) /\
  value_after WS 400 [square_with "3 0 1 3" "9" "4" four] 0 (1 # 2) (1 # 2) = UB UBOutOfBounds /\
  value_after WS 400 [square_with "4 0 1 4 2" "9" "4" four] 0 (1 # 2) (1 # 2) = UB UBOutOfBounds /\
  value_after WS 400 [square_with "4 0 1 3 2" "8" "4" four] 0 (1 # 2) (1 # 2) = Exit /\
  value_after WS 400 [square_with "4 0 1 3 2" "9" "3" ["1"; "2"; "3"]%string] 0 (1 # 2) (1 # 2) = UB UBOutOfBounds.
Proof. exact squares. Qed.

(** C50. In any arithmetic and dimension, into any body: a text that announces a negative number of points, or so many that they cannot be addressed,
    makes read_vtk throw std::length_error with the body unchanged, whatever follows the POINTS line. *)
Theorem C50_too_many_points : forall (O : NumOps) (V : vkind O) num_scanner pre ph rest n (bo : body V) fuel,
  Forall mesh_filler pre -> count_line "POINTS" n ph -> 2 ^ 63 <= 8 * Z.of_nat (kdim (vk_kind V)) * n ->
  (List.length pre < fuel)%nat ->
  body_read_vtk V num_scanner fuel (Some (lines pre ++ ph ++ newline :: rest)) bo = RThrow bo LengthError.
Proof. exact too_many_points. Qed.
Print Assumptions C50_too_many_points.

(** -1 points. *)
Example C50_case_negative_count :
  count_line "POINTS" (2 ^ 64 - 1) (ls "POINTS -1 float") /\ Forall mesh_filler [ls "# vtk DataFile Version 2.0"; []].
Proof. exact neg_count. Qed.

(** The two rectangles with node -1 instead of 5: a bad cell. *)
Example C50_case_negative_node : forall O rest,
  upto_cells (O := O) whole_text coords2 (ex_points O) [[0; 1; 4; 3]; [1; 2; 2 ^ 64 - 1; 4]] (newline :: rest) (neg_text rest) /\
  Exists (bad_cell 4 (List.length (ex_points O))) [[0; 1; 4; 3]; [1; 2; 2 ^ 64 - 1; 4]].
Proof. exact neg_form. Qed.

(** Computed on the unit square: a negative node number that stands for 2; a negative type; a negative number of data. *)
Example C50_case_negative_computed : let WS := whole_scanner QOps in let four := ["1"; "2"; "3"; "4"]%string in
  value_after WS 400 [square_with "+4 0 1 3 -18446744073709551614" "9" "4" four] 0 (1 # 2) (1 # 2) = Ok (5 # 2) /\
  value_after WS 400 [square_with "4 0 1 3 2" "-9" "4" four] 0 (1 # 2) (1 # 2) = Exit /\
  value_after WS 400 [square_with "4 0 1 3 2" "9" "-4" four] 0 (1 # 2) (1 # 2) = Throw LengthError.
Proof. exact neg_squares. Qed.
