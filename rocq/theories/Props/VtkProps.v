(** Properties C26-C27: reading VTK files. *)
From Coq Require Import ZArith QArith List Bool Ascii String Reals.
From Verif Require Import Model.Outcome Model.Num Model.NumInst Model.PNDArray Model.Interpolator Model.Quad Model.Hexahedron
  Model.Mesh Model.PField Model.Stream Model.Vtk.
From Verif Require Import Spec.Tensor Spec.Funcs Spec.Shape Spec.Fields Spec.Vtk.
From Verif Require Import Proofs.FieldExamples Proofs.StreamP Proofs.VtkSpecP Proofs.VtkLoopP Proofs.VtkExamples.
Import ListNotations.
Local Open Scope Z_scope.

(** C26. In 2D, in any arithmetic and for any number notation that operator>> understands: reading a text of the supported form
    ends (within as many loop iterations as the text has characters, plus one) with a body whose mesh is the one built from exactly
    the points and cells in the text - its nodes are the points, its interpolators those of the cells - and whose fields are, in
    order, the named data in the text. *)
Theorem C26_reads_file_2d :
  forall (O : NumOps) num_text num_scanner pts cells fields t (m : mesh O (quad_kind O)) fuel,
  number_reader num_text num_scanner -> vtk_text num_text coords2 pts cells fields t ->
  mesh_of (K := quad_kind O) pts cells m -> (List.length t < fuel)%nat ->
  exists ps, body_read_vtk (quad_vkind O) num_scanner fuel (Some t) (body_new (quad_vkind O)) = RRet (mkBody (quad_vkind O) m ps) tt /\
    Forall2 (fun f p => pf_new (F := scalar_field O) (string_of_list_ascii (fst f)) m (snd f) (nofZ O 0) = Ok p) fields ps /\
    Forall2 named_field fields ps /\ me_node m = pts /\ all_interpolators (K := quad_kind O) pts cells (me_interp m).
Proof. exact read2_ok. Qed.
Print Assumptions C26_reads_file_2d.

(** C26. The same in 3D. *)
Theorem C26_reads_file_3d :
  forall (O : NumOps) num_text num_scanner pts cells fields t (m : mesh O (hex_kind O)) fuel,
  number_reader num_text num_scanner -> vtk_text num_text coords3 pts cells fields t ->
  mesh_of (K := hex_kind O) pts cells m -> (List.length t < fuel)%nat ->
  exists ps, body_read_vtk (hex_vkind O) num_scanner fuel (Some t) (body_new (hex_vkind O)) = RRet (mkBody (hex_vkind O) m ps) tt /\
    Forall2 (fun f p => pf_new (F := scalar_field O) (string_of_list_ascii (fst f)) m (snd f) (nofZ O 0) = Ok p) fields ps /\
    Forall2 named_field fields ps /\ me_node m = pts /\ all_interpolators (K := hex_kind O) pts cells (me_interp m).
Proof. exact read3_ok. Qed.
Print Assumptions C26_reads_file_3d.

(** C26. find_scalar_field returns the first field of that name. *)
Theorem C26_find_field : forall (O : NumOps) (V : vkind O) (b : body V) name k, find_scalar_field V b name = Ok k <->
  (exists p, nth_error (bo_fields V b) k = Some p /\ pf_name p = name) /\
  (forall k' p', (k' < k)%nat -> nth_error (bo_fields V b) k' = Some p' -> pf_name p' <> name).
Proof. exact (@find_ok). Qed.
Print Assumptions C26_find_field.

(** C26. It throws invalid_argument exactly if there is none. *)
Theorem C26_find_missing : forall (O : NumOps) (V : vkind O) (b : body V) name,
  find_scalar_field V b name = Throw InvalidArgument <-> forall p, In p (bo_fields V b) -> pf_name p <> name.
Proof. exact (@find_throws). Qed.
Print Assumptions C26_find_missing.

(** C26. From the file to the values: over the reals, for a text that describes a mesh of rectangles, the first field of a name
    in the text is found and evaluates, at every point of the mesh, to the bilinear interpolation of its data in the text. *)
Theorem C26_file_to_values : forall num_text num_scanner pts cells fields t fuel name r,
  number_reader (A := R) num_text num_scanner -> vtk_text (O := ROps) num_text coords2 pts cells fields t -> rect_mesh pts cells ->
  In name (map fst fields) -> Forall (fun f => (List.length pts <= List.length (snd f))%nat) fields ->
  (List.length t < fuel)%nat -> in_mesh2 pts cells r ->
  let QV := quad_vkind ROps in
  exists bo k p data, body_read_vtk QV num_scanner fuel (Some t) (body_new QV) = RRet bo tt /\
    find_scalar_field QV bo (string_of_list_ascii name) = Ok k /\ nth_error (bo_fields QV bo) k = Some p /\
    nth_error fields k = Some (name, data) /\ (forall k' f, (k' < k)%nat -> nth_error fields k' = Some f -> fst f <> name) /\
    exists cell lo h v, In cell cells /\ cell_rect pts cell lo h /\ in_rect lo h r /\ cell_data data cell corners2 v /\
    forall q, on_axes 2 q -> exists s a, field_eval (K := quad_kind ROps) q r (bo_mesh QV bo, p) = RRet s a /\ quantity2 (bilinear lo h v) q r a.
Proof. exact value_from_file. Qed.
Print Assumptions C26_file_to_values.

(** The file of two rectangles and two fields (whole numbers, some negative, some of two digits), in every arithmetic, and in particular over the
    reals, where its mesh is the one of C18. *)
Example C26_case : (forall O, number_reader whole_text (whole_scanner O)) /\
  (forall O, vtk_text whole_text coords2 (ex_points O) ex_cells (ex_fields O) ex_file) /\
  ex_points ROps = ex_pts /\ rect_mesh ex_pts ex_cells /\ in_mesh2 ex_pts ex_cells (5/2, 1/4)%R /\
  map fst (ex_fields ROps) = [ls "heat"; ls "cold"].
Proof. exact (conj whole_reader (conj ex_vtk (conj eq_refl (conj ex_mesh (conj ex_point eq_refl))))). Qed.

(** The file of two cubes; over the reals its mesh exists (C22). *)
Example C26_case_3d : (forall O, vtk_text whole_text coords3 (st_points O) st_cells (st_fields O) st_file) /\
  st_points ROps = st_pts /\ box_mesh st_pts st_cells.
Proof. exact (conj st_vtk (conj eq_refl st_mesh)). Qed.

(** C27. Reading terminates: refuted. A file that cannot be opened is read forever, whatever the body, dimension, arithmetic and
    number notation. *)
Theorem C27_terminates_refuted : exists f, forall (O : NumOps) (V : vkind O) num_scanner bo fuel,
  body_read_vtk V num_scanner fuel f bo = RNoFuel.
Proof. exact (ex_intro _ None missing_never). Qed.
Print Assumptions C27_terminates_refuted.

(** C27. So is a file with one malformed number among its data. *)
Theorem C27_malformed_number_refuted : exists t, forall fuel,
  body_read_vtk (quad_vkind QOps) (whole_scanner QOps) fuel (Some t) (body_new (quad_vkind QOps)) = RNoFuel.
Proof. exact (ex_intro _ bad_file bad_file_never). Qed.
Print Assumptions C27_malformed_number_refuted.

(** C27. Once the stream has failed without end-of-file being reported, the data loop never ends normally. *)
Theorem C27_stuck_data : forall (O : NumOps) (V : vkind O) num_scanner, consumes num_scanner ->
  forall fuel b b', stuck (b_in V b) -> body_loop V num_scanner fuel b <> RRet b' tt.
Proof. exact (@body_stuck). Qed.
Print Assumptions C27_stuck_data.

(** C27. Neither does the mesh loop, unless the last line read was a CELL_TYPES line. *)
Theorem C27_stuck_mesh : forall (O : NumOps) (V : vkind O) num_scanner, consumes num_scanner ->
  forall fuel v v', stuck (v_in V v) -> prefix_of (txt "CELL_TYPES") (l_line (v_loc V v)) = false ->
  mesh_loop V num_scanner fuel v <> RRet v' tt.
Proof. exact (@mesh_stuck). Qed.
Print Assumptions C27_stuck_mesh.

(** C27. That is the only way not to terminate: if more loop iterations than the file has characters do not suffice, the stream
    has failed without end-of-file after at most that many iterations, in the mesh part or in the data part. (Or binning the
    interpolators of a cell whose corners are not ordered leaves the storage; see C07.) *)
Theorem C27_only_if_stuck_2d : forall (O : NumOps) num_scanner, consumes num_scanner ->
  let V := quad_vkind O in
  forall t bo fuel, (List.length t < fuel)%nat -> body_read_vtk V num_scanner fuel (Some t) bo = RNoFuel ->
  (exists n v, (n <= List.length t)%nat /\ mesh_runs V num_scanner n (mesh_start V bo t) v /\
     (stuck (v_in V v) \/
      mesh_iteration V num_scanner v = RNoFuel /\ starts_with "CELLS" (fst (getline (l_line (v_loc V v)) (v_in V v))))) \/
  (exists v n b, mesh_loop V num_scanner fuel (mesh_start V bo t) = RRet v tt /\ (n <= List.length t)%nat /\
     body_runs V num_scanner n (data_start V (bo_fields V bo) v) b /\ stuck (b_in V b)).
Proof. exact (fun O sc H => read_bound (quad_vkind O) sc H (quad_point_fu O)). Qed.
Print Assumptions C27_only_if_stuck_2d.

Theorem C27_only_if_stuck_3d : forall (O : NumOps) num_scanner, consumes num_scanner ->
  let V := hex_vkind O in
  forall t bo fuel, (List.length t < fuel)%nat -> body_read_vtk V num_scanner fuel (Some t) bo = RNoFuel ->
  (exists n v, (n <= List.length t)%nat /\ mesh_runs V num_scanner n (mesh_start V bo t) v /\
     (stuck (v_in V v) \/
      mesh_iteration V num_scanner v = RNoFuel /\ starts_with "CELLS" (fst (getline (l_line (v_loc V v)) (v_in V v))))) \/
  (exists v n b, mesh_loop V num_scanner fuel (mesh_start V bo t) = RRet v tt /\ (n <= List.length t)%nat /\
     body_runs V num_scanner n (data_start V (bo_fields V bo) v) b /\ stuck (b_in V b)).
Proof. exact (fun O sc H => read_bound (hex_vkind O) sc H (hex_point_fu O)). Qed.
Print Assumptions C27_only_if_stuck_3d.

(** The hypotheses hold for the malformed file, whose reading is covered by the last theorem; a file cut off in the middle of its
    data is read without any error, the missing data becoming zeros. *)
Example C27_case : (forall O, consumes (whole_scanner O)) /\
  (forall fuel, body_read_vtk (quad_vkind QOps) (whole_scanner QOps) fuel (Some bad_file) (body_new (quad_vkind QOps)) = RNoFuel) /\
  cut_result cut_file = Some [[7; 8; 0; 0]%Q].
Proof. exact (conj whole_consumes (conj bad_file_never cut_silent)). Qed.
