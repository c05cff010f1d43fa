(** Property C64, in three dimensions: fields on boxes read from a file of decimal numbers, in doubles. *)
From Coq Require Import ZArith List Ascii String Reals.
From Flocq Require Import Core IEEE754.BinarySingleNaN.
From Verif Require Import Model.Outcome Model.Num Model.NumInst Model.Interpolator Model.Hexahedron Model.Mesh Model.PField Model.Stream Model.Vtk Model.SeriesIO Model.Decimal.
From Verif Require Import Spec.Funcs Spec.Shape Spec.Fields Spec.Vtk Spec.Rounding Spec.Rounding3 Spec.Decimal Spec.FileRounding Spec.FileRounding3.
From Verif Require Import Proofs.VtkExamples Proofs.FieldExamples Proofs.FloatExamples3 Proofs.FileRound3P Proofs.FileRound3Examples.
Import ListNotations.
Local Open Scope R_scope.

(** C64. Rounding the coordinates of a mesh of boxes gives a mesh of boxes with the same cells, if it keeps different coordinates different. *)
Theorem C64_rounded_boxes : forall pts cells, box_mesh pts cells -> apart3 pts -> box_mesh (map rounded_point3 pts) cells.
Proof. exact rounded_box_mesh. Qed.
Print Assumptions C64_rounded_boxes.

(** C64. The same for a file that describes one layer of boxes: the program reads it, finds the first field of the name, and at every double point of the mesh
    answers, whatever was evaluated before, with a finite value that differs from the trilinear interpolant of the numbers in the file, on a box of the file,
    by some rounding of the values and by what rounding the coordinates moves the corners. *)
Theorem C64_box_file_value : forall pts cells fields t fuel name,
  vtk_text (O := ROps) small_numeral coords3 pts cells fields t -> box_mesh pts cells -> one_layer pts cells -> apart3 pts ->
  resolved3 (map rounded_point3 pts) ->
  In name (map fst fields) -> Forall (fun f => (List.length pts <= List.length (snd f))%nat) fields -> (List.length t < fuel)%nat ->
  let HV := hex_vkind FOps in
  exists bo k p data, body_read_vtk HV double_scanner fuel (Some t) (body_new HV) = RRet bo tt /\
    find_scalar_field HV bo (string_of_list_ascii name) = Ok k /\ nth_error (bo_fields HV bo) k = Some p /\
    nth_error fields k = Some (name, data) /\ (forall k' f, (k' < k)%nat -> nth_error fields k' = Some f -> fst f <> name) /\
    forall r, finite_point3 r -> in_mesh3 pts cells (point_value3 r) ->
    exists a cell lo h v, answers3 (bo_mesh HV bo) p QVal r a /\ finite a /\ In cell cells /\ cell_box pts cell lo h /\ cell_data data cell corners3 v /\
      near_box (rounded_point3 lo) (rounded_edges3 lo h) (point_value3 r) /\
      Rabs (value a - trilinear lo h v (point_value3 r)) <= (35 * unit_roundoff + 2 * displacement3 lo h) * rsum (fun k => Rabs (v k)) corners3 + 21 * tiny.
Proof. exact file_value3. Qed.
Print Assumptions C64_box_file_value.

(** Two boxes that share the face x = 0.4; at (0.25, 0.5, 0.5) the interpolant of the numbers in the file is 249/560, that is 0.444642857142857142... *)
Example C64_case_boxes : vtk_text (O := ROps) small_numeral coords3 f3_pts sl_cells f3_fields f3_file /\ box_mesh f3_pts sl_cells /\ one_layer f3_pts sl_cells /\ apart3 f3_pts /\
  resolved3 (map rounded_point3 f3_pts) /\ In (ls "heat") (map fst f3_fields) /\
  Forall (fun f => (List.length f3_pts <= List.length (snd f))%nat) f3_fields /\ in_mesh3 f3_pts sl_cells (point_value3 be_r).
Proof. exact f3_case. Qed.
Example C64_case_boxes_answer : f3_run = Ok (txt "0.44464285714285706").
Proof. vm_compute. reflexivity. Qed.
