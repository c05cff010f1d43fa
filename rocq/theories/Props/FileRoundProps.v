(** Property C64: fields read from a file of decimal numbers, in doubles. *)
From Coq Require Import ZArith List Ascii String Reals.
From Flocq Require Import Core IEEE754.BinarySingleNaN.
From Verif Require Import Model.Outcome Model.Num Model.NumInst Model.Interpolator Model.Quad Model.Mesh Model.PField Model.Stream Model.Vtk Model.SeriesIO Model.Decimal.
From Verif Require Import Spec.Funcs Spec.Shape Spec.Fields Spec.Vtk Spec.Rounding Spec.Decimal Spec.FileRounding.
From Verif Require Import Proofs.VtkExamples Proofs.FloatExamples Proofs.FileRoundP Proofs.FileRoundExamples.
Import ListNotations.
Local Open Scope R_scope.

(** C64. Rounding the coordinates of a mesh of rectangles gives a mesh of rectangles with the same cells, if it keeps different coordinates different. *)
Theorem C64_rounded_mesh : forall pts cells, rect_mesh pts cells -> apart (map fst pts) -> apart (map snd pts) -> rect_mesh (map rounded_point pts) cells.
Proof. exact rounded_mesh. Qed.
Print Assumptions C64_rounded_mesh.

(** C64. From the text of a file to the answers of the program, in terms of the numbers written in the file: let the file describe a mesh of rectangles with
    coordinates that stay different and are resolved as doubles, and a field of the name for every point. The program reads it, finds the first field of
    that name, and at every double point of the mesh answers, whatever was evaluated before, with a finite value that differs from the bilinear interpolant
    of the numbers in the file, on a rectangle of the file, by some rounding of the values and by what rounding the coordinates moves the corners. *)
Theorem C64_file_value : forall pts cells fields t fuel name,
  vtk_text (O := ROps) small_numeral coords2 pts cells fields t -> rect_mesh pts cells -> apart (map fst pts) -> apart (map snd pts) ->
  resolved (map fst (map rounded_point pts)) -> resolved (map snd (map rounded_point pts)) ->
  In name (map fst fields) -> Forall (fun f => (List.length pts <= List.length (snd f))%nat) fields -> (List.length t < fuel)%nat ->
  let QV := quad_vkind FOps in
  exists bo k p data, body_read_vtk QV double_scanner fuel (Some t) (body_new QV) = RRet bo tt /\
    find_scalar_field QV bo (string_of_list_ascii name) = Ok k /\ nth_error (bo_fields QV bo) k = Some p /\
    nth_error fields k = Some (name, data) /\ (forall k' f, (k' < k)%nat -> nth_error fields k' = Some f -> fst f <> name) /\
    forall r, finite_point r -> in_mesh2 pts cells (point_value r) ->
    exists a cell lo h v, answers (bo_mesh QV bo) p QVal r a /\ finite a /\ In cell cells /\ cell_rect pts cell lo h /\ cell_data data cell corners2 v /\
      near_rect (rounded_point lo) (to_double (fst lo + fst h) - to_double (fst lo), to_double (snd lo + snd h) - to_double (snd lo)) (point_value r) /\
      Rabs (value a - bilinear lo h v (point_value r)) <= (22 * unit_roundoff + 2 * displacement2 lo h) * rsum (fun k => Rabs (v k)) corners2 + 16 * tiny.
Proof. exact file_value. Qed.
Print Assumptions C64_file_value.

(** A file with numbers such as 0.4, 4e-1, .7 and -2.5; at (0.25, 0.5) the interpolant of its numbers is -417/560, that is -0.744642857142857142... *)
Example C64_case : vtk_text (O := ROps) small_numeral coords2 fr_pts fe_cells fr_fields fr_file /\ rect_mesh fr_pts fe_cells /\ apart (map fst fr_pts) /\ apart (map snd fr_pts) /\
  resolved (map fst (map rounded_point fr_pts)) /\ resolved (map snd (map rounded_point fr_pts)) /\ In (ls "heat") (map fst fr_fields) /\
  Forall (fun f => (List.length fr_pts <= List.length (snd f))%nat) fr_fields /\ in_mesh2 fr_pts fe_cells (point_value (quarter, half)).
Proof. exact fr_case. Qed.
Example C64_case_answer : fr_run = Ok (txt "-0.74464285714285694").
Proof. vm_compute. reflexivity. Qed.

(** C64. Every file that describes a mesh of rectangles can be read: refuted by a file with the coordinates 1 and 1.00000000000000000001, which are the same
    double. *)
Theorem C64_close_coordinates_refuted : exists pts cells fields t, vtk_text (O := ROps) small_numeral coords2 pts cells fields t /\ rect_mesh pts cells /\
  Forall (fun f => (List.length pts <= List.length (snd f))%nat) fields /\
  body_read_vtk (quad_vkind FOps) double_scanner (S (List.length t)) (Some t) (body_new (quad_vkind FOps)) = RUB UBBadConversion.
Proof. exact close_coordinates. Qed.
Print Assumptions C64_close_coordinates_refuted.
