(** Property C64, in three dimensions: gradients of fields on boxes read from a file of decimal numbers, in doubles. *)
From Coq Require Import ZArith List Ascii String Reals.
From Flocq Require Import Core IEEE754.BinarySingleNaN.
From Verif Require Import Model.Outcome Model.Num Model.NumInst Model.Interpolator Model.Hexahedron Model.Mesh Model.PField Model.Stream Model.Vtk Model.SeriesIO Model.Decimal.
From Verif Require Import Spec.Funcs Spec.Shape Spec.Fields Spec.Vtk Spec.Rounding Spec.Rounding3 Spec.Decimal Spec.FileRounding Spec.FileRounding3.
From Verif Require Import Proofs.VtkExamples Proofs.FieldExamples Proofs.FloatExamples3 Proofs.FileRound3Examples Proofs.FileGrad3P Proofs.FileGrad3Examples.
Import ListNotations.
Local Open Scope R_scope.

(** C64. Gradients on one layer of boxes, under the hypotheses on the file of C64_box_file_value: at every double point of the mesh that is away from the faces of
    the rounded boxes crossed by the axis, with boxes that are not so thin that the derivative could overflow, the program answers with a finite number that differs
    from the derivative of the trilinear interpolant of the numbers in the file by some rounding of the values and by what rounding the coordinates moves the
    corners, compared to the rounded edge. The second derivatives along one axis are zero everywhere. *)
Theorem C64_box_file_gradient : forall pts cells fields t fuel name,
  vtk_text (O := ROps) small_numeral coords3 pts cells fields t -> box_mesh pts cells -> one_layer pts cells -> apart3 pts ->
  resolved3 (map rounded_point3 pts) ->
  In name (map fst fields) -> Forall (fun f => (List.length pts <= List.length (snd f))%nat) fields -> (List.length t < fuel)%nat ->
  let HV := hex_vkind FOps in
  exists bo k p data, body_read_vtk HV double_scanner fuel (Some t) (body_new HV) = RRet bo tt /\
    find_scalar_field HV bo (string_of_list_ascii name) = Ok k /\ nth_error (bo_fields HV bo) k = Some p /\
    nth_error fields k = Some (name, data) /\ (forall k' f, (k' < k)%nat -> nth_error fields k' = Some f -> fst f <> name) /\
    forall r j, finite_point3 r -> in_mesh3 pts cells (point_value3 r) -> (0 <= j <= 2)%Z ->
    ((forall cell lo h v, file_near3 pts cells data (point_value3 r) cell lo h v -> let h' := rounded_edges3 lo h in
        clear_of3 (rounded_point3 lo) h' j (point_value3 r) /\ bpow radix2 (-1000) <= nth3 h' j /\ forall k, In k corners3 -> Rabs (to_double (v k)) <= bpow radix2 1000 * nth3 h' j) ->
     exists a g cell lo h v, answers3 (bo_mesh HV bo) p (QGrad j) r a /\ finite a /\ file_near3 pts cells data (point_value3 r) cell lo h v /\
       partial3 (trilinear lo h v) j (point_value3 r) g /\
       Rabs (value a - g) <= (31 * unit_roundoff + 2 * displacement3 lo h) * (rsum (fun k => Rabs (v k)) corners3 / nth3 (rounded_edges3 lo h) j) + 9 * tiny + 24 * tiny / nth3 (rounded_edges3 lo h) j) /\
    (exists a, answers3 (bo_mesh HV bo) p (QHess j j) r a /\ finite a /\ value a = 0).
Proof. exact file_gradient3. Qed.
Print Assumptions C64_box_file_gradient.

(** The file of C64_case_boxes meets the hypotheses at (0.25, 0.5, 0.5), where the derivatives of the interpolant of its numbers along x and z are -13/28 =
    -0.464285714285714285... and 41/280 = 0.146428571428571428...  *)
Example C64_case_box_gradient : forall j, (0 <= j <= 2)%Z -> forall cell lo h v, file_near3 f3_pts sl_cells f3_data (point_value3 be_r) cell lo h v -> let h' := rounded_edges3 lo h in
  clear_of3 (rounded_point3 lo) h' j (point_value3 be_r) /\ bpow radix2 (-1000) <= nth3 h' j /\ forall k, In k corners3 -> Rabs (to_double (v k)) <= bpow radix2 1000 * nth3 h' j.
Proof. exact f3_clear. Qed.
Example C64_case_box_gradient_answers : f3_ask (QGrad 0) = Ok (txt "-0.4642857142857143") /\ f3_ask (QGrad 2) = Ok (txt "0.14642857142857141").
Proof. vm_compute. split; reflexivity. Qed.
