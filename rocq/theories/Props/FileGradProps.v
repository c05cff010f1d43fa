(** Property C64: derivatives of fields read from a file of decimal numbers, in doubles. *)
From Coq Require Import ZArith List Ascii String Reals.
From Flocq Require Import Core IEEE754.BinarySingleNaN.
From Verif Require Import Model.Outcome Model.Num Model.NumInst Model.Interpolator Model.Quad Model.Mesh Model.PField Model.Stream Model.Vtk Model.SeriesIO Model.Decimal.
From Verif Require Import Spec.Funcs Spec.Shape Spec.Fields Spec.Vtk Spec.Rounding Spec.Decimal Spec.FileRounding.
From Verif Require Import Proofs.VtkExamples Proofs.FloatExamples Proofs.FileRoundExamples Proofs.FileGradP Proofs.FileGradExamples.
Import ListNotations.
Local Open Scope R_scope.

(** C64. Derivatives, under the hypotheses on the file of C64_file_value: at every double point of the mesh that is away from the edges of the rounded rectangles,
    with rectangles that are not so narrow that the derivative could overflow, the program answers with a finite number that differs from the derivative of the
    bilinear interpolant of the numbers in the file by some rounding of the values and by what rounding the coordinates moves the corners, compared to the rounded
    edge; likewise for the mixed second derivative. The second derivatives along one axis are zero everywhere. *)
Theorem C64_file_derivatives : forall pts cells fields t fuel name,
  vtk_text (O := ROps) small_numeral coords2 pts cells fields t -> rect_mesh pts cells -> apart (map fst pts) -> apart (map snd pts) ->
  resolved (map fst (map rounded_point pts)) -> resolved (map snd (map rounded_point pts)) ->
  In name (map fst fields) -> Forall (fun f => (List.length pts <= List.length (snd f))%nat) fields -> (List.length t < fuel)%nat ->
  let QV := quad_vkind FOps in
  exists bo k p data, body_read_vtk QV double_scanner fuel (Some t) (body_new QV) = RRet bo tt /\
    find_scalar_field QV bo (string_of_list_ascii name) = Ok k /\ nth_error (bo_fields QV bo) k = Some p /\
    nth_error fields k = Some (name, data) /\ (forall k' f, (k' < k)%nat -> nth_error fields k' = Some f -> fst f <> name) /\
    forall r, finite_point r -> in_mesh2 pts cells (point_value r) ->
    (forall j, (0 <= j <= 1)%Z ->
       (forall cell lo h v, file_near pts cells data (point_value r) cell lo h v -> let h' := rounded_edges lo h in
          clear_of (rounded_point lo) h' j (point_value r) /\ bpow radix2 (-1000) <= nth2 h' j /\ forall k, In k corners2 -> Rabs (to_double (v k)) <= bpow radix2 1000 * nth2 h' j) ->
       exists a g cell lo h v, answers (bo_mesh QV bo) p (QGrad j) r a /\ finite a /\ file_near pts cells data (point_value r) cell lo h v /\
         partial2 (bilinear lo h v) j (point_value r) g /\
         Rabs (value a - g) <= (18 * unit_roundoff + 2 * displacement2 lo h) * (rsum (fun k => Rabs (v k)) corners2 / nth2 (rounded_edges lo h) j) + 9 * tiny + 12 * tiny / nth2 (rounded_edges lo h) j) /\
    (forall j l, (0 <= j <= 1)%Z -> (0 <= l <= 1)%Z -> j <> l ->
       (forall cell lo h v, file_near pts cells data (point_value r) cell lo h v -> let h' := rounded_edges lo h in
          clear_of (rounded_point lo) h' 0 (point_value r) /\ clear_of (rounded_point lo) h' 1 (point_value r) /\ bpow radix2 (-1000) <= fst h' /\
          bpow radix2 (-1000) <= fst h' * snd h' <= bpow radix2 1000 /\ forall k, In k corners2 -> Rabs (to_double (v k)) <= bpow radix2 1000 * (fst h' * snd h')) ->
       exists a g cell lo h v, answers (bo_mesh QV bo) p (QHess j l) r a /\ finite a /\ file_near pts cells data (point_value r) cell lo h v /\
         second2 (bilinear lo h v) j l (point_value r) g /\ let h' := rounded_edges lo h in
         Rabs (value a - g) <= (18 * unit_roundoff + 2 * displacement2 lo h) * (rsum (fun k => Rabs (v k)) corners2 / (fst h' * snd h')) + 9 * tiny + 12 * tiny / (fst h' * snd h')) /\
    (forall j, (0 <= j <= 1)%Z -> exists a, answers (bo_mesh QV bo) p (QHess j j) r a /\ finite a /\ value a = 0).
Proof. exact file_derivatives. Qed.
Print Assumptions C64_file_derivatives.

(** The file of C64_case meets the hypotheses at (0.25, 0.5), where the derivatives of the interpolant of its numbers are -29/28 = -1.035714285714285714... and
    -41/14 = -2.928571428571428571... *)
Example C64_case_derivatives :
  (forall j, (0 <= j <= 1)%Z -> forall cell lo h v, file_near fr_pts fe_cells fr_data (point_value (quarter, half)) cell lo h v -> let h' := rounded_edges lo h in
    clear_of (rounded_point lo) h' j (point_value (quarter, half)) /\ bpow radix2 (-1000) <= nth2 h' j /\ forall k, In k corners2 -> Rabs (to_double (v k)) <= bpow radix2 1000 * nth2 h' j) /\
  (forall cell lo h v, file_near fr_pts fe_cells fr_data (point_value (quarter, half)) cell lo h v -> let h' := rounded_edges lo h in
    clear_of (rounded_point lo) h' 0 (point_value (quarter, half)) /\ clear_of (rounded_point lo) h' 1 (point_value (quarter, half)) /\ bpow radix2 (-1000) <= fst h' /\
    bpow radix2 (-1000) <= fst h' * snd h' <= bpow radix2 1000 /\ forall k, In k corners2 -> Rabs (to_double (v k)) <= bpow radix2 1000 * (fst h' * snd h')).
Proof. exact fr_clear. Qed.
Example C64_case_derivatives_answers : fr_ask (QGrad 0) = Ok (txt "-1.0357142857142858") /\ fr_ask (QHess 0 1) = Ok (txt "-2.9285714285714288").
Proof. vm_compute. split; reflexivity. Qed.
