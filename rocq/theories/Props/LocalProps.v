(** Property C51: which nodal data a result depends on, and coordinates that are not finite. *)
From Flocq Require Import BinarySingleNaN.
From Coq Require Import ZArith List Bool Reals.
From Verif Require Import Model.Outcome Model.Num Model.NumInst Model.PNDArray Model.Bin Model.Interpolator
  Model.Quad Model.Hexahedron Model.Mesh Model.PField.
From Verif Require Import Spec.Tensor Spec.Grid Spec.Funcs Spec.Shape Spec.Fields.
From Verif Require Import Proofs.FieldExamples Proofs.LocalP Proofs.LocalExamples.
Import ListNotations.
Local Open Scope Z_scope.

Local Notation QR := (quad_kind ROps).
Local Notation XR := (hex_kind ROps).
Local Notation QD := (quad_kind FOps).
Local Notation XD := (hex_kind FOps).
Local Notation real := (scalar_field ROps).
Local Notation double := (scalar_field FOps).

(** C51. Real numbers: at every point of the mesh there is one element, the same for all data, such that fields that agree
    at its corners return the same values and derivatives there, whatever they were used for before. *)
Theorem C51_local_2d_reals :
  forall pts cells (m : mesh ROps QR) r, rect_mesh pts cells -> mesh_of (K := QR) pts cells m -> in_mesh2 pts cells r ->
  exists cell, In cell cells /\ forall data1 data2 p1 p2 q, field_on (F := real) m data1 0%R p1 -> field_on (F := real) m data2 0%R p2 ->
    (forall k n, 0 <= k < 4 -> vget cell k = Ok n -> vget data1 n = vget data2 n) -> on_axes 2 q ->
    exists a, (forall h m' p', field_history (m, p1) h (m', p') -> exists s, field_eval (K := QR) q r (m', p') = RRet s a) /\
              (forall h m' p', field_history (m, p2) h (m', p') -> exists s, field_eval (K := QR) q r (m', p') = RRet s a).
Proof. exact local_real_2d. Qed.
Print Assumptions C51_local_2d_reals.

Theorem C51_local_3d_reals :
  forall pts cells (m : mesh ROps XR) r, box_mesh pts cells -> mesh_of (K := XR) pts cells m -> in_mesh3 pts cells r ->
  exists cell, In cell cells /\ forall data1 data2 p1 p2 q, field_on (F := real) m data1 0%R p1 -> field_on (F := real) m data2 0%R p2 ->
    (forall k n, 0 <= k < 8 -> vget cell k = Ok n -> vget data1 n = vget data2 n) -> on_axes 3 q ->
    exists a, (forall h m' p', field_history (m, p1) h (m', p') -> exists s, field_eval (K := XR) q r (m', p') = RRet s a) /\
              (forall h m' p', field_history (m, p2) h (m', p') -> exists s, field_eval (K := XR) q r (m', p') = RRet s a).
Proof. exact local_real_3d. Qed.
Print Assumptions C51_local_3d_reals.

(** C51. IEEE doubles: the same, bit for bit, for any mesh that was read and any point claimed by an interpolator, if all
    data are finite. *)
Theorem C51_local_2d_binary64 :
  forall pts cells (m : mesh FOps QD) c, mesh_of pts cells m -> claimed m c ->
  exists cell, In cell cells /\ forall data1 data2 p1 p2 q,
    field_on (F := double) m data1 (nofZ FOps 0) p1 -> field_on (F := double) m data2 (nofZ FOps 0) p2 ->
    Forall (fun x : f64 => is_finite x = true) data1 -> Forall (fun x : f64 => is_finite x = true) data2 ->
    (forall k n, 0 <= k < 4 -> vget cell k = Ok n -> vget data1 n = vget data2 n) -> on_axes 2 q ->
    exists a, (forall h m' p', field_history (m, p1) h (m', p') -> exists s, field_eval q c (m', p') = RRet s a) /\
              (forall h m' p', field_history (m, p2) h (m', p') -> exists s, field_eval q c (m', p') = RRet s a).
Proof. exact local_f64_2d. Qed.
Print Assumptions C51_local_2d_binary64.

Theorem C51_local_3d_binary64 :
  forall pts cells (m : mesh FOps XD) c, mesh_of pts cells m -> claimed m c ->
  exists cell, In cell cells /\ forall data1 data2 p1 p2 q,
    field_on (F := double) m data1 (nofZ FOps 0) p1 -> field_on (F := double) m data2 (nofZ FOps 0) p2 ->
    Forall (fun x : f64 => is_finite x = true) data1 -> Forall (fun x : f64 => is_finite x = true) data2 ->
    (forall k n, 0 <= k < 8 -> vget cell k = Ok n -> vget data1 n = vget data2 n) -> on_axes 3 q ->
    exists a, (forall h m' p', field_history (m, p1) h (m', p') -> exists s, field_eval q c (m', p') = RRet s a) /\
              (forall h m' p', field_history (m, p2) h (m', p') -> exists s, field_eval q c (m', p') = RRet s a).
Proof. exact local_f64_3d. Qed.
Print Assumptions C51_local_3d_binary64.

(** C51. The finiteness is needed: data that agree at the corners of the element containing the point, one of them infinite
    at a corner of the element beside it; the one field returns a number there and the other NaN (0 * infinity is added). *)
Theorem C51_infinite_neighbour_refuted :
  exists (m : mesh FOps QD) p1 p2 s1 (a1 : f64) s2 (a2 : f64), mesh_of (K := QD) g_pts g_cells m /\ claimed m g_point /\
  field_on (F := double) m g_data2 (nofZ FOps 0) p1 /\ field_on (F := double) m g_data3 (nofZ FOps 0) p2 /\
  (forall k n, 0 <= k < 4 -> vget [1; 2; 5; 4] k = Ok n -> vget g_data2 n = vget g_data3 n) /\
  field_eval (K := QD) QVal g_point (m, p1) = RRet s1 a1 /\ is_finite a1 = true /\
  field_eval (K := QD) QVal g_point (m, p2) = RRet s2 a2 /\ a2 = B754_nan.
Proof. exact infinite_refuted. Qed.
Print Assumptions C51_infinite_neighbour_refuted.

(** C51. A coordinate that is infinite or NaN never gets an answer: the call throws or its conversion to int is undefined. *)
Theorem C51_not_finite_2d :
  forall pts cells (m : mesh FOps QD) data p0 (c : f64 * f64) h m' p' q,
  mesh_of pts cells m -> field_on (F := double) m data (nofZ FOps 0) p0 -> field_history (m, p0) h (m', p') -> on_axes 2 q ->
  is_finite (fst c) = false \/ is_finite (snd c) = false ->
  (exists s, field_eval (K := QD) q c (m', p') = RThrow s DomainError) \/ field_eval (K := QD) q c (m', p') = RUB UBBadConversion.
Proof. exact not_finite_2d. Qed.
Print Assumptions C51_not_finite_2d.

Theorem C51_not_finite_3d :
  forall pts cells (m : mesh FOps XD) data p0 (c : c3 FOps) h m' p' q,
  mesh_of pts cells m -> field_on (F := double) m data (nofZ FOps 0) p0 -> field_history (m, p0) h (m', p') -> on_axes 3 q ->
  is_finite (cx c : f64) = false \/ is_finite (cy c : f64) = false \/ is_finite (cz c : f64) = false ->
  (exists s, field_eval (K := XD) q c (m', p') = RThrow s DomainError) \/ field_eval (K := XD) q c (m', p') = RUB UBBadConversion.
Proof. exact not_finite_3d. Qed.
Print Assumptions C51_not_finite_3d.

(** C51. NaN as first coordinate is never thrown out: the range check compares with it, and the conversion is undefined. *)
Theorem C51_nan_2d :
  forall pts cells (m : mesh FOps QD) data p0 (y : f64) h m' p' q,
  mesh_of pts cells m -> field_on (F := double) m data (nofZ FOps 0) p0 -> field_history (m, p0) h (m', p') -> on_axes 2 q ->
  field_eval (K := QD) q (B754_nan : f64, y) (m', p') = RUB UBBadConversion.
Proof. exact nan_2d. Qed.
Print Assumptions C51_nan_2d.

Theorem C51_nan_3d :
  forall pts cells (m : mesh FOps XD) data p0 (y z : f64) h m' p' q,
  mesh_of pts cells m -> field_on (F := double) m data (nofZ FOps 0) p0 -> field_history (m, p0) h (m', p') -> on_axes 3 q ->
  field_eval (K := XD) q (@mkC3 FOps B754_nan y z) (m', p') = RUB UBBadConversion.
Proof. exact nan_3d. Qed.
Print Assumptions C51_nan_3d.

(** Two rectangles side by side, a point of the second, and data that differ at nodes of the first only. *)
Example C51_case_2d_reals : exists (m : mesh ROps QR) p1 p2, rect_mesh ex_pts ex_cells /\ mesh_of (K := QR) ex_pts ex_cells m /\
  in_mesh2 ex_pts ex_cells (5/2, 1/4)%R /\ field_on (F := real) m [1; 3; 0; 2; 5; 7]%R 0%R p1 /\ field_on (F := real) m [9; 3; 0; 4; 5; 7]%R 0%R p2.
Proof. exact real_case_2d. Qed.
Example C51_case_3d_reals : exists (m : mesh ROps XR) p1 p2, box_mesh sl_pts sl_cells /\ mesh_of (K := XR) sl_pts sl_cells m /\
  in_mesh3 sl_pts sl_cells sl_r /\ field_on (F := real) m [0; 1; 2; 3; 4; 5; 6; 7; 8; 9; 10; 11]%R 0%R p1 /\
  field_on (F := real) m [5; 1; 2; 7; 4; 5; 9; 7; 8; 0; 10; 11]%R 0%R p2.
Proof. exact real_case_3d. Qed.
Example C51_case_2d_binary64 : exists (m : mesh FOps QD) p1 p2, mesh_of (K := QD) g_pts g_cells m /\ claimed m g_point /\
  field_on (F := double) m g_data1 (nofZ FOps 0) p1 /\ field_on (F := double) m g_data2 (nofZ FOps 0) p2 /\ g_data1 <> g_data2.
Proof. exact g_case. Qed.
Example C51_case_3d_binary64 : exists (m : mesh FOps XD) p1 p2, mesh_of (K := XD) k_pts sl_cells m /\ claimed m k_point /\
  field_on (F := double) m k_data1 (nofZ FOps 0) p1 /\ field_on (F := double) m k_data2 (nofZ FOps 0) p2.
Proof. exact k_case. Qed.
(** Both answers to coordinates that are not finite occur. *)
Example C51_case_not_finite : exists (m : mesh FOps QD) p0, mesh_of (K := QD) g_pts g_cells m /\ field_on (F := double) m g_data1 (nofZ FOps 0) p0 /\
  (exists s, field_eval (K := QD) QVal (B754_infinity false : f64, f64_make 0 0) (m, p0) = RThrow s DomainError) /\
  field_eval (K := QD) QVal (f64_make 1 0, B754_nan : f64) (m, p0) = RUB UBBadConversion.
Proof. exact not_finite_case. Qed.
