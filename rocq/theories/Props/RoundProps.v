(** Property C58: fields on meshes of rectangles, evaluated in binary64. *)
From Coq Require Import ZArith List Bool Reals String.
From Flocq Require Import Core.Raux Core.Zaux.
From Verif Require Import Model.Outcome Model.Num Model.NumInst Model.Quad Model.Mesh Model.PField.
From Verif Require Import Spec.Funcs Spec.Shape Spec.Fields Spec.Rounding.
From Verif Require Import Proofs.FloatEvalP Proofs.FloatExamples.
Import ListNotations.
Local Open Scope R_scope.

(** C58. A mesh of rectangles with finite, resolved coordinates is read without error, and so is a field on it. *)
Theorem C58_mesh_reads :
  forall pts cells, Forall finite_point pts -> rect_mesh (map point_value pts) cells ->
  resolved (map fst (map point_value pts)) -> resolved (map snd (map point_value pts)) ->
  exists m, mesh_of (K := quad_kind FOps) pts cells m /\
    forall data name, (List.length pts <= List.length data)%nat -> exists p0, pf_new (F := scalar_field FOps) name m data (nofZ FOps 0) = Ok p0 /\
      field_on (F := scalar_field FOps) m data (nofZ FOps 0) p0.
Proof. exact reads64. Qed.
Print Assumptions C58_mesh_reads.

(** Not trivial: the rectangle [-1, 0.4] x [0, 1], where 0.4 is the nearest binary64 number. *)
Example C58_mesh_reads_case : Forall finite_point fe_pts /\ rect_mesh (map point_value fe_pts) fe_cells /\
  resolved (map fst (map point_value fe_pts)) /\ resolved (map snd (map point_value fe_pts)) /\ (List.length fe_pts <= List.length fe_data)%nat.
Proof. rewrite fe_values. exact (conj fe_finite (conj fe_mesh (conj fe_resolved_x (conj fe_resolved_y (le_n _))))). Qed.

(** C58. The resolution of the coordinates matters: on a rectangle whose two x coordinates are neighbouring binary64
    numbers, the program leaves the rows of its search grid while reading. *)
Theorem C58_mesh_reads_unresolved_refuted :
  exists pts cells m1, Forall finite_point pts /\ rect_mesh (map point_value pts) cells /\
  mesh_points (K := quad_kind FOps) pts mesh_new = RRet m1 tt /\ mesh_cells cells m1 = RUB UBOutOfBounds.
Proof. exact thin_reads. Qed.
Print Assumptions C58_mesh_reads_unresolved_refuted.

(** C58. Nor can the nodes share one x coordinate: 0/0 is then converted to an int. *)
Theorem C58_mesh_reads_flat_refuted :
  exists pts cells m1, Forall finite_point pts /\ (exists v, forall p, In p pts -> value (fst p) = v) /\ cells <> [] /\
  mesh_points (K := quad_kind FOps) pts mesh_new = RRet m1 tt /\ mesh_cells cells m1 = RUB UBBadConversion.
Proof. exact flat_reads. Qed.
Print Assumptions C58_mesh_reads_flat_refuted.

(** The coordinates of the first of these meshes are 1.5 + 2^-52 and 1.5 + 2^-51. *)
Example C58_unresolved_case : read_of thin_pts = Some UBOutOfBounds /\ read_of flat_pts = Some UBBadConversion /\
  nltb FOps near1 near2 = true.
Proof. vm_compute. auto. Qed.

(** C58. Values: everywhere on the mesh, edges and nodes included, the answer is finite and within a few roundoffs of the
    bilinear interpolant of an element at that point. *)
Theorem C58_value_error :
  forall pts cells data m p0 (r : c2 FOps), field64 pts cells data m p0 -> finite_point r ->
  in_mesh2 (map point_value pts) cells (point_value r) -> (forall x, In x data -> Rabs (value x) <= bpow radix2 1000) ->
  exists a cell lo h v, answers m p0 QVal r a /\ finite a /\ cell_near pts cells data r cell lo h v /\
    Rabs (value a - bilinear lo h v (point_value r)) <= 20 * unit_roundoff * rsum (fun k => Rabs (v k)) corners2 + 8 * tiny.
Proof. exact value_error. Qed.
Print Assumptions C58_value_error.

Example C58_value_error_case : exists m p0, field64 fe_pts fe_cells fe_data m p0 /\ finite_point (quarter, half) /\
  in_mesh2 (map point_value fe_pts) fe_cells (point_value (quarter, half)) /\ (forall x, In x fe_data -> Rabs (value x) <= bpow radix2 1000).
Proof.
  destruct fe_field as (m & p0 & H & _).
  exact (ex_intro _ m (ex_intro _ p0 (conj H (conj (conj eq_refl eq_refl) (conj fe_inside fe_small))))).
Qed.

(** C58. First derivatives: away from the edges of the elements the answer is finite and within a few roundoffs of the
    derivative, if no element is so narrow that the derivative could overflow. *)
Theorem C58_gradient_error :
  forall pts cells data m p0 (r : c2 FOps) j, field64 pts cells data m p0 -> finite_point r ->
  in_mesh2 (map point_value pts) cells (point_value r) -> (0 <= j <= 1)%Z ->
  (forall cell lo h v, cell_near pts cells data r cell lo h v ->
     clear_of lo h j (point_value r) /\ bpow radix2 (-1000) <= nth2 h j /\ forall k, In k corners2 -> Rabs (v k) <= bpow radix2 1000 * nth2 h j) ->
  exists a g cell lo h v, answers m p0 (QGrad j) r a /\ finite a /\ cell_near pts cells data r cell lo h v /\
    partial2 (bilinear lo h v) j (point_value r) g /\
    Rabs (value a - g) <= 15 * unit_roundoff * (rsum (fun k => Rabs (v k)) corners2 / nth2 h j) + 8 * tiny.
Proof. exact gradient_error. Qed.
Print Assumptions C58_gradient_error.

Example C58_gradient_error_case : exists m p0, field64 fe_pts fe_cells fe_data m p0 /\ finite_point (quarter, half) /\
  in_mesh2 (map point_value fe_pts) fe_cells (point_value (quarter, half)) /\
  forall cell lo h v, cell_near fe_pts fe_cells fe_data (quarter, half) cell lo h v -> forall j, (0 <= j <= 1)%Z ->
     clear_of lo h j (point_value (quarter, half)) /\ bpow radix2 (-1000) <= nth2 h j /\ forall k, In k corners2 -> Rabs (v k) <= bpow radix2 1000 * nth2 h j.
Proof.
  destruct fe_field as (m & p0 & H & _).
  exact (ex_intro _ m (ex_intro _ p0 (conj H (conj (conj eq_refl eq_refl) (conj fe_inside fe_clear))))).
Qed.

(** C58. The mixed second derivative, likewise. *)
Theorem C58_mixed_derivative_error :
  forall pts cells data m p0 (r : c2 FOps) j l, field64 pts cells data m p0 -> finite_point r ->
  in_mesh2 (map point_value pts) cells (point_value r) -> (0 <= j <= 1)%Z -> (0 <= l <= 1)%Z -> j <> l ->
  (forall cell lo h v, cell_near pts cells data r cell lo h v ->
     clear_of lo h 0 (point_value r) /\ clear_of lo h 1 (point_value r) /\ bpow radix2 (-1000) <= fst h /\
     bpow radix2 (-1000) <= fst h * snd h <= bpow radix2 1000 /\ forall k, In k corners2 -> Rabs (v k) <= bpow radix2 1000 * (fst h * snd h)) ->
  exists a g cell lo h v, answers m p0 (QHess j l) r a /\ finite a /\ cell_near pts cells data r cell lo h v /\
    second2 (bilinear lo h v) j l (point_value r) g /\
    Rabs (value a - g) <= 15 * unit_roundoff * (rsum (fun k => Rabs (v k)) corners2 / (fst h * snd h)) + 8 * tiny.
Proof. exact mixed_error. Qed.
Print Assumptions C58_mixed_derivative_error.

Example C58_mixed_derivative_error_case : exists m p0, field64 fe_pts fe_cells fe_data m p0 /\ finite_point (quarter, half) /\
  in_mesh2 (map point_value fe_pts) fe_cells (point_value (quarter, half)) /\
  forall cell lo h v, cell_near fe_pts fe_cells fe_data (quarter, half) cell lo h v ->
     clear_of lo h 0 (point_value (quarter, half)) /\ clear_of lo h 1 (point_value (quarter, half)) /\ bpow radix2 (-1000) <= fst h /\
     bpow radix2 (-1000) <= fst h * snd h <= bpow radix2 1000 /\ forall k, In k corners2 -> Rabs (v k) <= bpow radix2 1000 * (fst h * snd h).
Proof.
  destruct fe_field as (m & p0 & H & _).
  exact (ex_intro _ m (ex_intro _ p0 (conj H (conj (conj eq_refl eq_refl) (conj fe_inside fe_clear_both))))).
Qed.

(** C58. The second derivatives along one axis are zero everywhere, without any error. *)
Theorem C58_pure_second_derivative :
  forall pts cells data m p0 (r : c2 FOps) j, field64 pts cells data m p0 -> finite_point r ->
  in_mesh2 (map point_value pts) cells (point_value r) -> (0 <= j <= 1)%Z ->
  exists a, answers m p0 (QHess j j) r a /\ finite a /\ value a = 0.
Proof. exact pure_second. Qed.
Print Assumptions C58_pure_second_derivative.

(** Not trivial: the hypotheses hold at the upper edge too. *)
Example C58_pure_second_derivative_case : exists m p0, field64 fe_pts fe_cells fe_data m p0 /\ finite_point fe_edge /\
  in_mesh2 (map point_value fe_pts) fe_cells (point_value fe_edge).
Proof.
  destruct fe_field as (m & p0 & H & _).
  exact (ex_intro _ m (ex_intro _ p0 (conj H (conj (conj eq_refl eq_refl) fe_edge_inside)))).
Qed.

(** C58. The bound on first derivatives does not extend to the edges: on one rectangle with edges between 1 and 2 and data
    1 at every corner, the derivative at a point of an edge is zero, and the answer is more than a half. *)
Theorem C58_gradient_edge_refuted :
  exists pts cells data m p0 (r : c2 FOps) a, field64 pts cells data m p0 /\ finite_point r /\
  in_mesh2 (map point_value pts) cells (point_value r) /\ answers m p0 (QGrad 0) r a /\ finite a /\ 1 / 2 <= value a /\
  forall cell lo h v, cell_near pts cells data r cell lo h v ->
    bpow radix2 0 <= fst h <= bpow radix2 1 /\ (forall k, In k corners2 -> v k = 1) /\ partial2 (bilinear lo h v) 0 (point_value r) 0.
Proof. exact edge_gradient. Qed.
Print Assumptions C58_gradient_edge_refuted.

(** What the program computes there: about 0.714, that is 1 divided by the length 1.4 of the edge. *)
Example C58_gradient_edge_case :
  match fe_run (QGrad 0) fe_edge with Ok a => neqb FOps a (f64_make 6433713753386423 (-53)) | _ => false end = true.
Proof. vm_compute. reflexivity. Qed.
