(** Property C66: fields on meshes of boxes, evaluated in binary64. *)
From Coq Require Import ZArith List Bool Reals String.
From Flocq Require Import Core.Raux Core.Zaux.
From Verif Require Import Model.Outcome Model.Num Model.NumInst Model.Hexahedron Model.Mesh Model.PField.
From Verif Require Import Spec.Funcs Spec.Shape Spec.Fields Spec.Rounding Spec.Rounding3.
From Verif Require Import Proofs.FieldExamples Proofs.FloatExamples Proofs.FloatEval3P Proofs.FloatExamples3.
Import ListNotations.
Local Open Scope R_scope.

(** C66. A mesh of boxes with finite, resolved coordinates is read without error, and so is a field on it. *)
Theorem C66_mesh_reads :
  forall pts cells, Forall finite_point3 pts -> box_mesh (map point_value3 pts) cells -> resolved3 (map point_value3 pts) ->
  exists m, mesh_of (K := hex_kind FOps) pts cells m /\
    forall data name, (List.length pts <= List.length data)%nat -> exists p0, pf_new (F := scalar_field FOps) name m data (nofZ FOps 0) = Ok p0 /\
      field_on (F := scalar_field FOps) m data (nofZ FOps 0) p0.
Proof. exact reads64_3. Qed.
Print Assumptions C66_mesh_reads.

(** Not trivial: the boxes [-1, 0.4] x [0, 1] x [0, 1] and [0.4, 2] x [0, 1] x [0, 1], where 0.4 is the nearest binary64 number. *)
Example C66_mesh_reads_case : Forall finite_point3 be_pts /\ box_mesh (map point_value3 be_pts) sl_cells /\ resolved3 (map point_value3 be_pts) /\
  (List.length be_pts <= List.length be_data)%nat.
Proof. rewrite be_values. exact (conj be_finite (conj be_mesh (conj be_resolved (le_n _)))). Qed.

(** C66. Everywhere on the mesh every question is answered, with the same number each time, whatever was asked before. *)
Theorem C66_evaluates :
  forall pts cells data m p0 (r : c3 FOps) q, field64_3 pts cells data m p0 -> finite_point3 r ->
  in_mesh3 (map point_value3 pts) cells (point_value3 r) -> on_axes 3 q -> exists a, answers3 m p0 q r a.
Proof. exact evaluates3. Qed.
Print Assumptions C66_evaluates.

(** Not trivial: two cubes on top of each other. *)
Example C66_evaluates_case : exists m p0, field64_3 sk_pts st_cells sk_data m p0 /\ finite_point3 sk_r /\
  in_mesh3 (map point_value3 sk_pts) st_cells (point_value3 sk_r) /\ on_axes 3 (QHess 0 2).
Proof.
  destruct sk_field as (m & p0 & H & _).
  refine (ex_intro _ m (ex_intro _ p0 (conj H (conj (conj eq_refl (conj eq_refl eq_refl)) (conj sk_inside _))))). vm_compute. intuition discriminate.
Qed.

(** C66. Values on meshes with one layer: everywhere, faces, edges and nodes included, the answer is finite and within a few
    roundoffs of the trilinear interpolant of an element at that point. *)
Theorem C66_value_error :
  forall pts cells data m p0 (r : c3 FOps), field64_3 pts cells data m p0 -> one_layer (map point_value3 pts) cells -> finite_point3 r ->
  in_mesh3 (map point_value3 pts) cells (point_value3 r) -> (forall x, In x data -> Rabs (value x) <= bpow radix2 1000) ->
  exists a cell lo h v, answers3 m p0 QVal r a /\ finite a /\ cell_near3 pts cells data r cell lo h v /\
    Rabs (value a - trilinear lo h v (point_value3 r)) <= 33 * unit_roundoff * rsum (fun k => Rabs (v k)) corners3 + 9 * tiny.
Proof. exact value_error3. Qed.
Print Assumptions C66_value_error.

Example C66_value_error_case : exists m p0, field64_3 be_pts sl_cells be_data m p0 /\ one_layer (map point_value3 be_pts) sl_cells /\ finite_point3 be_r /\
  in_mesh3 (map point_value3 be_pts) sl_cells (point_value3 be_r) /\ (forall x, In x be_data -> Rabs (value x) <= bpow radix2 1000).
Proof.
  destruct be_field as (m & p0 & H & L).
  exact (ex_intro _ m (ex_intro _ p0 (conj H (conj L (conj (conj eq_refl (conj eq_refl eq_refl)) (conj be_inside be_small)))))).
Qed.

(** C66. First derivatives, likewise: away from the faces crossed by the axis the answer is finite and within a few roundoffs
    of the derivative, if no element is so narrow that the derivative could overflow. *)
Theorem C66_gradient_error :
  forall pts cells data m p0 (r : c3 FOps) j, field64_3 pts cells data m p0 -> one_layer (map point_value3 pts) cells -> finite_point3 r ->
  in_mesh3 (map point_value3 pts) cells (point_value3 r) -> (0 <= j <= 2)%Z ->
  (forall cell lo h v, cell_near3 pts cells data r cell lo h v ->
     clear_of3 lo h j (point_value3 r) /\ bpow radix2 (-1000) <= nth3 h j /\ forall k, In k corners3 -> Rabs (v k) <= bpow radix2 1000 * nth3 h j) ->
  exists a g cell lo h v, answers3 m p0 (QGrad j) r a /\ finite a /\ cell_near3 pts cells data r cell lo h v /\
    partial3 (trilinear lo h v) j (point_value3 r) g /\
    Rabs (value a - g) <= 28 * unit_roundoff * (rsum (fun k => Rabs (v k)) corners3 / nth3 h j) + 9 * tiny.
Proof. exact gradient_error3. Qed.
Print Assumptions C66_gradient_error.

Example C66_gradient_error_case : exists m p0, field64_3 be_pts sl_cells be_data m p0 /\ one_layer (map point_value3 be_pts) sl_cells /\ finite_point3 be_r /\
  in_mesh3 (map point_value3 be_pts) sl_cells (point_value3 be_r) /\
  forall cell lo h v, cell_near3 be_pts sl_cells be_data be_r cell lo h v -> forall j, (0 <= j <= 2)%Z ->
     clear_of3 lo h j (point_value3 be_r) /\ bpow radix2 (-1000) <= nth3 h j /\ forall k, In k corners3 -> Rabs (v k) <= bpow radix2 1000 * nth3 h j.
Proof.
  destruct be_field as (m & p0 & H & L).
  exact (ex_intro _ m (ex_intro _ p0 (conj H (conj L (conj (conj eq_refl (conj eq_refl eq_refl)) (conj be_inside be_clear)))))).
Qed.

(** C66. The second derivatives along one axis are zero everywhere on every mesh of boxes, without any error. *)
Theorem C66_pure_second_derivative :
  forall pts cells data m p0 (r : c3 FOps) j, field64_3 pts cells data m p0 -> finite_point3 r ->
  in_mesh3 (map point_value3 pts) cells (point_value3 r) -> (0 <= j <= 2)%Z ->
  exists a, answers3 m p0 (QHess j j) r a /\ finite a /\ value a = 0.
Proof. exact pure_second3. Qed.
Print Assumptions C66_pure_second_derivative.

Example C66_pure_second_derivative_case : exists m p0, field64_3 sk_pts st_cells sk_data m p0 /\ finite_point3 sk_r /\
  in_mesh3 (map point_value3 sk_pts) st_cells (point_value3 sk_r).
Proof.
  destruct sk_field as (m & p0 & H & _).
  exact (ex_intro _ m (ex_intro _ p0 (conj H (conj (conj eq_refl (conj eq_refl eq_refl)) sk_inside)))).
Qed.

(** C66. The bound on values does not extend to several layers: on two stacked unit cubes with data between 0 and 8 the
    answer at one point is 2 or more away from the interpolant of every element that is next to the point. *)
Theorem C66_value_layers_refuted :
  exists pts cells data m p0 (r : c3 FOps) a, field64_3 pts cells data m p0 /\ finite_point3 r /\
  in_mesh3 (map point_value3 pts) cells (point_value3 r) /\ (forall x, In x data -> 0 <= value x <= 8) /\ answers3 m p0 QVal r a /\ finite a /\
  forall cell lo h v, cell_near3 pts cells data r cell lo h v -> Rabs (value a - trilinear lo h v (point_value3 r)) >= 2.
Proof. exact wrong_layer64. Qed.
Print Assumptions C66_value_layers_refuted.

(** The program answers 0 there; the interpolant of the upper cube is 2. *)
Example C66_value_layers_case : match sk_run QVal sk_r with Ok a => neqb FOps a FloatExamples.z0 | _ => false end = true.
Proof. vm_compute. reflexivity. Qed.
