(** Properties C18-C25: meshes and fields. *)
From Coq Require Import ZArith List Bool Lia Reals Lra String.
From Verif Require Import Model.Outcome Model.Num Model.NumInst Model.PNDArray Model.Bin Model.Interpolator
  Model.Quad Model.Hexahedron Model.Mesh Model.PField.
From Verif Require Import Spec.Tensor Spec.Grid Spec.Funcs Spec.Shape Spec.Fields.
From Verif Require Import Proofs.MeshReadP Proofs.RectP Proofs.RectFieldP Proofs.HexP Proofs.FieldSafeP Proofs.FieldExamples Proofs.Field3Examples.
Import ListNotations.
Local Open Scope Z_scope.

Local Notation QK := (quad_kind ROps).
Local Notation XK := (hex_kind ROps).
Local Notation scalar := (scalar_field ROps).

(** C18. At every point of a mesh of rectangles, after any earlier use, a field returns the bilinear interpolation of the
    corner data of an element containing the point, and the derivatives of that interpolant. *)
Theorem C18_bilinear_interpolant :
  forall pts cells (m : mesh ROps QK) (data : list R) name (p0 : pfield scalar) r,
  rect_mesh pts cells -> mesh_of (K := QK) pts cells m -> (List.length pts <= List.length data)%nat ->
  pf_new (F := scalar) name m data 0%R = Ok p0 -> in_mesh2 pts cells r ->
  exists cell lo h v, In cell cells /\ cell_rect pts cell lo h /\ in_rect lo h r /\ cell_data data cell corners2 v /\
    forall hist m' p', field_history (m, p0) hist (m', p') -> forall q, on_axes 2 q ->
      exists s a, field_eval (K := QK) q r (m', p') = RRet s a /\ quantity2 (bilinear lo h v) q r a.
Proof. exact rect_field. Qed.
Print Assumptions C18_bilinear_interpolant.

(** C18. The hypotheses are about the file only: mesh and field exist. *)
Theorem C18_mesh_and_field_exist :
  forall pts cells (data : list R) name, rect_mesh pts cells -> (List.length pts <= List.length data)%nat ->
  exists (m : mesh ROps QK) (p0 : pfield scalar), mesh_of (K := QK) pts cells m /\ pf_new (F := scalar) name m data 0%R = Ok p0.
Proof. exact rect_field_exists. Qed.
Print Assumptions C18_mesh_and_field_exist.

(** Two rectangles of different width, data 1 3 0 2 5 7, a point off all edges. *)
Example C18_case : rect_mesh ex_pts ex_cells /\ List.length ex_data = List.length ex_pts /\ in_mesh2 ex_pts ex_cells (5/2, 1/4)%R.
Proof. exact (conj ex_mesh (conj eq_refl ex_point)). Qed.

(** C19. At a node of the mesh the field returns the nodal datum. *)
Theorem C19_nodal_values :
  forall pts cells (m : mesh ROps QK) (data : list R) name (p0 : pfield scalar),
  rect_mesh pts cells -> mesh_of (K := QK) pts cells m -> (List.length pts <= List.length data)%nat ->
  pf_new (F := scalar) name m data 0%R = Ok p0 ->
  forall n p x, conforming pts cells -> vget pts n = Ok p -> vget data n = Ok x -> in_mesh2 pts cells p ->
  forall hist m' p', field_history (m, p0) hist (m', p') -> exists s, field_eval (K := QK) QVal p (m', p') = RRet s x.
Proof. exact rect_nodal. Qed.
Print Assumptions C19_nodal_values.

(** C19. Everywhere the value lies between two corner data of an element containing the point. *)
Theorem C19_maximum_principle :
  forall pts cells (m : mesh ROps QK) (data : list R) name (p0 : pfield scalar),
  rect_mesh pts cells -> mesh_of (K := QK) pts cells m -> (List.length pts <= List.length data)%nat ->
  pf_new (F := scalar) name m data 0%R = Ok p0 ->
  forall r, in_mesh2 pts cells r -> exists cell lo h v k1 k2, In cell cells /\ cell_rect pts cell lo h /\
    in_rect lo h r /\ cell_data data cell corners2 v /\ In k1 corners2 /\ In k2 corners2 /\
    forall hist m' p', field_history (m, p0) hist (m', p') ->
      exists s a, field_eval (K := QK) QVal r (m', p') = RRet s a /\ (v k1 <= a <= v k2)%R.
Proof. exact rect_maximum. Qed.
Print Assumptions C19_maximum_principle.

(** C19. Affine data are reproduced, with their gradient and (zero) Hessian. *)
Theorem C19_affine_data :
  forall pts cells (m : mesh ROps QK) (data : list R) name (p0 : pfield scalar),
  rect_mesh pts cells -> mesh_of (K := QK) pts cells m -> (List.length pts <= List.length data)%nat ->
  pf_new (F := scalar) name m data 0%R = Ok p0 ->
  forall al be ga, (forall n p x, vget pts n = Ok p -> vget data n = Ok x -> x = (al + be * fst p + ga * snd p)%R) ->
  forall r, in_mesh2 pts cells r -> forall hist m' p' q, field_history (m, p0) hist (m', p') -> on_axes 2 q ->
  exists s a, field_eval (K := QK) q r (m', p') = RRet s a /\ quantity2 (fun p => al + be * fst p + ga * snd p)%R q r a.
Proof. exact rect_affine. Qed.
Print Assumptions C19_affine_data.

Example C19_case : rect_mesh ex_pts ex_cells /\ conforming ex_pts ex_cells /\ vget ex_pts 4 = Ok (2, 1)%R /\
  vget ex_data 4 = Ok 5%R /\ in_mesh2 ex_pts ex_cells (2, 1)%R.
Proof. exact (conj ex_mesh (conj ex_conforming (conj eq_refl (conj eq_refl ex_node_point)))). Qed.

(** Data 1 + 2x - 3y on the same mesh. *)
Example C19_affine_case : List.length ex_affine = List.length ex_pts /\
  forall n p x, vget ex_pts n = Ok p -> vget ex_affine n = Ok x -> x = (1 + 2 * fst p + -3 * snd p)%R.
Proof. exact (conj eq_refl ex_affine_ok). Qed.

(** C20. On a shared edge, or at a shared corner, interpolation in either element gives the same value. *)
Theorem C20_shared_edge :
  forall pts (data : list R) cell lo h v cell' lo' h' v' r, cell_rect pts cell lo h -> cell_rect pts cell' lo' h' ->
  cell_data data cell corners2 v -> cell_data data cell' corners2 v' -> shared_edge pts cell cell' r ->
  bilinear lo h v r = bilinear lo' h' v' r.
Proof. exact shared_edge_value. Qed.
Print Assumptions C20_shared_edge.

Theorem C20_shared_corner :
  forall pts (data : list R) cell lo h v cell' lo' h' v' r, cell_rect pts cell lo h -> cell_rect pts cell' lo' h' ->
  cell_data data cell corners2 v -> cell_data data cell' corners2 v' -> shared_corner pts cell cell' r ->
  bilinear lo h v r = bilinear lo' h' v' r.
Proof. exact shared_corner_value. Qed.
Print Assumptions C20_shared_corner.

(** C20. Hence the field returns the interpolant of every element that contains the point, whichever the search picks. *)
Theorem C20_any_element :
  forall pts cells (m : mesh ROps QK) (data : list R) name (p0 : pfield scalar),
  rect_mesh pts cells -> mesh_of (K := QK) pts cells m -> (List.length pts <= List.length data)%nat ->
  pf_new (F := scalar) name m data 0%R = Ok p0 ->
  forall r, face_to_face pts cells -> forall cell lo h v, In cell cells -> cell_rect pts cell lo h ->
  in_rect lo h r -> cell_data data cell corners2 v ->
  forall hist m' p', field_history (m, p0) hist (m', p') -> exists s, field_eval (K := QK) QVal r (m', p') = RRet s (bilinear lo h v r).
Proof. exact rect_any_element. Qed.
Print Assumptions C20_any_element.

(** C20. The field is a continuous function on the whole mesh. *)
Theorem C20_continuous :
  forall pts cells (m : mesh ROps QK) (data : list R) name (p0 : pfield scalar),
  rect_mesh pts cells -> mesh_of (K := QK) pts cells m -> (List.length pts <= List.length data)%nat ->
  pf_new (F := scalar) name m data 0%R = Ok p0 -> face_to_face pts cells ->
  exists phi : point2 -> R,
    (forall r hist m' p', in_mesh2 pts cells r -> field_history (m, p0) hist (m', p') ->
       exists s, field_eval (K := QK) QVal r (m', p') = RRet s (phi r)) /\
    (forall r, in_mesh2 pts cells r -> forall eps, (0 < eps)%R -> exists delta, (0 < delta)%R /\
       forall r', in_mesh2 pts cells r' -> (Rabs (fst r' - fst r) < delta)%R -> (Rabs (snd r' - snd r) < delta)%R ->
         (Rabs (phi r' - phi r) < eps)%R).
Proof. exact rect_field_continuous. Qed.
Print Assumptions C20_continuous.

Example C20_case : rect_mesh ex_pts ex_cells /\ face_to_face ex_pts ex_cells /\
  shared_edge ex_pts [0; 1; 4; 3] [1; 2; 5; 4] (2, 1/2)%R /\ shared_corner ex_pts [0; 1; 4; 3] [1; 2; 5; 4] (2, 1)%R /\
  in_mesh2 ex_pts ex_cells (2, 1/2)%R.
Proof. exact (conj ex_mesh (conj ex_face_to_face (conj ex_shared_edge (conj ex_shared_corner ex_edge_point)))). Qed.

(** C21. At a point of the mesh the result is the same after every history; in any arithmetic this holds at every point some
    interpolator of its bin claims. *)
Theorem C21_2d_history_independent :
  forall pts cells (m : mesh ROps QK) (data : list R) name (p0 : pfield scalar) r q,
  rect_mesh pts cells -> mesh_of (K := QK) pts cells m -> (List.length pts <= List.length data)%nat ->
  pf_new (F := scalar) name m data 0%R = Ok p0 -> in_mesh2 pts cells r -> on_axes 2 q ->
  exists a : R, forall h m' p', field_history (m, p0) h (m', p') -> exists s, field_eval (K := QK) q r (m', p') = RRet s a.
Proof. exact rect_deterministic. Qed.
Print Assumptions C21_2d_history_independent.

Theorem C21_3d_history_independent :
  forall pts cells (m : mesh ROps XK) (data : list R) name (p0 : pfield scalar) r q,
  box_mesh pts cells -> mesh_of (K := XK) pts cells m -> (List.length pts <= List.length data)%nat ->
  pf_new (F := scalar) name m data 0%R = Ok p0 -> in_mesh3 pts cells r -> on_axes 3 q ->
  exists a : R, forall h m' p', field_history (m, p0) h (m', p') -> exists s, field_eval (K := XK) q r (m', p') = RRet s a.
Proof. exact box_deterministic. Qed.
Print Assumptions C21_3d_history_independent.

Theorem C21_2d_any_arithmetic :
  forall (O : NumOps) (F : FieldOps O) (m0 : mesh O (quad_kind O)) (data : list (ft F)) zero p0 c q,
  field_on m0 data zero p0 -> claimed m0 c -> on_axes 2 q ->
  exists a, forall h m p, field_history (m0, p0) h (m, p) -> exists s, field_eval q c (m, p) = RRet s a.
Proof. exact quad_deterministic. Qed.
Print Assumptions C21_2d_any_arithmetic.

Theorem C21_3d_any_arithmetic :
  forall (O : NumOps) (F : FieldOps O) (m0 : mesh O (hex_kind O)) (data : list (ft F)) zero p0 c q,
  field_on m0 data zero p0 -> claimed m0 c -> on_axes 3 q ->
  exists a, forall h m p, field_history (m0, p0) h (m, p) -> exists s, field_eval q c (m, p) = RRet s a.
Proof. exact hex_deterministic. Qed.
Print Assumptions C21_3d_any_arithmetic.

(** C21. Outside the mesh but within one bin of it the call returns, and what it returns depends on the history. *)
Theorem C21_outside_refuted :
  exists (pts : list (f64 * f64)) cells (m : mesh FOps (quad_kind FOps)) (data : list f64) p0 (c : f64 * f64) hist m1 p1 s1 a1 s2 a2,
    mesh_of (K := quad_kind FOps) pts cells m /\ List.length data = List.length pts /\
    pf_new (F := scalar_field FOps) "f" m data (nofZ FOps 0) = Ok p0 /\ field_history (m, p0) hist (m1, p1) /\
    field_eval (K := quad_kind FOps) QVal c (m, p0) = RRet s1 a1 /\
    field_eval (K := quad_kind FOps) QVal c (m1, p1) = RRet s2 a2 /\ neqb FOps a1 a2 = false.
Proof. exact outside_refuted. Qed.
Print Assumptions C21_outside_refuted.

(** A field of doubles on the unit square and an inner point some interpolator claims. *)
Example C21_case : exists (m : mesh FOps (quad_kind FOps)) p0,
  field_on (F := scalar_field FOps) m f_data (nofZ FOps 0) p0 /\ claimed m (f64_make 1 (-2), f64_make 1 (-1)).
Proof. exact f_claimed. Qed.

(** The same on the unit cube, with a history of two evaluations. *)
Example C21_case_3d : exists (m : mesh FOps (hex_kind FOps)) p0 h m' p' a,
  field_on (F := scalar_field FOps) m f3_values (nofZ FOps 0) p0 /\ claimed m f3_inner /\ field_history (m, p0) h (m', p') /\
  List.length h = 2%nat /\ latest h QVal = Some a /\ field_stored p' QVal = Ok a.
Proof. exact f3_history. Qed.

(** C22. At every point of a mesh of boxes the field combines the corner data of one element: the first one listed whose
    column contains the point and that meets the search bin of the point. *)
Theorem C22_chosen_element :
  forall pts cells (m : mesh ROps XK) (data : list R) name (p0 : pfield scalar) r,
  box_mesh pts cells -> mesh_of (K := XK) pts cells m ->
  (List.length pts <= List.length data)%nat -> pf_new (F := scalar) name m data 0%R = Ok p0 -> in_mesh3 pts cells r ->
  exists j cell lo h v, nth_error cells j = Some cell /\ cell_box pts cell lo h /\ in_column lo h r /\ shares_bin pts lo h r /\
    (forall j' cell' lo' h', nth_error cells j' = Some cell' -> cell_box pts cell' lo' h' -> in_column lo' h' r ->
       shares_bin pts lo' h' r -> (j <= j')%nat) /\
    cell_data data cell corners3 v /\
    forall hist m' p', field_history (m, p0) hist (m', p') -> forall q, on_axes 3 q -> unmixed q ->
      exists s a, field_eval (K := XK) q r (m', p') = RRet s a /\ quantity3 (trilinear lo h v) q r a.
Proof. exact box_chosen. Qed.
Print Assumptions C22_chosen_element.

(** C22. On meshes with one layer that element contains the point: the value, the gradient and the pure second derivatives
    are those of the trilinear interpolant (the mixed second derivatives are wrong, see C14). *)
Theorem C22_one_layer :
  forall pts cells (m : mesh ROps XK) (data : list R) name (p0 : pfield scalar) r,
  box_mesh pts cells -> mesh_of (K := XK) pts cells m ->
  (List.length pts <= List.length data)%nat -> pf_new (F := scalar) name m data 0%R = Ok p0 ->
  one_layer pts cells -> in_mesh3 pts cells r ->
  exists cell lo h v, In cell cells /\ cell_box pts cell lo h /\ in_box lo h r /\ cell_data data cell corners3 v /\
    forall hist m' p', field_history (m, p0) hist (m', p') -> forall q, on_axes 3 q -> unmixed q ->
      exists s a, field_eval (K := XK) q r (m', p') = RRet s a /\ quantity3 (trilinear lo h v) q r a.
Proof. exact box_one_layer. Qed.
Print Assumptions C22_one_layer.

(** C22. Affine data are reproduced on every mesh of boxes, since extrapolating them is exact. *)
Theorem C22_affine_data :
  forall pts cells (m : mesh ROps XK) (data : list R) name (p0 : pfield scalar) r (al be ga de : R),
  box_mesh pts cells -> mesh_of (K := XK) pts cells m ->
  (List.length pts <= List.length data)%nat -> pf_new (F := scalar) name m data 0%R = Ok p0 ->
  (forall n p x, vget pts n = Ok p -> vget data n = Ok x -> x = (al + be * cx p + ga * cy p + de * cz p)%R) ->
  in_mesh3 pts cells r ->
  forall hist m' p', field_history (m, p0) hist (m', p') -> forall q, on_axes 3 q ->
    exists s a, field_eval (K := XK) q r (m', p') = RRet s a /\ quantity3 (fun p => al + be * cx p + ga * cy p + de * cz p)%R q r a.
Proof. exact box_affine. Qed.
Print Assumptions C22_affine_data.

(** C22. On two stacked cubes the field does not return the interpolant of any element containing the point. *)
Theorem C22_wrong_layer_refuted :
  exists pts cells (m : mesh ROps XK) (data : list R) (p0 : pfield scalar) r s (a : R),
    box_mesh pts cells /\ mesh_of (K := XK) pts cells m /\ List.length data = List.length pts /\
    pf_new (F := scalar) "f" m data 0%R = Ok p0 /\ in_mesh3 pts cells r /\
    field_eval (K := XK) QVal r (m, p0) = RRet s a /\
    forall cell lo h v, In cell cells -> cell_box pts cell lo h -> in_box lo h r -> cell_data data cell corners3 v ->
      a <> trilinear lo h v r.
Proof. exact wrong_layer_refuted. Qed.
Print Assumptions C22_wrong_layer_refuted.

(** The stacked cubes, and two cubes side by side in one layer. *)
Example C22_case : box_mesh st_pts st_cells /\ in_mesh3 st_pts st_cells st_r /\
  box_mesh sl_pts sl_cells /\ one_layer sl_pts sl_cells /\ in_mesh3 sl_pts sl_cells sl_r.
Proof. exact (conj st_mesh (conj st_in_mesh (conj sl_mesh (conj sl_layer sl_in_mesh)))). Qed.

(** C23. A stored result is that of the last evaluation of the same component that returned. *)
Theorem C23_2d_stored_is_latest :
  forall (O : NumOps) (F : FieldOps O) (m0 : mesh O (quad_kind O)) (data : list (ft F)) zero p0 h m p,
  field_on m0 data zero p0 -> field_history (m0, p0) h (m, p) ->
  forall q, field_stored p q = match latest h q with Some a => Ok a | None => field_stored p0 q end.
Proof. exact quad_stored_latest. Qed.
Print Assumptions C23_2d_stored_is_latest.

Theorem C23_3d_stored_is_latest :
  forall (O : NumOps) (F : FieldOps O) (m0 : mesh O (hex_kind O)) (data : list (ft F)) zero p0 h m p,
  field_on m0 data zero p0 -> field_history (m0, p0) h (m, p) ->
  forall q, field_stored p q = match latest h q with Some a => Ok a | None => field_stored p0 q end.
Proof. exact hex_stored_latest. Qed.
Print Assumptions C23_3d_stored_is_latest.

(** C23. Before any evaluation the stored value is uninitialised, and the stored derivatives are the default. *)
Theorem C23_initially :
  forall (O : NumOps) (K : kind O) (F : FieldOps O) name (m0 : mesh O K) (data : list (ft F)) zero p0,
  pf_new name m0 data zero = Ok p0 ->
  field_stored p0 QVal = UB UBUninit /\
  (forall i, 0 <= i < Z.of_nat (kdim K) -> field_stored p0 (QGrad i) = Ok (ft_dflt F)) /\
  (forall i j, 0 <= i < Z.of_nat (kdim K) -> 0 <= j < Z.of_nat (kdim K) -> field_stored p0 (QHess i j) = Ok (ft_dflt F)).
Proof. exact (fun O K F => @new_stored O K F). Qed.
Print Assumptions C23_initially.

(** C23. eval refreshes the value to what operator() returns, and nothing else. *)
Theorem C23_2d_eval :
  forall (O : NumOps) (F : FieldOps O) (m0 : mesh O (quad_kind O)) (data : list (ft F)) zero p0 h m p c,
  field_on m0 data zero p0 -> field_history (m0, p0) h (m, p) ->
  match view (me_bin m0) (kcoords (quad_kind O) c) with
  | Ok _ => exists m' p', pf_eval c (m, p) = RRet (m', p') tt /\ forall q,
      match q with
      | QVal => exists a, res_outcome (pf_call c (m, p)) = Ok a /\ pf_get p' = Ok a
      | _ => field_stored p' q = field_stored p q
      end
  | Throw e => exists m', pf_eval c (m, p) = RThrow (m', p) e
  | Exit => pf_eval c (m, p) = RExit
  | UB r => pf_eval c (m, p) = RUB r
  | NoFuel => pf_eval c (m, p) = RNoFuel
  end.
Proof. exact quad_eval_refreshes. Qed.
Print Assumptions C23_2d_eval.

Theorem C23_3d_eval :
  forall (O : NumOps) (F : FieldOps O) (m0 : mesh O (hex_kind O)) (data : list (ft F)) zero p0 h m p c,
  field_on m0 data zero p0 -> field_history (m0, p0) h (m, p) ->
  match view (me_bin m0) (kcoords (hex_kind O) c) with
  | Ok _ => exists m' p', pf_eval c (m, p) = RRet (m', p') tt /\ forall q,
      match q with
      | QVal => exists a, res_outcome (pf_call c (m, p)) = Ok a /\ pf_get p' = Ok a
      | _ => field_stored p' q = field_stored p q
      end
  | Throw e => exists m', pf_eval c (m, p) = RThrow (m', p) e
  | Exit => pf_eval c (m, p) = RExit
  | UB r => pf_eval c (m, p) = RUB r
  | NoFuel => pf_eval c (m, p) = RNoFuel
  end.
Proof. exact hex_eval_refreshes. Qed.
Print Assumptions C23_3d_eval.

(** C23. eval_grad and eval_hess refresh every component to what the single-component call returns, and nothing else; when the
    search grid rejects the point they throw and change no stored result. *)
Theorem C23_2d_eval_grad :
  forall (O : NumOps) (F : FieldOps O) (m0 : mesh O (quad_kind O)) (data : list (ft F)) zero p0 h m p c,
  field_on m0 data zero p0 -> field_history (m0, p0) h (m, p) ->
  match view (me_bin m0) (kcoords (quad_kind O) c) with
  | Ok _ => exists m' p', pf_eval_grad c (m, p) = RRet (m', p') tt /\ forall q,
      match q with
      | QGrad i => 0 <= i < 2 -> exists a, res_outcome (pf_call_grad c i (m, p)) = Ok a /\ pf_get_grad p' i = Ok a
      | _ => field_stored p' q = field_stored p q
      end
  | Throw e => exists m', pf_eval_grad c (m, p) = RThrow (m', p) e
  | Exit => pf_eval_grad c (m, p) = RExit
  | UB r => pf_eval_grad c (m, p) = RUB r
  | NoFuel => pf_eval_grad c (m, p) = RNoFuel
  end.
Proof. exact quad_eval_grad_refreshes. Qed.
Print Assumptions C23_2d_eval_grad.

Theorem C23_3d_eval_grad :
  forall (O : NumOps) (F : FieldOps O) (m0 : mesh O (hex_kind O)) (data : list (ft F)) zero p0 h m p c,
  field_on m0 data zero p0 -> field_history (m0, p0) h (m, p) ->
  match view (me_bin m0) (kcoords (hex_kind O) c) with
  | Ok _ => exists m' p', pf_eval_grad c (m, p) = RRet (m', p') tt /\ forall q,
      match q with
      | QGrad i => 0 <= i < 3 -> exists a, res_outcome (pf_call_grad c i (m, p)) = Ok a /\ pf_get_grad p' i = Ok a
      | _ => field_stored p' q = field_stored p q
      end
  | Throw e => exists m', pf_eval_grad c (m, p) = RThrow (m', p) e
  | Exit => pf_eval_grad c (m, p) = RExit
  | UB r => pf_eval_grad c (m, p) = RUB r
  | NoFuel => pf_eval_grad c (m, p) = RNoFuel
  end.
Proof. exact hex_eval_grad_refreshes. Qed.
Print Assumptions C23_3d_eval_grad.

Theorem C23_2d_eval_hess :
  forall (O : NumOps) (F : FieldOps O) (m0 : mesh O (quad_kind O)) (data : list (ft F)) zero p0 h m p c,
  field_on m0 data zero p0 -> field_history (m0, p0) h (m, p) ->
  match view (me_bin m0) (kcoords (quad_kind O) c) with
  | Ok _ => exists m' p', pf_eval_hess c (m, p) = RRet (m', p') tt /\ forall q,
      match q with
      | QHess i j => 0 <= i < 2 -> 0 <= j < 2 ->
          exists a, res_outcome (pf_call_hess c i j (m, p)) = Ok a /\ pf_get_hess p' i j = Ok a
      | _ => field_stored p' q = field_stored p q
      end
  | Throw e => exists m', pf_eval_hess c (m, p) = RThrow (m', p) e
  | Exit => pf_eval_hess c (m, p) = RExit
  | UB r => pf_eval_hess c (m, p) = RUB r
  | NoFuel => pf_eval_hess c (m, p) = RNoFuel
  end.
Proof. exact quad_eval_hess_refreshes. Qed.
Print Assumptions C23_2d_eval_hess.

Theorem C23_3d_eval_hess :
  forall (O : NumOps) (F : FieldOps O) (m0 : mesh O (hex_kind O)) (data : list (ft F)) zero p0 h m p c,
  field_on m0 data zero p0 -> field_history (m0, p0) h (m, p) ->
  match view (me_bin m0) (kcoords (hex_kind O) c) with
  | Ok _ => exists m' p', pf_eval_hess c (m, p) = RRet (m', p') tt /\ forall q,
      match q with
      | QHess i j => 0 <= i < 3 -> 0 <= j < 3 ->
          exists a, res_outcome (pf_call_hess c i j (m, p)) = Ok a /\ pf_get_hess p' i j = Ok a
      | _ => field_stored p' q = field_stored p q
      end
  | Throw e => exists m', pf_eval_hess c (m, p) = RThrow (m', p) e
  | Exit => pf_eval_hess c (m, p) = RExit
  | UB r => pf_eval_hess c (m, p) = RUB r
  | NoFuel => pf_eval_hess c (m, p) = RNoFuel
  end.
Proof. exact hex_eval_hess_refreshes. Qed.
Print Assumptions C23_3d_eval_hess.

(** C23. A single-component call that throws changes no stored result. *)
Theorem C23_2d_throw_changes_nothing :
  forall (O : NumOps) (F : FieldOps O) (m0 : mesh O (quad_kind O)) (data : list (ft F)) zero p0 h m p q c m' p' e,
  field_on m0 data zero p0 -> field_history (m0, p0) h (m, p) -> on_axes 2 q ->
  field_eval q c (m, p) = RThrow (m', p') e -> forall q', field_stored p' q' = field_stored p q'.
Proof. exact quad_throw_keeps. Qed.
Print Assumptions C23_2d_throw_changes_nothing.

Theorem C23_3d_throw_changes_nothing :
  forall (O : NumOps) (F : FieldOps O) (m0 : mesh O (hex_kind O)) (data : list (ft F)) zero p0 h m p q c m' p' e,
  field_on m0 data zero p0 -> field_history (m0, p0) h (m, p) -> on_axes 3 q ->
  field_eval q c (m, p) = RThrow (m', p') e -> forall q', field_stored p' q' = field_stored p q'.
Proof. exact hex_throw_keeps. Qed.
Print Assumptions C23_3d_throw_changes_nothing.

(** A field of doubles after a call that returned and a call that threw: the first result is still stored. *)
Example C23_case : exists (m : mesh FOps (quad_kind FOps)) p0 h m' p' a,
  field_on (F := scalar_field FOps) m f_data (nofZ FOps 0) p0 /\ field_history (m, p0) h (m', p') /\
  List.length h = 2%nat /\ latest h QVal = Some a /\ field_stored p' QVal = Ok a.
Proof. exact f_history. Qed.

(** In 3D: C21_case_3d. *)

(** C24. In any arithmetic a call on a field does what looking up the point in the search grid does: when that returns the call
    returns, when it throws the call throws; no scratch buffer, nodal datum or derivative component is missed. *)
Theorem C24_2d_only_the_grid_can_fail :
  forall (O : NumOps) (F : FieldOps O) (m0 : mesh O (quad_kind O)) (data : list (ft F)) zero p0 h m p q c,
  field_on m0 data zero p0 -> field_history (m0, p0) h (m, p) -> on_axes 2 q ->
  match view (me_bin m0) (kcoords (quad_kind O) c) with
  | Ok _ => exists s a, field_eval q c (m, p) = RRet s a
  | Throw e => exists s, field_eval q c (m, p) = RThrow s e
  | Exit => field_eval q c (m, p) = RExit
  | UB r => field_eval q c (m, p) = RUB r
  | NoFuel => field_eval q c (m, p) = RNoFuel
  end.
Proof. exact quad_field_safe. Qed.
Print Assumptions C24_2d_only_the_grid_can_fail.

Theorem C24_3d_only_the_grid_can_fail :
  forall (O : NumOps) (F : FieldOps O) (m0 : mesh O (hex_kind O)) (data : list (ft F)) zero p0 h m p q c,
  field_on m0 data zero p0 -> field_history (m0, p0) h (m, p) -> on_axes 3 q ->
  match view (me_bin m0) (kcoords (hex_kind O) c) with
  | Ok _ => exists s a, field_eval q c (m, p) = RRet s a
  | Throw e => exists s, field_eval q c (m, p) = RThrow s e
  | Exit => field_eval q c (m, p) = RExit
  | UB r => field_eval q c (m, p) = RUB r
  | NoFuel => field_eval q c (m, p) = RNoFuel
  end.
Proof. exact hex_field_safe. Qed.
Print Assumptions C24_3d_only_the_grid_can_fail.

(** C24. With real coordinates, off the upper limits of the search grid, every call returns or throws domain_error. *)
Theorem C24_2d_safe :
  forall pts cells (m : mesh ROps QK) (data : list R) name (p0 : pfield scalar) r,
  rect_mesh pts cells -> mesh_of (K := QK) pts cells m ->
  (List.length pts <= List.length data)%nat -> pf_new (F := scalar) name m data 0%R = Ok p0 ->
  Forall2 (fun z x => x <> z) (bin_max (me_bin m)) [fst r; snd r] ->
  forall h m' p' q, field_history (m, p0) h (m', p') -> on_axes 2 q ->
    (exists s a, field_eval (K := QK) q r (m', p') = RRet s a) \/
    (exists s, field_eval (K := QK) q r (m', p') = RThrow s DomainError).
Proof. exact rect_field_safe. Qed.
Print Assumptions C24_2d_safe.

Theorem C24_3d_safe :
  forall pts cells (m : mesh ROps XK) (data : list R) name (p0 : pfield scalar) r,
  box_mesh pts cells -> mesh_of (K := XK) pts cells m ->
  (List.length pts <= List.length data)%nat -> pf_new (F := scalar) name m data 0%R = Ok p0 ->
  Forall2 (fun z x => x <> z) (bin_max (me_bin m)) [cx r; cy r; cz r] ->
  forall h m' p' q, field_history (m, p0) h (m', p') -> on_axes 3 q ->
    (exists s a, field_eval (K := XK) q r (m', p') = RRet s a) \/
    (exists s, field_eval (K := XK) q r (m', p') = RThrow s DomainError).
Proof. exact box_field_safe. Qed.
Print Assumptions C24_3d_safe.

(** C24. On an upper limit the claim is false: on the unit square the call at (3/2, 1/2) is undefined. *)
Theorem C24_on_the_limit_refuted :
  exists (pts : list (f64 * f64)) cells (m : mesh FOps (quad_kind FOps)) (data : list f64) p0 (c : f64 * f64) r,
    mesh_of (K := quad_kind FOps) pts cells m /\ List.length data = List.length pts /\
    pf_new (F := scalar_field FOps) "f" m data (nofZ FOps 0) = Ok p0 /\
    field_eval (K := quad_kind FOps) QVal c (m, p0) = RUB r.
Proof. exact limit_refuted. Qed.
Print Assumptions C24_on_the_limit_refuted.

(** The mesh of C18; the point is off the limits of its grid. *)
Example C24_case : exists (m : mesh ROps QK) (p0 : pfield scalar), mesh_of (K := QK) ex_pts ex_cells m /\
  pf_new (F := scalar) "f" m ex_data 0%R = Ok p0 /\ field_on (F := scalar) m ex_data 0%R p0 /\
  Forall2 (fun z x => x <> z) (bin_max (me_bin m)) [5/2; 1/4]%R.
Proof. exact ex_off_limit. Qed.

(** Two boxes on top of each other. *)
Example C24_case_3d : exists (m : mesh ROps XK) (p0 : pfield scalar), mesh_of (K := XK) st_pts st_cells m /\
  pf_new (F := scalar) "f" m st_data 0%R = Ok p0 /\ field_on (F := scalar) m st_data 0%R p0 /\
  Forall2 (fun z x => x <> z) (bin_max (me_bin m)) [1/2; 1/2; 5/4]%R.
Proof. exact st_off_limit. Qed.

(** C25. The mesh object has the nodes of the file; min and max report the extreme coordinates; every point between them, so
    every node and every point of every element, is strictly inside the search grid and found in it without throwing. *)
Theorem C25_2d_grid_covers_mesh :
  forall pts cells (m : mesh ROps QK), rect_mesh pts cells -> mesh_of (K := QK) pts cells m ->
  me_node m = pts /\
  (forall i, 0 <= i < 2 -> exists a z, mesh_min m i = Ok a /\ least a (map (fun p => nth2 p i) pts) /\
     mesh_max m i = Ok z /\ greatest z (map (fun p => nth2 p i) pts)) /\
  (forall r, (forall i a z, 0 <= i < 2 -> mesh_min m i = Ok a -> mesh_max m i = Ok z -> (a <= nth2 r i <= z)%R) ->
     (exists l, view (me_bin m) (kcoords QK r) = Ok l) /\
     Forall3 (fun a x z => (a < x < z)%R) (bin_min (me_bin m)) (kcoords QK r) (bin_max (me_bin m))) /\
  (forall r, in_mesh2 pts cells r -> forall i a z, 0 <= i < 2 -> mesh_min m i = Ok a -> mesh_max m i = Ok z -> (a <= nth2 r i <= z)%R).
Proof. exact rect_covers. Qed.
Print Assumptions C25_2d_grid_covers_mesh.

Theorem C25_3d_grid_covers_mesh :
  forall pts cells (m : mesh ROps XK), box_mesh pts cells -> mesh_of (K := XK) pts cells m ->
  me_node m = pts /\
  (forall i, 0 <= i < 3 -> exists a z, mesh_min m i = Ok a /\ least a (map (fun p => nth3 p i) pts) /\
     mesh_max m i = Ok z /\ greatest z (map (fun p => nth3 p i) pts)) /\
  (forall r, (forall i a z, 0 <= i < 3 -> mesh_min m i = Ok a -> mesh_max m i = Ok z -> (a <= nth3 r i <= z)%R) ->
     (exists l, view (me_bin m) (kcoords XK r) = Ok l) /\
     Forall3 (fun a x z => (a < x < z)%R) (bin_min (me_bin m)) (kcoords XK r) (bin_max (me_bin m))) /\
  (forall r, in_mesh3 pts cells r -> forall i a z, 0 <= i < 3 -> mesh_min m i = Ok a -> mesh_max m i = Ok z -> (a <= nth3 r i <= z)%R).
Proof. exact box_covers. Qed.
Print Assumptions C25_3d_grid_covers_mesh.

Example C25_case : rect_mesh ex_pts ex_cells /\ in_mesh2 ex_pts ex_cells (5/2, 1/4)%R /\
  box_mesh st_pts st_cells /\ in_mesh3 st_pts st_cells st_r.
Proof. exact (conj ex_mesh (conj ex_point (conj st_mesh st_in_mesh))). Qed.
