(** Properties C13-C17: the element shape functions. *)
From Coq Require Import ZArith List Bool Lia Reals Lra.
From Coquelicot Require Import Coquelicot.
From Verif Require Import Model.Outcome Model.Num Model.NumInst Model.PSimple Model.FuncObj Model.Interpolator
  Model.Quad Model.Hexahedron.
From Verif Require Import Spec.Funcs Spec.Shape.
From Verif Require Import Proofs.ElemObjP Proofs.ShapeP Proofs.ShapeExamples Proofs.ElemEvalP.
Import ListNotations.
Local Open Scope Z_scope.

(** C13. The corner functions of an element sum to 1 at every point (also outside the element). *)
Theorem C13_quad_partition_of_unity :
  forall (nd : Z -> Z) el (lo h r : point2), proper2 h ->
  rsum (fun k => it_val (quad_values ROps (nd k) el (corner2 lo h k) h k) r) corners2 = 1%R.
Proof. exact quad_partition. Qed.
Print Assumptions C13_quad_partition_of_unity.

Theorem C13_hexahedron_partition_of_unity :
  forall (nd : Z -> Z) el (lo h r : point3), proper3 h ->
  rsum (fun k => it_val (hex_values ROps (nd k) el (corner3 lo h k) h k) r) corners3 = 1%R.
Proof. exact hex_partition. Qed.
Print Assumptions C13_hexahedron_partition_of_unity.

(** C13. Each corner function is 1 at its own node and 0 at the other nodes. *)
Theorem C13_quad_nodal_values :
  forall nd el (lo h : point2) k k', proper2 h -> In k corners2 -> In k' corners2 ->
  it_val (quad_values ROps nd el (corner2 lo h k) h k) (corner2 lo h k') = if k =? k' then 1%R else 0%R.
Proof. exact quad_nodal. Qed.
Print Assumptions C13_quad_nodal_values.

Theorem C13_hexahedron_nodal_values :
  forall nd el (lo h : point3) k k', proper3 h -> In k corners3 -> In k' corners3 ->
  it_val (hex_values ROps nd el (corner3 lo h k) h k) (corner3 lo h k') = if k =? k' then 1%R else 0%R.
Proof. exact hex_nodal. Qed.
Print Assumptions C13_hexahedron_nodal_values.

(** C13. Inside the element each corner function lies between 0 and 1. *)
Theorem C13_quad_between_0_and_1 :
  forall nd el (lo h r : point2) k, proper2 h -> In k corners2 -> in_rect lo h r ->
  (0 <= it_val (quad_values ROps nd el (corner2 lo h k) h k) r <= 1)%R.
Proof. exact quad_bounds. Qed.
Print Assumptions C13_quad_between_0_and_1.

Theorem C13_hexahedron_between_0_and_1 :
  forall nd el (lo h r : point3) k, proper3 h -> In k corners3 -> in_box lo h r ->
  (0 <= it_val (hex_values ROps nd el (corner3 lo h k) h k) r <= 1)%R.
Proof. exact hex_bounds. Qed.
Print Assumptions C13_hexahedron_between_0_and_1.

(** A 2 x 1/2 rectangle and an interior point with weights 3/8, 1/8, 1/8, 3/8; a box and an interior point. *)
Example C13_case : proper2 ex_h /\ in_rect ex_lo ex_h ex_r /\
  map (fun k => it_val (quad_values ROps 0 0 (corner2 ex_lo ex_h k) ex_h k) ex_r) corners2 = [3/8; 1/8; 1/8; 3/8]%R /\
  proper3 ex_h3 /\ in_box ex_lo3 ex_h3 ex_r3.
Proof. exact (conj ex_proper2 (conj ex_in_rect (conj ex_weights (conj ex_proper3 ex_in_box)))). Qed.

(** C14. The gradient and Hessian of a rectangle's corner function are the true partial derivatives of its value. *)
Theorem C14_quad_gradient :
  forall nd el (n h : point2) k r i, proper2 h -> 0 <= i < 2 ->
  exists g, it_grad (quad_values ROps nd el n h k) r i = Ok g /\
    partial2 (it_val (quad_values ROps nd el n h k)) i r g.
Proof. exact quad_grad_ok. Qed.
Print Assumptions C14_quad_gradient.

Theorem C14_quad_hessian :
  forall nd el (n h : point2) k r i j, proper2 h -> 0 <= i < 2 -> 0 <= j < 2 ->
  exists w, it_hess (quad_values ROps nd el n h k) r i j = Ok w /\
    second2 (it_val (quad_values ROps nd el n h k)) i j r w.
Proof. exact quad_hess_ok. Qed.
Print Assumptions C14_quad_hessian.

Theorem C14_quad_hessian_symmetric :
  forall nd el (n h : point2) k r i j, proper2 h -> 0 <= i < 2 -> 0 <= j < 2 ->
  it_hess (quad_values ROps nd el n h k) r i j = it_hess (quad_values ROps nd el n h k) r j i.
Proof. exact quad_hess_symmetric. Qed.
Print Assumptions C14_quad_hessian_symmetric.

(** C14 in 3D: the gradient is right. *)
Theorem C14_hexahedron_gradient :
  forall nd el (n h : point3) k r i, proper3 h -> 0 <= i < 3 ->
  exists g, it_grad (hex_values ROps nd el n h k) r i = Ok g /\
    partial3 (it_val (hex_values ROps nd el n h k)) i r g.
Proof. exact hex_grad_ok. Qed.
Print Assumptions C14_hexahedron_gradient.

(** C14 in 3D: the Hessian is symmetric; entry (i,j) is the true second derivative exactly on the diagonal and at points
    whose remaining coordinate equals the node's (the code leaves out the factor of that axis). *)
Theorem C14_hexahedron_hessian_right_iff :
  forall nd el (n h : point3) k r i j, proper3 h -> In k corners3 -> 0 <= i < 3 -> 0 <= j < 3 ->
  exists w, it_hess (hex_values ROps nd el n h k) r i j = Ok w /\
    (second3 (it_val (hex_values ROps nd el n h k)) i j r w <->
     i = j \/ nth3 r (3 - i - j) = nth3 n (3 - i - j)).
Proof. exact hex_hess_right_iff. Qed.
Print Assumptions C14_hexahedron_hessian_right_iff.

Theorem C14_hexahedron_hessian_symmetric :
  forall nd el (n h : point3) k r i j, proper3 h -> 0 <= i < 3 -> 0 <= j < 3 ->
  it_hess (hex_values ROps nd el n h k) r i j = it_hess (hex_values ROps nd el n h k) r j i.
Proof. exact hex_hess_symmetric. Qed.
Print Assumptions C14_hexahedron_hessian_symmetric.

(** C14 in 3D is false for the Hessian: inside a box, entry (0,1) is not the second derivative. *)
Theorem C14_hexahedron_hessian_refuted :
  exists nd el (n h r : point3) k i j w, positive3 h /\ In k corners3 /\ 0 <= i < 3 /\ 0 <= j < 3 /\ in_box n h r /\
    it_hess (hex_values ROps nd el n h k) r i j = Ok w /\
    ~ second3 (it_val (hex_values ROps nd el n h k)) i j r w.
Proof. exact hex_hess_refuted. Qed.
Print Assumptions C14_hexahedron_hessian_refuted.

Example C14_case : proper2 ex_h /\ proper3 ex_h3 /\ In 5 corners3.
Proof. exact (conj ex_proper2 (conj ex_proper3 (proj2 (in_corners3 5) (conj (Zle_0_pos 5) eq_refl)))). Qed.

(** C15. Some corner function of a rectangle reports is_in_range exactly for the points of the closed rectangle. *)
Theorem C15_quad_range_is_the_rectangle :
  forall (nd : Z -> Z) el (lo h r : point2), positive2 h ->
  (exists k, In k corners2 /\ it_range (quad_values ROps (nd k) el (corner2 lo h k) h k) r = true) <->
  in_rect lo h r.
Proof. exact quad_range_iff. Qed.
Print Assumptions C15_quad_range_is_the_rectangle.

(** C15. min and max of every corner function are the opposite corners of the rectangle. *)
Theorem C15_quad_min_max :
  forall nd el (lo h : point2) k, In k corners2 ->
  it_min (quad_values ROps nd el (corner2 lo h k) h k) = lo /\
  it_max (quad_values ROps nd el (corner2 lo h k) h k) = (fst lo + fst h, snd lo + snd h)%R.
Proof. exact quad_box. Qed.
Print Assumptions C15_quad_min_max.

Example C15_case : positive2 ex_h /\ in_rect ex_lo ex_h ex_r.
Proof. exact (conj ex_positive2 ex_in_rect). Qed.

(** C16. For a box the points reported by some corner function are exactly those of the infinite column over it. *)
Theorem C16_hexahedron_range_is_the_column :
  forall (nd : Z -> Z) el (lo h r : point3), positive3 h ->
  (exists k, In k corners3 /\ it_range (hex_values ROps (nd k) el (corner3 lo h k) h k) r = true) <->
  between1 (cx lo) (cx h) (cx r) /\ between1 (cy lo) (cy h) (cy r).
Proof. exact hex_range_iff. Qed.
Print Assumptions C16_hexahedron_range_is_the_column.

(** C16. So a point outside the box is reported as inside. *)
Theorem C16_hexahedron_range_refuted :
  exists (lo h r : point3) k, positive3 h /\ In k corners3 /\
    it_range (hex_values ROps 0 0 (corner3 lo h k) h k) r = true /\ ~ in_box lo h r.
Proof. exact hex_range_refuted. Qed.
Print Assumptions C16_hexahedron_range_refuted.

(** C16. min and max of every corner function are the opposite corners of the box. *)
Theorem C16_hexahedron_min_max :
  forall nd el (lo h : point3) k, In k corners3 ->
  it_min (hex_values ROps nd el (corner3 lo h k) h k) = lo /\
  it_max (hex_values ROps nd el (corner3 lo h k) h k) =
    @mkC3 ROps (cx lo + cx h)%R (cy lo + cy h)%R (cz lo + cz h)%R.
Proof. exact hex_box. Qed.
Print Assumptions C16_hexahedron_min_max.

Example C16_case : positive3 ex_h3 /\ in_box ex_lo3 ex_h3 ex_r3 /\ ~ in_box ex_lo3 ex_h3 ex_above3.
Proof. exact (conj ex_positive3 (conj ex_in_box ex_not_in_box)). Qed.

(** C17. eval of an element function stores the value at the point and nothing else. *)
Theorem C17_quad_eval_refreshes_value :
  forall O (o : fobj (var2 O) (num O)) v, like o (quad_new O) ->
  exists o', fo_eval v o = RRet o' tt /\ like o' (quad_new O) /\ refreshed o o' v (fun q => q = QVal).
Proof. exact quad_eval_ok. Qed.
Print Assumptions C17_quad_eval_refreshes_value.
Theorem C17_hexahedron_eval_refreshes_value :
  forall O (o : fobj (var3 O) (num O)) v, like o (hex_new O) ->
  exists o', fo_eval v o = RRet o' tt /\ like o' (hex_new O) /\ refreshed o o' v (fun q => q = QVal).
Proof. exact hex_eval_ok. Qed.
Print Assumptions C17_hexahedron_eval_refreshes_value.

(** C17. After eval_grad (eval_hess) of the 2D element function every gradient (Hessian) getter returns what evaluating
    that component gives; all other stored results stay as they were. Any arithmetic, any state of the object. *)
Theorem C17_quad_eval_grad_refreshes_all :
  forall O (o : fobj (var2 O) (num O)) v, like o (quad_new O) ->
  exists o', quad_eval_grad O v o = RRet o' tt /\ like o' (quad_new O) /\
    refreshed o o' v (fun q => exists i, 0 <= i < 2 /\ q = QGrad i).
Proof. exact quad_eval_grad_ok. Qed.
Print Assumptions C17_quad_eval_grad_refreshes_all.

Theorem C17_quad_eval_hess_refreshes_all :
  forall O (o : fobj (var2 O) (num O)) v, like o (quad_new O) ->
  exists o', quad_eval_hess O v o = RRet o' tt /\ like o' (quad_new O) /\
    refreshed o o' v (fun q => exists i j, 0 <= i < 2 /\ 0 <= j < 2 /\ q = QHess i j).
Proof. exact quad_eval_hess_ok. Qed.
Print Assumptions C17_quad_eval_hess_refreshes_all.

(** C17 in 3D: exactly the components with indices 0 and 1 are refreshed. *)
Theorem C17_hexahedron_eval_grad_refreshes_two :
  forall O (o : fobj (var3 O) (num O)) v, like o (hex_new O) ->
  exists o', hex_eval_grad O v o = RRet o' tt /\ like o' (hex_new O) /\
    refreshed o o' v (fun q => exists i, 0 <= i < 2 /\ q = QGrad i).
Proof. exact hex_eval_grad_ok. Qed.
Print Assumptions C17_hexahedron_eval_grad_refreshes_two.

Theorem C17_hexahedron_eval_hess_refreshes_four :
  forall O (o : fobj (var3 O) (num O)) v, like o (hex_new O) ->
  exists o', hex_eval_hess O v o = RRet o' tt /\ like o' (hex_new O) /\
    refreshed o o' v (fun q => exists i j, 0 <= i < 2 /\ 0 <= j < 2 /\ q = QHess i j).
Proof. exact hex_eval_hess_ok. Qed.
Print Assumptions C17_hexahedron_eval_hess_refreshes_four.

(** C17 in 3D is false: after grad(v1, 2); eval_grad(v) the third component stored is not the one at v (binary64). *)
Theorem C17_hexahedron_eval_grad_refuted :
  exists (o o' : fobj (var3 FOps) f64) v a b,
  like o (hex_new FOps) /\ hex_eval_grad FOps v o = RRet o' tt /\
  stored o' (QGrad 2) = Ok a /\ res_outcome (evaluate (QGrad 2) v o) = Ok b /\ nltb FOps a b = true.
Proof. exact hex_eval_grad_refuted. Qed.
Print Assumptions C17_hexahedron_eval_grad_refuted.

(** ... and after eval_hess on a new object, hess(0,2) reads an indeterminate value. *)
Theorem C17_hexahedron_eval_hess_refuted :
  exists (o' : fobj (var3 FOps) f64) v a,
  hex_eval_hess FOps v (hex_new FOps) = RRet o' tt /\
  stored o' (QHess 0 2) = UB UBUninit /\ res_outcome (evaluate (QHess 0 2) v (hex_new FOps)) = Ok a.
Proof. exact hex_eval_hess_refuted. Qed.
Print Assumptions C17_hexahedron_eval_hess_refuted.

(** New objects meet the hypothesis; the stale component in numbers. *)
Example C17_case : like (quad_new ROps) (quad_new ROps) /\ like (hex_new FOps) (hex_new FOps) /\
  match ex_stale_grad with Ok (a, b) => Bool.eqb (nleb FOps b a) false | _ => false end = true.
Proof.
  exact (conj (ex_intro _ (quad_family ROps) (conj (quad_built ROps) (quad_built ROps)))
        (conj (ex_intro _ (hex_family FOps) (conj (hex_built FOps) (hex_built FOps))) stale_grad)).
Qed.
