(** Specification vocabulary for fields evaluated in binary64. *)
From Coq Require Import ZArith List Reals.
From Flocq Require Import Core.Raux Core.Zaux IEEE754.BinarySingleNaN.
From Verif Require Import Model.Outcome Model.Num Model.NumInst Model.Quad Model.Mesh Model.PField.
From Verif Require Import Spec.Funcs Spec.Shape Spec.Fields.
Import ListNotations.
Local Open Scope R_scope.

(** The real number a binary64 number stands for. *)
Definition value (x : f64) : R := B2R x.
Definition finite (x : f64) : Prop := is_finite x = true.

(** The same for points. *)
Definition point_value (p : c2 FOps) : point2 := (value (fst p), value (snd p)).
Definition finite_point (p : c2 FOps) : Prop := finite (fst p) /\ finite (snd p).

(** The coordinates on an axis are resolved by binary64: their average distance is not tiny, neither absolutely nor beside the
    coordinates themselves. *)
Definition resolved (l : list R) : Prop :=
  exists a z, least a l /\ greatest z l /\
    let g := (z - a) / IZR (distinct l) in
    bpow radix2 (-900) <= g /\ forall x, In x l -> Rabs x <= bpow radix2 46 * g /\ Rabs x <= bpow radix2 900.

(** Half the distance from 1 to the next number, and half the smallest positive number. *)
Definition unit_roundoff : R := bpow radix2 (-53).
Definition tiny : R := bpow radix2 (-1075).

(** In the closed rectangle, or next to it by an amount that rounding cannot see. *)
Definition near1 (a h x : R) : Prop := a - 2 * tiny * h <= x <= a + h + 2 * tiny * h.
Definition near_rect (lo h r : point2) : Prop := near1 (fst lo) (fst h) (fst r) /\ near1 (snd lo) (snd h) (snd r).

(** Away from both edges of the rectangle that are crossed by axis [i]. *)
Definition clear_of (lo h : point2) (i : Z) (r : point2) : Prop :=
  nth2 lo i + 4 * unit_roundoff * nth2 h i <= nth2 r i <= nth2 lo i + nth2 h i - 4 * unit_roundoff * nth2 h i.

(** Cell [cell], rectangle at [lo] with edges [h], is next to [r] and has corner values [v]. *)
Definition cell_near (pts : list (c2 FOps)) (cells : list (list Z)) (data : list f64) (r : c2 FOps) (cell : list Z) (lo h : point2) (v : Z -> R) : Prop :=
  In cell cells /\ cell_rect (map point_value pts) cell lo h /\ near_rect lo h (point_value r) /\ cell_data (map value data) cell corners2 v.

(** A field of finite numbers on a mesh of rectangles whose coordinates are resolved. *)
Definition field64 (pts : list (c2 FOps)) (cells : list (list Z)) (data : list f64) (m : mesh FOps (quad_kind FOps)) (p0 : pfield (scalar_field FOps)) : Prop :=
  Forall finite_point pts /\ rect_mesh (map point_value pts) cells /\
  resolved (map fst (map point_value pts)) /\ resolved (map snd (map point_value pts)) /\
  mesh_of (K := quad_kind FOps) pts cells m /\ field_on (F := scalar_field FOps) m data (nofZ FOps 0) p0 /\ Forall finite data.

(** Whatever was evaluated before, evaluating [q] at [r] returns [a]. *)
Definition answers (m : mesh FOps (quad_kind FOps)) (p0 : pfield (scalar_field FOps)) (q : quantity) (r : c2 FOps) (a : f64) : Prop :=
  forall hist m' p', field_history (K := quad_kind FOps) (F := scalar_field FOps) (m, p0) hist (m', p') -> exists s, field_eval (K := quad_kind FOps) (F := scalar_field FOps) q r (m', p') = RRet s a.
