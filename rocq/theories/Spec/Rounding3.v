(** Specification vocabulary for fields on meshes of boxes evaluated in binary64. *)
From Coq Require Import ZArith List Reals.
From Flocq Require Import Core.Raux Core.Zaux IEEE754.BinarySingleNaN.
From Verif Require Import Model.Outcome Model.Num Model.NumInst Model.Hexahedron Model.Mesh Model.PField.
From Verif Require Import Spec.Funcs Spec.Shape Spec.Fields Spec.Rounding.
Import ListNotations.
Local Open Scope R_scope.

(** The point of space three binary64 numbers stand for. *)
Definition point_value3 (p : c3 FOps) : point3 := @mkC3 ROps (value (cx p)) (value (cy p)) (value (cz p)).
Definition finite_point3 (p : c3 FOps) : Prop := finite (cx p) /\ finite (cy p) /\ finite (cz p).

(** The coordinates are resolved on all three axes. *)
Definition resolved3 (pts : list point3) : Prop := resolved (map cx pts) /\ resolved (map cy pts) /\ resolved (map cz pts).

(** In the closed box, or next to it by an amount that rounding cannot see. *)
Definition near_box (lo h r : point3) : Prop :=
  near1 (cx lo) (cx h) (cx r) /\ near1 (cy lo) (cy h) (cy r) /\ near1 (cz lo) (cz h) (cz r).

(** Away from both faces of the box that are crossed by axis [i]. *)
Definition clear_of3 (lo h : point3) (i : Z) (r : point3) : Prop :=
  nth3 lo i + 4 * unit_roundoff * nth3 h i <= nth3 r i <= nth3 lo i + nth3 h i - 4 * unit_roundoff * nth3 h i.

(** Cell [cell], box at [lo] with edges [h], is next to [r] and has corner values [v]. *)
Definition cell_near3 (pts : list (c3 FOps)) (cells : list (list Z)) (data : list f64) (r : c3 FOps) (cell : list Z) (lo h : point3) (v : Z -> R) : Prop :=
  In cell cells /\ cell_box (map point_value3 pts) cell lo h /\ near_box lo h (point_value3 r) /\ cell_data (map value data) cell corners3 v.

(** A field of finite numbers on a mesh of boxes whose coordinates are resolved. *)
Definition field64_3 (pts : list (c3 FOps)) (cells : list (list Z)) (data : list f64) (m : mesh FOps (hex_kind FOps)) (p0 : pfield (scalar_field FOps)) : Prop :=
  Forall finite_point3 pts /\ box_mesh (map point_value3 pts) cells /\ resolved3 (map point_value3 pts) /\
  mesh_of (K := hex_kind FOps) pts cells m /\ field_on (F := scalar_field FOps) m data (nofZ FOps 0) p0 /\ Forall finite data.

(** Whatever was evaluated before, evaluating [q] at [r] returns [a]. *)
Definition answers3 (m : mesh FOps (hex_kind FOps)) (p0 : pfield (scalar_field FOps)) (q : quantity) (r : c3 FOps) (a : f64) : Prop :=
  forall hist m' p', field_history (K := hex_kind FOps) (F := scalar_field FOps) (m, p0) hist (m', p') ->
    exists s, field_eval (K := hex_kind FOps) (F := scalar_field FOps) q r (m', p') = RRet s a.
