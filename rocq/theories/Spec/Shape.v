(** Specification vocabulary for rectangles, boxes and partial derivatives (exact reals). *)
From Coq Require Import ZArith List Reals.
From Coquelicot Require Import Coquelicot.
From Verif Require Import Model.Num Model.NumInst Model.Quad Model.Hexahedron.
Import ListNotations.
Local Open Scope Z_scope.

Definition point2 : Type := c2 ROps.
Definition point3 : Type := c3 ROps.

(** Corners of the unit square, counter-clockwise from the origin (VTK_QUAD), and of the unit cube: the lower face, then
    the upper face, each counter-clockwise (VTK_HEXAHEDRON). *)
Definition unit2 (k : Z) : R * R :=
  (match k with 1 => 1 | 2 => 1 | _ => 0 end, match k with 2 => 1 | 3 => 1 | _ => 0 end)%R.
Definition unit3 (k : Z) : R * R * R :=
  (match k with 1 => 1 | 2 => 1 | 5 => 1 | 6 => 1 | _ => 0 end,
   match k with 2 => 1 | 3 => 1 | 6 => 1 | 7 => 1 | _ => 0 end,
   match k with 4 => 1 | 5 => 1 | 6 => 1 | 7 => 1 | _ => 0 end)%R.

(** Corner [k] of the rectangle (box) with first corner [lo] and edge vector [h]. *)
Definition corner2 (lo h : point2) (k : Z) : point2 :=
  (fst lo + fst (unit2 k) * fst h, snd lo + snd (unit2 k) * snd h)%R.
Definition corner3 (lo h : point3) (k : Z) : point3 :=
  @mkC3 ROps (cx lo + fst (fst (unit3 k)) * cx h)%R (cy lo + snd (fst (unit3 k)) * cy h)%R
             (cz lo + snd (unit3 k) * cz h)%R.

Definition corners2 : list Z := [0; 1; 2; 3].
Definition corners3 : list Z := [0; 1; 2; 3; 4; 5; 6; 7].

(** Edges of non-zero (positive) length. *)
Definition proper2 (h : point2) : Prop := fst h <> 0%R /\ snd h <> 0%R.
Definition proper3 (h : point3) : Prop := cx h <> 0%R /\ cy h <> 0%R /\ cz h <> 0%R.
Definition positive2 (h : point2) : Prop := (0 < fst h)%R /\ (0 < snd h)%R.
Definition positive3 (h : point3) : Prop := (0 < cx h)%R /\ (0 < cy h)%R /\ (0 < cz h)%R.

(** Points of the closed rectangle (box): lo + t h with 0 <= t <= 1 in each component. *)
Definition between1 (a h x : R) : Prop := exists t, (0 <= t <= 1)%R /\ x = (a + t * h)%R.
Definition in_rect (lo h r : point2) : Prop := between1 (fst lo) (fst h) (fst r) /\ between1 (snd lo) (snd h) (snd r).
Definition in_box (lo h r : point3) : Prop :=
  between1 (cx lo) (cx h) (cx r) /\ between1 (cy lo) (cy h) (cy r) /\ between1 (cz lo) (cz h) (cz r).

(** Coordinate [i] of a point, and the point with coordinate [i] replaced. *)
Definition nth2 (r : point2) (i : Z) : R := match i with 0 => fst r | _ => snd r end.
Definition upd2 (r : point2) (i : Z) (t : R) : point2 := match i with 0 => (t, snd r) | _ => (fst r, t) end.
Definition nth3 (r : point3) (i : Z) : R := match i with 0 => cx r | 1 => cy r | _ => cz r end.
Definition upd3 (r : point3) (i : Z) (t : R) : point3 :=
  match i with
  | 0 => @mkC3 ROps t (cy r) (cz r)
  | 1 => @mkC3 ROps (cx r) t (cz r)
  | _ => @mkC3 ROps (cx r) (cy r) t
  end.

(** [v] is the partial derivative of [f] with respect to coordinate [i] at [r]. *)
Definition partial2 (f : point2 -> R) (i : Z) (r : point2) (v : R) : Prop :=
  is_derive (fun t : R => f (upd2 r i t)) (nth2 r i) v.
Definition partial3 (f : point3 -> R) (i : Z) (r : point3) (v : R) : Prop :=
  is_derive (fun t : R => f (upd3 r i t)) (nth3 r i) v.

(** [v] is the second partial derivative, first by coordinate [i], then by [j]. *)
Definition second2 (f : point2 -> R) (i j : Z) (r : point2) (v : R) : Prop :=
  exists D, (forall p, partial2 f i p (D p)) /\ partial2 D j r v.
Definition second3 (f : point3 -> R) (i j : Z) (r : point3) (v : R) : Prop :=
  exists D, (forall p, partial3 f i p (D p)) /\ partial3 D j r v.

(** Sum over the corners. *)
Definition rsum {A : Type} (f : A -> R) (l : list A) : R := fold_right (fun k s => (f k + s)%R) 0%R l.
