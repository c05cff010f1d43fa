(** Specification vocabulary: what reading decimal numbers into doubles does to a mesh of boxes. *)
From Coq Require Import ZArith List Reals.
From Verif Require Import Model.Outcome Model.Num Model.NumInst Model.Hexahedron.
From Verif Require Import Spec.Shape Spec.Fields Spec.Rounding Spec.Rounding3 Spec.Decimal Spec.FileRounding.
Local Open Scope R_scope.

(** The point with its coordinates rounded. *)
Definition rounded_point3 (p : point3) : point3 := @mkC3 ROps (to_double (cx p)) (to_double (cy p)) (to_double (cz p)).
(** The edges of a box whose corners are rounded. *)
Definition rounded_edges3 (lo h : point3) : point3 :=
  @mkC3 ROps (to_double (cx lo + cx h) - to_double (cx lo)) (to_double (cy lo + cy h) - to_double (cy lo)) (to_double (cz lo + cz h) - to_double (cz lo)).
(** Different coordinates on an axis stay different when rounded. *)
Definition apart3 (pts : list point3) : Prop := apart (map cx pts) /\ apart (map cy pts) /\ apart (map cz pts).
(** By how much rounding moves the corners of a box, compared to its edges: for the three edges together. *)
Definition displacement3 (lo h : point3) : R :=
  (1 + displacement (cx lo) (cx h)) * (1 + displacement (cy lo) (cy h)) * (1 + displacement (cz lo) (cz h)) - 1.

(** Cell [cell] of the file, box at [lo] with edges [h], has the corner values [v] and is, when rounded, next to [r]. *)
Definition file_near3 (pts : list point3) (cells : list (list Z)) (data : list R) (r : point3) (cell : list Z) (lo h : point3) (v : Z -> R) : Prop :=
  In cell cells /\ cell_box pts cell lo h /\ near_box (rounded_point3 lo) (rounded_edges3 lo h) r /\ cell_data data cell corners3 v.
