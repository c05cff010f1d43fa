(** Specification vocabulary: files of decimal numbers, and what reading them into doubles does to a mesh. *)
From Coq Require Import ZArith List Bool Ascii Reals.
From Flocq Require Import Core.
From Verif Require Import Model.Outcome Model.Num Model.NumInst Model.Stream.
From Verif Require Import Spec.Vtk Spec.Shape Spec.Fields Spec.Rounding Spec.Decimal.
Import ListNotations.
Local Open Scope R_scope.

(** [w] is a decimal numeral for [x], which is not gigantic. *)
Definition small_numeral (w : text) (x : R) : Prop :=
  (exists neg y, decimal_text w neg y /\ x = if neg then - y else y) /\ Rabs x <= bpow radix2 1000.

(** The point with its coordinates rounded. *)
Definition rounded_point (p : point2) : point2 := (to_double (fst p), to_double (snd p)).

(** Different numbers of the list stay different when rounded. *)
Definition apart (l : list R) : Prop := forall x y, In x l -> In y l -> x < y -> to_double x < to_double y.

(** By how much rounding moves the ends of an edge from [a] to [a] + [h], compared to the edge. *)
Definition displacement (a h : R) : R := (unit_roundoff * (Rabs a + Rabs (a + h)) + 2 * tiny) / h.
(** The same for a rectangle: for both edges together. *)
Definition displacement2 (lo h : point2) : R :=
  (1 + displacement (fst lo) (fst h)) * (1 + displacement (snd lo) (snd h)) - 1.

(** The edges of a rectangle whose corners are rounded. *)
Definition rounded_edges (lo h : point2) : point2 := (to_double (fst lo + fst h) - to_double (fst lo), to_double (snd lo + snd h) - to_double (snd lo)).
(** Cell [cell] of the file, rectangle at [lo] with edges [h], has the corner values [v] and is, when rounded, next to [r]. *)
Definition file_near (pts : list point2) (cells : list (list Z)) (data : list R) (r : point2) (cell : list Z) (lo h : point2) (v : Z -> R) : Prop :=
  In cell cells /\ cell_rect pts cell lo h /\ near_rect (rounded_point lo) (rounded_edges lo h) r /\ cell_data data cell corners2 v.
