(** Specification vocabulary: cells with their upper instead of their lower border. *)
From Coq Require Import ZArith List Reals.
From Verif Require Import Spec.Tensor Spec.Grid.
Local Open Scope Z_scope.

(** The point lies in the grid cell number [t], to which its upper borders belong. *)
Definition in_upper_cell (mn inc : list R) (t : list Z) (c : list R) : Prop :=
  Forall4 (fun a h k x => (a + h * IZR k < x <= a + h * IZR (k + 1))%R) mn inc t c.
(** No coordinate is on the lower limit. *)
Definition above_minimum (mn c : list R) : Prop := Forall2 (fun a x => (a < x)%R) mn c.
