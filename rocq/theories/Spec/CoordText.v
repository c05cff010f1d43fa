(** Specification for printed coordinates. *)
From Coq Require Import List Ascii.
From Verif Require Import Model.Outcome Model.NumInst Model.Stream Model.Decimal.
Import ListNotations.

(** Words with one blank between two of them, and nothing before or after. *)
Inductive joined : list text -> text -> Prop :=
| JoinNone : joined [] []
| JoinOne : forall w, joined [w] w
| JoinMore : forall w v ws t, joined (v :: ws) t -> joined (w :: v :: ws) (w ++ " "%char :: t).

(** operator>>, used once for each of the variables, stores these numbers in them; the stream before and after. *)
Inductive reads_doubles : istr -> list f64 -> istr -> Prop :=
| ReadsNone : forall s, reads_doubles s [] s
| ReadsNext : forall s a s' l s'', extract double_scanner None s = (Some a, s') -> reads_doubles s' l s'' -> reads_doubles s (a :: l) s''.
