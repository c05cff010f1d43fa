(** Model of printing a coordinate: include/IntegrationTools/pfield/Coordinate.hh 39-48. *)
From Coq Require Import ZArith List Bool Ascii.
From Verif Require Import Model.Outcome Model.Num Model.NumInst Model.BasisSet Model.Stream Model.SeriesIO Model.Decimal.
Import ListNotations.
Local Open Scope Z_scope.

(** Coordinate.hh 13-16, 20-23: the array _coord as the list of its DIM elements, and size(). *)
Definition coordinate : Type := list f64.
Definition co_size (c : coordinate) : Z := Z.of_nat (length c).
(** Coordinate.hh 30-33, operator[] const: undefined behaviour outside of the array. *)
Definition co_get (c : coordinate) (i : Z) : outcome f64 := vget c i.
(** Coordinate.hh 39-48, operator<<, on a stream with the default format and precision [p]; the characters put. *)
Definition co_print (p : Z) (c : coordinate) : outcome text :=
  ofold (fun (t : text) (i : Z) =>
           let* x := co_get c i in
           let t := t ++ print_double p x in
           Ok (if i <? co_size c - 1 then t ++ [" "%char] else t))
        (zseq (co_size c)) [].
