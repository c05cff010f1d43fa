(** Property C10, continued: Bin::max_indices. *)
From Coq Require Import ZArith List Reals.
From Verif Require Import Model.Outcome Model.Num Model.NumInst Model.PNDArray Model.Bin Model.BinMax.
From Verif Require Import Spec.Tensor Spec.Grid Spec.BinMax.
From Verif Require Import Proofs.BinP Proofs.BinRP Proofs.BinExamples Proofs.BinMaxP.
Import ListNotations.
Local Open Scope Z_scope.

(** C10. In exact arithmetic max_indices gives the cell of a coordinate that passes the range check, where a cell has its upper borders instead of
    its lower ones; that is a cell of the grid exactly when no component is on the lower limit. *)
Theorem C10_max_indices : forall (T : Type) (teqb : T -> T -> bool) (mn inc : list R) (N : list Z), proper_grid mn inc N ->
  forall (b : bin ROps T) c term, bin_reachable teqb mn inc N b -> length c = length N -> length term = length N -> ~ outside mn inc N c ->
  exists j, bin_max_indices b c term = RRet j tt /\ in_upper_cell mn inc j c /\ (valid_index N j <-> above_minimum mn c).
Proof. exact max_indices_ok. Qed.
Print Assumptions C10_max_indices.
(** C10. Coordinates outside the grid are rejected. *)
Theorem C10_max_indices_outside : forall (T : Type) (teqb : T -> T -> bool) (mn inc : list R) (N : list Z), proper_grid mn inc N ->
  forall (b : bin ROps T) c term, bin_reachable teqb mn inc N b -> length term = length N -> outside mn inc N c ->
  exists t, bin_max_indices b c term = RThrow t DomainError /\ length t = length N.
Proof. exact max_indices_reject. Qed.
Print Assumptions C10_max_indices_outside.
Example C10_max_case : proper_grid [0; -1]%R [1/2; 1]%R [4; 3] /\ in_upper_cell [0; -1]%R [1/2; 1]%R [1; 2] [1; 2]%R /\
  ~ outside [0; -1]%R [1/2; 1]%R [4; 3] [1; 2]%R /\ above_minimum [0; -1]%R [1; 2]%R.
Proof. exact (conj ex_grid ex_upper). Qed.
(** C10. A coordinate that max_indices accepts has a cell: refuted, on the doubles themselves, at the lower limit. *)
Theorem C10_max_indices_refuted : exists (mn inc : list f64) (N : list Z) (b : bin FOps Z) (c : list f64) j,
  proper_shape N /\ bin_make (O := FOps) mn inc N = Ok b /\ Forall3 (fun a z x => nltb FOps x a = false /\ nltb FOps z x = false) mn (bin_max b) c /\
  bin_max_indices b c (repeat 0 (length N)) = RRet j tt /\ ~ valid_index N j.
Proof. exact max_refuted. Qed.
Print Assumptions C10_max_indices_refuted.
