(** Specification vocabulary: files that have the form of a VTK file but not a supported content. *)
From Coq Require Import ZArith List Bool Ascii String.
From Verif Require Import Model.Outcome Model.Num Model.PNDArray Model.Stream Model.Vtk.
From Verif Require Import Spec.Tensor Spec.Vtk.
Import ListNotations.
Local Open Scope Z_scope.

Section Forms.
Context {O : NumOps} {P : Type}.
Context (num_text : text -> num O -> Prop) (coords_of : P -> list (num O) -> Prop).

(** As [vtk_text] (Spec/Vtk.v) up to the last number of the cells; [rest] is what follows, anything. *)
Inductive upto_cells (pts : list P) (cells : list (list Z)) (rest : text) : text -> Prop :=
| UptoCells : forall pre ph xs pt mid ch ct,
    Forall mesh_filler pre ->
    count_line "POINTS" (Z.of_nat (List.length pts)) ph ->
    Forall2 coords_of pts xs -> tokens num_text pt (List.concat xs) ->
    Forall mesh_filler mid -> separated pts (lines mid ++ ch) ->
    count_line "CELLS" (Z.of_nat (List.length cells)) ch ->
    tokens ulong_text ct (List.concat (map (fun c => Z.of_nat (List.length c) :: c) cells)) -> separated cells rest ->
    Z.of_nat (List.length pts) <= int_max -> Z.of_nat (List.length cells) <= int_max ->
    Forall (fun c => Z.of_nat (List.length c) <= int_max) cells ->
    upto_cells pts cells rest (lines pre ++ ph ++ newline :: pt ++ lines mid ++ ch ++ newline :: ct ++ rest).

(** ... up to the last of the cell types, which are any numbers. *)
Definition upto_types (pts : list P) (cells : list (list Z)) (types : list Z) (rest : text) (t : text) : Prop :=
  exists mid th tt, Forall mesh_filler mid /\ count_line "CELL_TYPES" (Z.of_nat (List.length types)) th /\
    tokens ulong_text tt types /\ separated types rest /\ Z.of_nat (List.length types) <= int_max /\
    separated cells (lines mid ++ th) /\ upto_cells pts cells (lines mid ++ th ++ newline :: tt ++ rest) t.
End Forms.

(** A cell that has too few corners, or one among its first [k] that is none of [n] nodes. *)
Definition bad_cell (k n : nat) (cell : list Z) : Prop :=
  (List.length cell < k)%nat \/ exists j a, (j < k)%nat /\ nth_error cell j = Some a /\ Z.of_nat n <= a.

(** VTK_QUAD and VTK_HEXAHEDRON; the reader does not compare them with its dimension. *)
Definition supported_type (k : Z) : Prop := k = 9 \/ k = 12.

(** ** Data parts with incomplete header lines *)

(** A line that starts with the keyword [kw] and has no second word. *)
Definition bare_line (kw : string) (l : text) : Prop :=
  one_line l /\ exists w b, l = list_ascii_of_string kw ++ w ++ b /\ Forall (fun c => ~ blank c) w /\ blanks b.

Section LooseData.
Context {O : NumOps} (num_text : text -> num O -> Prop).
(** As [data_text] (Spec/Vtk.v), but a POINT_DATA line may lack its count and a SCALARS line its name. [loose_data np last fields t]: with [np] the
    count last announced and [last] the name last given, the fields of [t] have these names and values: what is missing is what was given last. *)
Inductive loose_data : option Z -> text -> list (text * list (num O)) -> text -> Prop :=
| LooseEnd : forall np last l, data_filler l -> loose_data np last [] l
| LooseFiller : forall np last l fs r, data_filler l -> loose_data np last fs r -> loose_data np last fs (l ++ newline :: r)
| LooseCount : forall np last n l fs r, count_line "POINT_DATA" n l -> loose_data (Some n) last fs r -> loose_data np last fs (l ++ newline :: r)
| LooseNoCount : forall np last l fs r, bare_line "POINT_DATA" l -> loose_data np last fs r -> loose_data np last fs (l ++ newline :: r)
| LooseField : forall n last name l lookup values t fs r,
    name_line "SCALARS" name l -> one_line lookup -> n = Z.of_nat (List.length values) -> n <= int_max ->
    tokens num_text t values -> separated values r -> loose_data (Some n) name fs r ->
    loose_data (Some n) last ((name, values) :: fs) (l ++ newline :: lookup ++ newline :: t ++ r)
| LooseNoName : forall n last l lookup values t fs r,
    bare_line "SCALARS" l -> one_line lookup -> n = Z.of_nat (List.length values) -> n <= int_max ->
    tokens num_text t values -> separated values r -> loose_data (Some n) last fs r ->
    loose_data (Some n) last ((last, values) :: fs) (l ++ newline :: lookup ++ newline :: t ++ r).
End LooseData.
