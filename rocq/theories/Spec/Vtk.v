(** Specification vocabulary for text files: what the supported VTK form is. *)
From Coq Require Import ZArith List Bool Ascii String.
From Verif Require Import Model.Outcome Model.Num Model.PNDArray Model.Interpolator Model.Quad Model.Hexahedron Model.Mesh
  Model.PField Model.Stream Model.Vtk.
From Verif Require Import Spec.Tensor Spec.Shape Spec.Fields.
Import ListNotations.
Local Open Scope Z_scope.

(** ** Characters, words, numbers *)
Definition newline : ascii := "010"%char.
(** Space, tab, newline, vertical tab, form feed, carriage return. *)
Definition blank (c : ascii) : Prop := In c [" "; "009"; newline; "011"; "012"; "013"]%char.
Definition blanks (t : text) : Prop := Forall blank t.
Definition word (t : text) : Prop := t <> [] /\ Forall (fun c => ~ blank c) t.
Definition one_line (t : text) : Prop := ~ In newline t.
(** A word before [t] ends there. *)
Definition ends_word (t : text) : Prop := t = [] \/ exists c t', t = c :: t' /\ blank c.

(** Decimal numerals. *)
Definition numeral (d : Z) : ascii := ascii_of_nat (48 + Z.to_nat d).
Inductive decimal : text -> Z -> Prop :=
| DecDigit : forall d, 0 <= d <= 9 -> decimal [numeral d] d
| DecMore : forall t n d, decimal t n -> 0 <= d <= 9 -> decimal (t ++ [numeral d]) (10 * n + d).

Definition ulong_max : Z := 2 ^ 64 - 1.
(** An unsigned long as operator>> takes it: a sign is allowed, and a negative number stands for its residue modulo 2^64. *)
Definition ulong_text (t : text) (n : Z) : Prop :=
  exists d k, decimal d k /\ k <= ulong_max /\
    ((t = d \/ t = "+"%char :: d) /\ n = k \/ t = "-"%char :: d /\ n = (if k =? 0 then 0 else 2 ^ 64 - k)).

(** A sequence of tokens separated by blanks, the last one ending the text; [tok t a] says that [t] denotes [a]. *)
Inductive tokens {A : Type} (tok : text -> A -> Prop) : text -> list A -> Prop :=
| TokNil : tokens tok [] []
| TokCons : forall b t a r l, blanks b -> tok t a -> ends_word r -> tokens tok r l -> tokens tok (b ++ t ++ r) (a :: l).

(** The text of a list is followed by a blank or the end, unless the list is empty. *)
Definition separated {A : Type} (l : list A) (rest : text) : Prop := l = [] \/ ends_word rest.

(** What is needed of the number conversion of the standard library for the notation [tok]: a number is a word, and operator>>
    reads the number denoted and stops at the end of the word. *)
Definition number_reader {A : Type} (tok : text -> A -> Prop) (sc : scanner A) : Prop :=
  forall t a, tok t a -> word t /\ forall r, ends_word r -> sc (t ++ r) = (a, true, r).

(** ** Lines *)
Definition starts_with (w : string) (l : text) : Prop := exists r, l = list_ascii_of_string w ++ r.
Definition lines (ls : list text) : text := List.concat (map (fun l => l ++ [newline]) ls).

(** Keyword, blanks, a count, and anything after it; keyword, blanks, a name, and anything after it. *)
Definition count_line (kw : string) (n : Z) (l : text) : Prop :=
  one_line l /\ exists b t r, l = list_ascii_of_string kw ++ b ++ t ++ r /\ b <> [] /\ blanks b /\ ulong_text t n /\ ends_word r.
Definition name_line (kw : string) (name : text) (l : text) : Prop :=
  one_line l /\ exists b r, l = list_ascii_of_string kw ++ b ++ name ++ r /\ b <> [] /\ blanks b /\ word name /\ ends_word r.

(** Lines without meaning in the mesh part and in the data part. *)
Definition mesh_filler (l : text) : Prop :=
  one_line l /\ ~ starts_with "POINTS" l /\ ~ starts_with "CELLS" l /\ ~ starts_with "CELL_TYPES" l.
Definition data_filler (l : text) : Prop := one_line l /\ ~ starts_with "POINT_DATA" l /\ ~ starts_with "SCALARS" l.

Section File.
Context {O : NumOps} {P : Type}.
Context (num_text : text -> num O -> Prop) (coords_of : P -> list (num O) -> Prop).

(** The data part: the count last announced, and the fields in order. *)
Inductive data_text : option Z -> list (text * list (num O)) -> text -> Prop :=
| DataEnd : forall np l, data_filler l -> data_text np [] l
| DataFiller : forall np l fs r, data_filler l -> data_text np fs r -> data_text np fs (l ++ newline :: r)
| DataCount : forall np n l fs r, count_line "POINT_DATA" n l -> data_text (Some n) fs r -> data_text np fs (l ++ newline :: r)
| DataField : forall n name l lookup values t fs r,
    name_line "SCALARS" name l -> one_line lookup -> n = Z.of_nat (List.length values) -> n <= int_max ->
    tokens num_text t values -> separated values r -> data_text (Some n) fs r ->
    data_text (Some n) ((name, values) :: fs) (l ++ newline :: lookup ++ newline :: t ++ r).

(** The file: any lines, the points, any lines, the cells (each a count and node numbers), any lines, the cell
    types, and the data part. *)
Inductive vtk_text (pts : list P) (cells : list (list Z)) (fields : list (text * list (num O))) : text -> Prop :=
| VtkText : forall pre ph xs pt mid ch ct mid' th types tt rest,
    Forall mesh_filler pre ->
    count_line "POINTS" (Z.of_nat (List.length pts)) ph ->
    Forall2 coords_of pts xs -> tokens num_text pt (List.concat xs) ->
    Forall mesh_filler mid -> separated pts (lines mid ++ ch) ->
    count_line "CELLS" (Z.of_nat (List.length cells)) ch ->
    tokens ulong_text ct (List.concat (map (fun c => Z.of_nat (List.length c) :: c) cells)) ->
    Forall mesh_filler mid' -> separated cells (lines mid' ++ th) ->
    count_line "CELL_TYPES" (Z.of_nat (List.length types)) th ->
    Forall (fun k => k = 9 \/ k = 12) types -> tokens ulong_text tt types -> separated types rest ->
    data_text None fields rest ->
    Z.of_nat (List.length pts) <= int_max -> Z.of_nat (List.length cells) <= int_max ->
    Z.of_nat (List.length types) <= int_max -> Forall (fun c => Z.of_nat (List.length c) <= int_max) cells ->
    vtk_text pts cells fields
      (lines pre ++ ph ++ newline :: pt ++ lines mid ++ ch ++ newline :: ct ++ lines mid' ++ th ++ newline :: tt ++ rest).
End File.

(** Three numbers per point; in 2D the third one is arbitrary. *)
Definition coords2 {O : NumOps} (p : c2 O) (l : list (num O)) : Prop := exists w, l = [fst p; snd p; w].
Definition coords3 {O : NumOps} (p : c3 O) (l : list (num O)) : Prop := l = [cx p; cy p; cz p].

(** ** What the mesh contains *)

(** The interpolators of cell number [i]: one per corner, naming the corner's node and the cell, at the node's position,
    with the cell's edges (far corner minus first corner). *)
Definition cell_interpolators {O : NumOps} {K : kind O} (pts : list (kpoint K)) (i : Z) (cell : list Z)
  (its : list (interp O (kpoint K))) : Prop :=
  List.length its = kcorners K /\
  exists n0 p0 nf pf, vget cell 0 = Ok n0 /\ vget pts n0 = Ok p0 /\ vget cell (kfar K) = Ok nf /\ vget pts nf = Ok pf /\
  forall j, (j < kcorners K)%nat -> exists n p, vget cell (Z.of_nat j) = Ok n /\ vget pts n = Ok p /\
    nth_error its j = Some (kvalues K n i p (kdiff K pf p0) (Z.of_nat j)).

(** The interpolators of all cells, in order, numbered from 0. *)
Definition all_interpolators {O : NumOps} {K : kind O} (pts : list (kpoint K)) (cells : list (list Z))
  (its : list (interp O (kpoint K))) : Prop :=
  exists parts, its = List.concat parts /\ List.length parts = List.length cells /\
  forall k cell part, nth_error cells k = Some cell -> nth_error parts k = Some part -> cell_interpolators pts (Z.of_nat k) cell part.

(** A field with the given name and nodal data. *)
Definition named_field {O : NumOps} (f : text * list (num O)) (p : pfield (scalar_field O)) : Prop :=
  pf_name p = string_of_list_ascii (fst f) /\ pf_field p = snd f /\ pf_zero p = nofZ O 0.

(** ** Executions of the loops *)

Section Runs.
Context {O : NumOps} (V : vkind O) (num_scanner : scanner (num O)).

(** [n] iterations, none of which found the end of the file before it or returned from the function. *)
Inductive mesh_runs : nat -> vst V -> vst V -> Prop :=
| MeshRuns0 : forall v, mesh_runs 0 v v
| MeshRunsS : forall n v v1 v2, is_eof (v_in V v) = false -> mesh_iteration V num_scanner v = RRet v1 false -> mesh_runs n v1 v2 ->
    mesh_runs (S n) v v2.
Inductive body_runs : nat -> bst V -> bst V -> Prop :=
| BodyRuns0 : forall b, body_runs 0 b b
| BodyRunsS : forall n b b1 b2, is_eof (b_in V b) = false -> body_iteration V num_scanner b = RRet b1 tt -> body_runs n b1 b2 ->
    body_runs (S n) b b2.

(** The state in which a file with contents [t] starts to be read into [bo]. *)
Definition mesh_start (bo : body V) (t : text) : vst V := mkVst V (bo_mesh V bo) (is_open (Some t)) loc_new.

(** The state in which the data part is read after a mesh part that left [v]. *)
Definition data_start (fields : list (pfield (scalar_field O))) (v : vst V) : bst V :=
  mkBst V (mkBody V (v_mesh V v) fields) (v_in V v) [] [] None.

(** The stream has failed and end-of-file is not reported. *)
Definition stuck (s : istr) : Prop := is_fail s = true /\ is_eof s = false.

(** A scanner leaves no more characters than there were. *)
Definition consumes {A : Type} (sc : scanner A) : Prop := forall t, (List.length (snd (sc t)) <= List.length t)%nat.
End Runs.
