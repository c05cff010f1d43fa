(** Specification vocabulary for the Python package: calls that fit, lines of coefficients, decimal digits. *)
From Coq Require Import ZArith List Ascii String Reals.
From Verif Require Import Model.Stream Model.Python Spec.Vtk.
Import ListNotations.
Local Open Scope Z_scope.
Local Open Scope string_scope.
Local Open Scope list_scope.

(** The C name of each Python class. *)
Definition c_prefix (class : string) : string :=
  if String.eqb class "PSimple_dd" then "PSimpleFunction_dd"
  else if String.eqb class "PSimple_dsd" then "PSimpleFunction_dsd"
  else if String.eqb class "PFunc_dsd" then "PFunction_dsd"
  else if String.eqb class "PSeries_dsis" then "PSeriesFunction_dsis" else class.

(** The C function a method is for: the one of its name; constructors may call one of several. *)
Definition intended (class method symbol : string) : Prop :=
  if String.eqb method "__init__"
  then In symbol [c_prefix class ++ "_new"; c_prefix class ++ "_setnew"; "ScalarField2D"; "ScalarField3D"]%string
  else symbol = (c_prefix class ++ "_" ++ method)%string.

(** The call is of the intended function, which exists, with arguments of the types of its parameters. *)
Definition fits (c : pycall) : Prop :=
  intended (py_class c) (py_method c) (py_symbol c) /\ exists line, In (py_symbol c, line, py_args c) c_functions.

(** The methods whose call does not. *)
Definition misfits : list (string * string) := [
  ("PSimple_dd", "name"); ("PSimple_dsd", "name"); ("PFunc_dsd", "name"); ("PFunc_dsd", "var_name"); ("PFunc_dsd", "var_description");
  ("PFunc_dsd", "get_grad"); ("PFunc_dsd", "get_hess"); ("PBasisSet_dd", "name"); ("PBasisSet_dd", "description");
  ("PSeries_dsis", "linear_index"); ("PSeries_dsis", "calc_basis_grad"); ("PSeries_dsis", "calc_basis_hess")].

(** Functions of the C interface no method calls. *)
Definition unreached : list string := ["PFunction_dsd_get_grad"; "PFunction_dsd_get_hess"; "PSeriesFunction_dsis_linear_index"].

(** A line (without its newline) whose last word is [w]. *)
Definition last_word (l w : text) : Prop :=
  ~ In newline l /\ exists pre post, l = pre ++ w ++ post /\ w <> [] /\ Forall (fun c => ~ blank c) w /\ Forall blank post /\
    (pre = [] \/ exists pre' b, pre = pre' ++ [b] /\ blank b).
(** A blank line. *)
Definition blank_line (l : text) : Prop := ~ In newline l /\ Forall blank l.
Definition lines (ls : list text) : text := List.concat (map (fun l => l ++ [newline]) ls).

(** [m] times 10 to the [e] is [x] correctly rounded to [p] significant decimal digits (and no tie): [m] has [p] digits, it is within half a
    unit, and [x] is too large to have [p] digits in the next smaller unit. *)
Definition rounds_to (p : Z) (x : R) (m e : Z) : Prop :=
  10 ^ (p - 1) <= Z.abs m < 10 ^ p /\ (Rabs (x - IZR m * powerRZ 10 e) < powerRZ 10 e / 2)%R /\
  ((IZR (10 ^ p) - / 2) * powerRZ 10 (e - 1) < Rabs x)%R.
(** A text that depends only on that. *)
Definition shows_digits {T : Type} (p : Z) (value : T -> R) (show : T -> text) : Prop :=
  forall x y m e, rounds_to p (value x) m e -> rounds_to p (value y) m e -> show x = show y.
