(** Model of the Python package src/python/pfunction (psimple_dd.py, psimple_dsd.py, pfunc_dsd.py, pbasisset_dd.py, pseries_dsis.py, body.py,
    config.py): which C function each method calls with what arguments, and the methods that do more than that. *)
From Coq Require Import ZArith List Bool Ascii String.
From Verif Require Import Model.Outcome Model.Num Model.PNDArray Model.BasisSet Model.Series Model.Stream Model.SeriesIO Model.CInterface.
Import ListNotations.
Local Open Scope Z_scope.
Local Open Scope string_scope.
Local Open Scope list_scope.

(** The classes of src/c/PExtern.cc's objects, and the types of C parameters and of what ctypes passes: char*, pointer to char*, double,
    double*, double&, int, int*, int&, pointer to an object, reference to such a pointer, array of such pointers. byref() of a
    number is a reference to it, byref() of a c_void_p a reference to a pointer, of a c_char_p a pointer to a char*, and an array is a pointer to
    its first element, as is byref() of an array. *)
Inductive cobj : Set := OSimpleDd | OSimpleDsd | OFunc | OBasis | OSeries | OBody2 | OBody3.
Inductive cty : Set :=
| TChars | TCharsRef | TDouble | TDoubles | TDoubleRef | TInt | TInts | TIntRef | TObj (o : cobj) | TObjRef (o : cobj) | TObjs (o : cobj).

(** src/c/PExtern.cc: the functions, each with its line and the types of its parameters. *)
Definition c_functions : list (string * Z * list cty) := [
  ("PSimpleFunction_dsd_new", 23, [TChars; TObjRef OSimpleDsd]);
  ("PSimpleFunction_dsd_delete", 28, [TObjRef OSimpleDsd]);
  ("PSimpleFunction_dsd_name", 34, [TObj OSimpleDsd; TChars]);
  ("PSimpleFunction_dsd_calc", 39, [TObj OSimpleDsd; TDoubles; TDoubleRef]);
  ("PSimpleFunction_dsd_get", 44, [TObj OSimpleDsd; TDoubleRef]);
  ("PSimpleFunction_dd_new", 56, [TChars; TObjRef OSimpleDd]);
  ("PSimpleFunction_dd_delete", 61, [TObjRef OSimpleDd]);
  ("PSimpleFunction_dd_name", 67, [TObj OSimpleDd; TChars]);
  ("PSimpleFunction_dd_calc", 72, [TObj OSimpleDd; TDouble; TDoubleRef]);
  ("PSimpleFunction_dd_get", 77, [TObj OSimpleDd; TDoubleRef]);
  ("PFunction_dsd_new", 89, [TChars; TObjRef OFunc]);
  ("PFunction_dsd_delete", 94, [TObjRef OFunc]);
  ("PFunction_dsd_name", 100, [TObj OFunc; TChars]);
  ("PFunction_dsd_size", 105, [TObj OFunc; TIntRef]);
  ("PFunction_dsd_var_name", 110, [TObj OFunc; TInt; TChars]);
  ("PFunction_dsd_var_description", 115, [TObj OFunc; TInt; TChars]);
  ("PFunction_dsd_calc", 124, [TObj OFunc; TDoubles; TDoubleRef]);
  ("PFunction_dsd_calc_grad", 129, [TObj OFunc; TDoubles; TInt; TDoubleRef]);
  ("PFunction_dsd_calc_hess", 134, [TObj OFunc; TDoubles; TInt; TInt; TDoubleRef]);
  ("PFunction_dsd_eval", 139, [TObj OFunc; TDoubles]);
  ("PFunction_dsd_eval_grad", 144, [TObj OFunc; TDoubles; TInt]);
  ("PFunction_dsd_eval_hess", 149, [TObj OFunc; TDoubles; TInt; TInt]);
  ("PFunction_dsd_get", 154, [TObj OFunc; TDoubleRef]);
  ("PFunction_dsd_get_grad", 159, [TObj OFunc; TInt; TDoubleRef]);
  ("PFunction_dsd_get_hess", 164, [TObj OFunc; TInt; TInt; TDoubleRef]);
  ("PBasisSet_dd_new", 176, [TChars; TObjRef OBasis; TInt]);
  ("PBasisSet_dd_delete", 181, [TObjRef OBasis]);
  ("PBasisSet_dd_name", 187, [TObj OBasis; TChars]);
  ("PBasisSet_dd_description", 192, [TObj OBasis; TChars]);
  ("PBasisSet_dd_size", 197, [TObj OBasis; TIntRef]);
  ("PBasisSet_dd_resize", 202, [TObj OBasis; TInt]);
  ("PBasisSet_dd_max_size", 207, [TObj OBasis; TIntRef]);
  ("PBasisSet_dd_calc", 214, [TObj OBasis; TInt; TDouble; TDoubleRef]);
  ("PBasisSet_dd_calc_grad", 219, [TObj OBasis; TInt; TDouble; TDoubleRef]);
  ("PBasisSet_dd_calc_hess", 224, [TObj OBasis; TInt; TDouble; TDoubleRef]);
  ("PBasisSet_dd_eval", 229, [TObj OBasis; TDouble]);
  ("PBasisSet_dd_eval_grad", 234, [TObj OBasis; TDouble]);
  ("PBasisSet_dd_eval_hess", 239, [TObj OBasis; TDouble]);
  ("PBasisSet_dd_get", 244, [TObj OBasis; TInt; TDoubleRef]);
  ("PBasisSet_dd_get_grad", 249, [TObj OBasis; TInt; TDoubleRef]);
  ("PBasisSet_dd_get_hess", 254, [TObj OBasis; TInt; TDoubleRef]);
  ("PSeriesFunction_dsis_new", 270, [TObjRef OSeries]);
  ("PSeriesFunction_dsis_setnew", 275, [TObjRef OSeries; TObjs OBasis; TInt]);
  ("PSeriesFunction_dsis_delete", 284, [TObjRef OSeries]);
  ("PSeriesFunction_dsis_clear", 290, [TObj OSeries]);
  ("PSeriesFunction_dsis_set", 295, [TObj OSeries; TObjs OBasis; TInt]);
  ("PSeriesFunction_dsis_order", 308, [TObj OSeries; TIntRef]);
  ("PSeriesFunction_dsis_volume", 313, [TObj OSeries; TIntRef]);
  ("PSeriesFunction_dsis_dim", 318, [TObj OSeries; TInt; TIntRef]);
  ("PSeriesFunction_dsis_get_linear_coeff", 323, [TObj OSeries; TInt; TDoubleRef]);
  ("PSeriesFunction_dsis_get_tensor_coeff", 328, [TObj OSeries; TInts; TDoubleRef]);
  ("PSeriesFunction_dsis_set_linear_coeff", 333, [TObj OSeries; TInt; TDouble]);
  ("PSeriesFunction_dsis_set_tensor_coeff", 338, [TObj OSeries; TInts; TDouble]);
  ("PSeriesFunction_dsis_linear_index", 343, [TObj OSeries; TInts; TIntRef]);
  ("PSeriesFunction_dsis_tensor_indices", 348, [TObj OSeries; TInt; TInts]);
  ("PSeriesFunction_dsis_calc", 358, [TObj OSeries; TDoubles; TDoubleRef]);
  ("PSeriesFunction_dsis_calc_grad", 363, [TObj OSeries; TDoubles; TInt; TDoubleRef]);
  ("PSeriesFunction_dsis_calc_hess", 368, [TObj OSeries; TDoubles; TInt; TInt; TDoubleRef]);
  ("PSeriesFunction_dsis_eval", 376, [TObj OSeries; TDoubles]);
  ("PSeriesFunction_dsis_eval_grad", 381, [TObj OSeries; TDoubles]);
  ("PSeriesFunction_dsis_eval_hess", 386, [TObj OSeries; TDoubles]);
  ("PSeriesFunction_dsis_get", 391, [TObj OSeries; TDoubleRef]);
  ("PSeriesFunction_dsis_get_grad", 396, [TObj OSeries; TInt; TDoubleRef]);
  ("PSeriesFunction_dsis_get_hess", 401, [TObj OSeries; TInt; TInt; TDoubleRef]);
  ("PSeriesFunction_dsis_calc_basis", 414, [TObj OSeries; TInt; TInt; TDoubles; TDoubleRef]);
  ("PSeriesFunction_dsis_calc_basis_grad", 419, [TObj OSeries; TInt; TInt; TDoubles; TDoubleRef]);
  ("PSeriesFunction_dsis_calc_basis_hess", 424, [TObj OSeries; TInt; TInt; TDoubles; TDoubleRef]);
  ("PSeriesFunction_dsis_calc_tensor_basis", 430, [TObj OSeries; TInts; TDoubles; TDoubleRef]);
  ("PSeriesFunction_dsis_calc_tensor_basis_grad", 435, [TObj OSeries; TInts; TDoubles; TInt; TDoubleRef]);
  ("PSeriesFunction_dsis_calc_tensor_basis_hess", 440, [TObj OSeries; TInts; TDoubles; TInt; TInt; TDoubleRef]);
  ("PSeriesFunction_dsis_eval_basis_all", 449, [TObj OSeries; TDoubles]);
  ("PSeriesFunction_dsis_eval_basis", 454, [TObj OSeries; TDoubles; TInt]);
  ("PSeriesFunction_dsis_eval_basis_grad_all", 459, [TObj OSeries; TDoubles]);
  ("PSeriesFunction_dsis_eval_basis_grad", 464, [TObj OSeries; TDoubles; TInt]);
  ("PSeriesFunction_dsis_eval_basis_hess_all", 469, [TObj OSeries; TDoubles]);
  ("PSeriesFunction_dsis_eval_basis_hess", 474, [TObj OSeries; TDoubles; TInt]);
  ("PSeriesFunction_dsis_get_basis", 481, [TObj OSeries; TInt; TInt; TDoubleRef]);
  ("PSeriesFunction_dsis_get_basis_grad", 486, [TObj OSeries; TInt; TInt; TDoubleRef]);
  ("PSeriesFunction_dsis_get_basis_hess", 491, [TObj OSeries; TInt; TInt; TDoubleRef]);
  ("PSeriesFunction_dsis_get_tensor_basis", 497, [TObj OSeries; TInts; TDoubleRef]);
  ("PSeriesFunction_dsis_get_tensor_basis_grad", 502, [TObj OSeries; TInts; TInt; TDoubleRef]);
  ("PSeriesFunction_dsis_get_tensor_basis_hess", 507, [TObj OSeries; TInts; TInt; TInt; TDoubleRef]);
  ("Body2D_new", 516, [TChars; TObjRef OBody2]);
  ("Body2D_delete", 522, [TObjRef OBody2]);
  ("ScalarField2D", 534, [TChars; TObj OBody2; TObjRef OFunc]);
  ("Body3D_new", 544, [TChars; TObjRef OBody3]);
  ("Body3D_delete", 550, [TObjRef OBody3]);
  ("ScalarField3D", 562, [TChars; TObj OBody3; TObjRef OFunc])].

(** src/python/pfunction/*.py: the calls of C functions: file, line, class, method, function, types of the arguments. *)
Record pycall : Set := mkPy { py_file : string; py_line : Z; py_class : string; py_method : string; py_symbol : string; py_args : list cty }.
Definition python_calls : list pycall := [
  mkPy "psimple_dd.py" 8 "PSimple_dd" "__init__" "PSimpleFunction_dd_new" [TChars; TObjRef OSimpleDd];
  mkPy "psimple_dd.py" 17 "PSimple_dd" "delete" "PSimpleFunction_dd_delete" [TObjRef OSimpleDd];
  mkPy "psimple_dd.py" 21 "PSimple_dd" "name" "PSimpleFunction_dd_name" [TObj OSimpleDd; TCharsRef];
  mkPy "psimple_dd.py" 25 "PSimple_dd" "calc" "PSimpleFunction_dd_calc" [TObj OSimpleDd; TDouble; TDoubleRef];
  mkPy "psimple_dd.py" 29 "PSimple_dd" "get" "PSimpleFunction_dd_get" [TObj OSimpleDd; TDoubleRef];
  mkPy "psimple_dsd.py" 8 "PSimple_dsd" "__init__" "PSimpleFunction_dsd_new" [TChars; TObjRef OSimpleDsd];
  mkPy "psimple_dsd.py" 18 "PSimple_dsd" "delete" "PSimpleFunction_dsd_delete" [TObjRef OSimpleDsd];
  mkPy "psimple_dsd.py" 22 "PSimple_dsd" "name" "PSimpleFunction_dsd_name" [TObj OSimpleDsd; TCharsRef];
  mkPy "psimple_dsd.py" 26 "PSimple_dsd" "calc" "PSimpleFunction_dsd_calc" [TObj OSimpleDsd; TDoubles; TDoubleRef];
  mkPy "psimple_dsd.py" 30 "PSimple_dsd" "get" "PSimpleFunction_dsd_get" [TObj OSimpleDsd; TDoubleRef];
  mkPy "pfunc_dsd.py" 9 "PFunc_dsd" "__init__" "PFunction_dsd_new" [TChars; TObjRef OFunc];
  mkPy "pfunc_dsd.py" 14 "PFunc_dsd" "__init__" "ScalarField2D" [TChars; TObj OBody2; TObjRef OFunc];
  mkPy "pfunc_dsd.py" 16 "PFunc_dsd" "__init__" "ScalarField3D" [TChars; TObj OBody3; TObjRef OFunc];
  mkPy "pfunc_dsd.py" 23 "PFunc_dsd" "delete" "PFunction_dsd_delete" [TObjRef OFunc];
  mkPy "pfunc_dsd.py" 27 "PFunc_dsd" "name" "PFunction_dsd_name" [TObj OFunc; TCharsRef];
  mkPy "pfunc_dsd.py" 31 "PFunc_dsd" "size" "PFunction_dsd_size" [TObj OFunc; TIntRef];
  mkPy "pfunc_dsd.py" 36 "PFunc_dsd" "var_name" "PFunction_dsd_var_name" [TObj OFunc; TInt; TCharsRef];
  mkPy "pfunc_dsd.py" 41 "PFunc_dsd" "var_description" "PFunction_dsd_var_description" [TObj OFunc; TInt; TCharsRef];
  mkPy "pfunc_dsd.py" 49 "PFunc_dsd" "calc" "PFunction_dsd_calc" [TObj OFunc; TDoubles; TDoubleRef];
  mkPy "pfunc_dsd.py" 53 "PFunc_dsd" "calc_grad" "PFunction_dsd_calc_grad" [TObj OFunc; TDoubles; TInt; TDoubleRef];
  mkPy "pfunc_dsd.py" 57 "PFunc_dsd" "calc_hess" "PFunction_dsd_calc_hess" [TObj OFunc; TDoubles; TInt; TInt; TDoubleRef];
  mkPy "pfunc_dsd.py" 61 "PFunc_dsd" "eval" "PFunction_dsd_eval" [TObj OFunc; TDoubles];
  mkPy "pfunc_dsd.py" 64 "PFunc_dsd" "eval_grad" "PFunction_dsd_eval_grad" [TObj OFunc; TDoubles; TInt];
  mkPy "pfunc_dsd.py" 67 "PFunc_dsd" "eval_hess" "PFunction_dsd_eval_hess" [TObj OFunc; TDoubles; TInt; TInt];
  mkPy "pfunc_dsd.py" 70 "PFunc_dsd" "get" "PFunction_dsd_get" [TObj OFunc; TDoubleRef];
  mkPy "pfunc_dsd.py" 74 "PFunc_dsd" "get_grad" "PFunction_dsd_get" [TObj OFunc; TInt; TDoubleRef];
  mkPy "pfunc_dsd.py" 78 "PFunc_dsd" "get_hess" "PFunction_dsd_get" [TObj OFunc; TInt; TInt; TDoubleRef];
  mkPy "pbasisset_dd.py" 8 "PBasisSet_dd" "__init__" "PBasisSet_dd_new" [TChars; TObjRef OBasis; TInt];
  mkPy "pbasisset_dd.py" 18 "PBasisSet_dd" "delete" "PBasisSet_dd_delete" [TObjRef OBasis];
  mkPy "pbasisset_dd.py" 22 "PBasisSet_dd" "name" "PBasisSet_dd_name" [TObj OBasis; TCharsRef];
  mkPy "pbasisset_dd.py" 27 "PBasisSet_dd" "description" "PBasisSet_dd_description" [TObj OBasis; TCharsRef];
  mkPy "pbasisset_dd.py" 31 "PBasisSet_dd" "size" "PBasisSet_dd_size" [TObj OBasis; TIntRef];
  mkPy "pbasisset_dd.py" 35 "PBasisSet_dd" "resize" "PBasisSet_dd_resize" [TObj OBasis; TInt];
  mkPy "pbasisset_dd.py" 38 "PBasisSet_dd" "max_size" "PBasisSet_dd_max_size" [TObj OBasis; TIntRef];
  mkPy "pbasisset_dd.py" 44 "PBasisSet_dd" "calc" "PBasisSet_dd_calc" [TObj OBasis; TInt; TDouble; TDoubleRef];
  mkPy "pbasisset_dd.py" 48 "PBasisSet_dd" "calc_grad" "PBasisSet_dd_calc_grad" [TObj OBasis; TInt; TDouble; TDoubleRef];
  mkPy "pbasisset_dd.py" 52 "PBasisSet_dd" "calc_hess" "PBasisSet_dd_calc_hess" [TObj OBasis; TInt; TDouble; TDoubleRef];
  mkPy "pbasisset_dd.py" 56 "PBasisSet_dd" "eval" "PBasisSet_dd_eval" [TObj OBasis; TDouble];
  mkPy "pbasisset_dd.py" 59 "PBasisSet_dd" "eval_grad" "PBasisSet_dd_eval_grad" [TObj OBasis; TDouble];
  mkPy "pbasisset_dd.py" 62 "PBasisSet_dd" "eval_hess" "PBasisSet_dd_eval_hess" [TObj OBasis; TDouble];
  mkPy "pbasisset_dd.py" 65 "PBasisSet_dd" "get" "PBasisSet_dd_get" [TObj OBasis; TInt; TDoubleRef];
  mkPy "pbasisset_dd.py" 69 "PBasisSet_dd" "get_grad" "PBasisSet_dd_get_grad" [TObj OBasis; TInt; TDoubleRef];
  mkPy "pbasisset_dd.py" 73 "PBasisSet_dd" "get_hess" "PBasisSet_dd_get_hess" [TObj OBasis; TInt; TDoubleRef];
  mkPy "pseries_dsis.py" 12 "PSeries_dsis" "__init__" "PSeriesFunction_dsis_new" [TObjRef OSeries];
  mkPy "pseries_dsis.py" 22 "PSeries_dsis" "__init__" "PSeriesFunction_dsis_setnew" [TObjRef OSeries; TObjs OBasis; TInt];
  mkPy "pseries_dsis.py" 32 "PSeries_dsis" "delete" "PSeriesFunction_dsis_delete" [TObjRef OSeries];
  mkPy "pseries_dsis.py" 35 "PSeries_dsis" "clear" "PSeriesFunction_dsis_clear" [TObj OSeries];
  mkPy "pseries_dsis.py" 43 "PSeries_dsis" "set" "PSeriesFunction_dsis_set" [TObj OSeries; TObjs OBasis; TInt];
  mkPy "pseries_dsis.py" 46 "PSeries_dsis" "order" "PSeriesFunction_dsis_order" [TObj OSeries; TIntRef];
  mkPy "pseries_dsis.py" 50 "PSeries_dsis" "volume" "PSeriesFunction_dsis_volume" [TObj OSeries; TIntRef];
  mkPy "pseries_dsis.py" 54 "PSeries_dsis" "dim" "PSeriesFunction_dsis_dim" [TObj OSeries; TInt; TIntRef];
  mkPy "pseries_dsis.py" 58 "PSeries_dsis" "get_linear_coeff" "PSeriesFunction_dsis_get_linear_coeff" [TObj OSeries; TInt; TDoubleRef];
  mkPy "pseries_dsis.py" 63 "PSeries_dsis" "get_tensor_coeff" "PSeriesFunction_dsis_get_tensor_coeff" [TObj OSeries; TInts; TDoubleRef];
  mkPy "pseries_dsis.py" 67 "PSeries_dsis" "set_linear_coeff" "PSeriesFunction_dsis_set_linear_coeff" [TObj OSeries; TInt; TDouble];
  mkPy "pseries_dsis.py" 71 "PSeries_dsis" "set_tensor_coeff" "PSeriesFunction_dsis_set_tensor_coeff" [TObj OSeries; TInts; TDouble];
  mkPy "pseries_dsis.py" 75 "PSeries_dsis" "linear_index" "PSeriesFunction_dsis_linear_coeff" [TObj OSeries; TInts; TIntRef];
  mkPy "pseries_dsis.py" 81 "PSeries_dsis" "tensor_indices" "PSeriesFunction_dsis_tensor_indices" [TObj OSeries; TInt; TInts];
  mkPy "pseries_dsis.py" 88 "PSeries_dsis" "calc" "PSeriesFunction_dsis_calc" [TObj OSeries; TDoubles; TDoubleRef];
  mkPy "pseries_dsis.py" 92 "PSeries_dsis" "calc_grad" "PSeriesFunction_dsis_calc_grad" [TObj OSeries; TDoubles; TInt; TDoubleRef];
  mkPy "pseries_dsis.py" 96 "PSeries_dsis" "calc_hess" "PSeriesFunction_dsis_calc_hess" [TObj OSeries; TDoubles; TInt; TInt; TDoubleRef];
  mkPy "pseries_dsis.py" 104 "PSeries_dsis" "eval" "PSeriesFunction_dsis_eval" [TObj OSeries; TDoubles];
  mkPy "pseries_dsis.py" 107 "PSeries_dsis" "eval_grad" "PSeriesFunction_dsis_eval_grad" [TObj OSeries; TDoubles];
  mkPy "pseries_dsis.py" 110 "PSeries_dsis" "eval_hess" "PSeriesFunction_dsis_eval_hess" [TObj OSeries; TDoubles];
  mkPy "pseries_dsis.py" 113 "PSeries_dsis" "get" "PSeriesFunction_dsis_get" [TObj OSeries; TDoubleRef];
  mkPy "pseries_dsis.py" 117 "PSeries_dsis" "get_grad" "PSeriesFunction_dsis_get_grad" [TObj OSeries; TInt; TDoubleRef];
  mkPy "pseries_dsis.py" 121 "PSeries_dsis" "get_hess" "PSeriesFunction_dsis_get_hess" [TObj OSeries; TInt; TInt; TDoubleRef];
  mkPy "pseries_dsis.py" 132 "PSeries_dsis" "calc_basis" "PSeriesFunction_dsis_calc_basis" [TObj OSeries; TInt; TInt; TDoubles; TDoubleRef];
  mkPy "pseries_dsis.py" 136 "PSeries_dsis" "calc_basis_grad" "PSeriesFunction_dsis_calc_basis_grad" [TObj OSeries; TInt; TInt; TDoubles; TInt; TDoubleRef];
  mkPy "pseries_dsis.py" 140 "PSeries_dsis" "calc_basis_hess" "PSeriesFunction_dsis_calc_basis_hess" [TObj OSeries; TInt; TInt; TDoubles; TInt; TInt; TDoubleRef];
  mkPy "pseries_dsis.py" 146 "PSeries_dsis" "calc_tensor_basis" "PSeriesFunction_dsis_calc_tensor_basis" [TObj OSeries; TInts; TDoubles; TDoubleRef];
  mkPy "pseries_dsis.py" 150 "PSeries_dsis" "calc_tensor_basis_grad" "PSeriesFunction_dsis_calc_tensor_basis_grad" [TObj OSeries; TInts; TDoubles; TInt; TDoubleRef];
  mkPy "pseries_dsis.py" 154 "PSeries_dsis" "calc_tensor_basis_hess" "PSeriesFunction_dsis_calc_tensor_basis_hess" [TObj OSeries; TInts; TDoubles; TInt; TInt; TDoubleRef];
  mkPy "pseries_dsis.py" 162 "PSeries_dsis" "eval_basis_all" "PSeriesFunction_dsis_eval_basis_all" [TObj OSeries; TDoubles];
  mkPy "pseries_dsis.py" 165 "PSeries_dsis" "eval_basis" "PSeriesFunction_dsis_eval_basis" [TObj OSeries; TDoubles; TInt];
  mkPy "pseries_dsis.py" 168 "PSeries_dsis" "eval_basis_grad_all" "PSeriesFunction_dsis_eval_basis_grad_all" [TObj OSeries; TDoubles];
  mkPy "pseries_dsis.py" 171 "PSeries_dsis" "eval_basis_grad" "PSeriesFunction_dsis_eval_basis_grad" [TObj OSeries; TDoubles; TInt];
  mkPy "pseries_dsis.py" 174 "PSeries_dsis" "eval_basis_hess_all" "PSeriesFunction_dsis_eval_basis_hess_all" [TObj OSeries; TDoubles];
  mkPy "pseries_dsis.py" 177 "PSeries_dsis" "eval_basis_hess" "PSeriesFunction_dsis_eval_basis_hess" [TObj OSeries; TDoubles; TInt];
  mkPy "pseries_dsis.py" 181 "PSeries_dsis" "get_basis" "PSeriesFunction_dsis_get_basis" [TObj OSeries; TInt; TInt; TDoubleRef];
  mkPy "pseries_dsis.py" 185 "PSeries_dsis" "get_basis_grad" "PSeriesFunction_dsis_get_basis_grad" [TObj OSeries; TInt; TInt; TDoubleRef];
  mkPy "pseries_dsis.py" 189 "PSeries_dsis" "get_basis_hess" "PSeriesFunction_dsis_get_basis_hess" [TObj OSeries; TInt; TInt; TDoubleRef];
  mkPy "pseries_dsis.py" 195 "PSeries_dsis" "get_tensor_basis" "PSeriesFunction_dsis_get_tensor_basis" [TObj OSeries; TInts; TDoubleRef];
  mkPy "pseries_dsis.py" 199 "PSeries_dsis" "get_tensor_basis_grad" "PSeriesFunction_dsis_get_tensor_basis_grad" [TObj OSeries; TInts; TInt; TDoubleRef];
  mkPy "pseries_dsis.py" 203 "PSeries_dsis" "get_tensor_basis_hess" "PSeriesFunction_dsis_get_tensor_basis_hess" [TObj OSeries; TInts; TInt; TInt; TDoubleRef];
  mkPy "body.py" 8 "Body2D" "__init__" "Body2D_new" [TChars; TObjRef OBody2];
  mkPy "body.py" 14 "Body2D" "delete" "Body2D_delete" [TObjRef OBody2];
  mkPy "body.py" 21 "Body3D" "__init__" "Body3D_new" [TChars; TObjRef OBody3];
  mkPy "body.py" 27 "Body3D" "delete" "Body3D_delete" [TObjRef OBody3]].

(** ** Names
    psimple_dd.py 19-22, psimple_dsd.py 20-23, pfunc_dsd.py 25-28, 34-42, pbasisset_dd.py 20-28: a c_char_p, that is 8 bytes that are a NULL pointer, is
    passed where C copies the name to (PExtern.cc, c_text); then .value reads the text at the address those 8 bytes now are. [None] is
    Python's None, the value of a NULL pointer. No other address is one of a text: UBDangling.
    Simplification: only the bytes count, so the order of the bytes in a pointer does not matter. *)
Definition null_pointer : list ascii := repeat zero 8.
Definition py_text (name : string) : outcome (option string) :=
  let* p := c_text name null_pointer in
  if forallb (Ascii.eqb zero) p then Ok None else UB UBDangling.

Section Series.
Context {O : NumOps}.
Local Notation D := (num O).
Local Notation dset := (bset (num O) (num O)).
Local Notation dseries := (series (num_series O)).

(** pseries_dsis.py 9-25: PSeries_dsis(basis); "basis is []" compares with a new list and is never true. *)
Definition py_is_new_list (basis : list (option dset)) : bool := false.
Definition py_series (basis : list (option dset)) : outcome dseries :=
  if py_is_new_list basis then Ok (dsis_new O) else dsis_setnew basis (Z.of_nat (List.length basis)).

(** pseries_dsis.py 38-43: set. *)
Definition py_set (lib : list (bclass O)) (basis : list (option dset)) : M dseries unit := dsis_set lib basis (Z.of_nat (List.length basis)).

(** pseries_dsis.py 79-82: tensor_indices, with a new array of order() zeros. *)
Definition py_tensor_indices (s : dseries) (l : Z) : outcome (list Z) := dsis_tensor_indices s l (repeat 0 (Z.to_nat (dsis_order s))).

(** pseries_dsis.py 206-211: print_coeff; [str] is Python's str of a float. *)
Definition py_print_coeff (str : D -> text) (s : dseries) : outcome text :=
  ofold (fun out i =>
    let* term := py_tensor_indices s i in
    let* a := dsis_get_linear_coeff s i in
    Ok (out ++ List.concat (map (fun t => print_int t ++ [" "%char]) term) ++ str a ++ [nl])) (zseq (dsis_volume s)) [].

(** readline(): up to and including the next newline, and what is left. *)
Fixpoint readline (t : text) : text * text :=
  match t with
  | [] => ([], [])
  | c :: t' => if Ascii.eqb c nl then ([c], t') else let (l, r) := readline t' in (c :: l, r)
  end.

(** split(): the words between white space; [w] is the word being read, reversed. *)
Fixpoint split_from (w : text) (t : text) : list text :=
  match t with
  | [] => match w with [] => [] | _ => [rev w] end
  | c :: t' => if space c then match w with [] => split_from [] t' | _ => rev w :: split_from [] t' end else split_from (c :: w) t'
  end.
Definition split (t : text) : list text := split_from [] t.

(** How a method ends: it returns, or raises IndexError ([][-1]) or ValueError (float of something else). *)
Inductive pyend : Set := PyDone | PyIndexError | PyValueError.

(** pseries_dsis.py 213-218: read_coeff; [tofloat] is Python's float of a text. The state is the series and the text not yet read. *)
Fixpoint py_read_from (tofloat : text -> option D) (is : list Z) : M (dseries * text) pyend :=
  fun st =>
    match is with
    | [] => RRet st PyDone
    | i :: is' =>
        let (line, rest) := readline (snd st) in
        match rev (split line) with
        | [] => RRet (fst st, rest) PyIndexError
        | w :: _ =>
            match tofloat w with
            | None => RRet (fst st, rest) PyValueError
            | Some a =>
                match dsis_set_linear_coeff i a (fst st) with
                | RRet s' _ => py_read_from tofloat is' (s', rest)
                | RThrow s' e => RThrow (s', rest) e
                | RExit => RExit
                | RUB u => RUB u
                | RNoFuel => RNoFuel
                end
            end
        end
    end.
Definition py_read_coeff (tofloat : text -> option D) : M (dseries * text) pyend :=
  fun st => py_read_from tofloat (zseq (dsis_volume (fst st))) st.
End Series.
