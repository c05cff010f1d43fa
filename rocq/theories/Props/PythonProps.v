(** C53: the Python package. *)
From Flocq Require Import IEEE754.BinarySingleNaN.
From Coq Require Import ZArith QArith List Ascii String Reals.
From Verif Require Import Model.Outcome Model.Num Model.NumInst Model.PNDArray Model.BasisSet Model.Series Model.Stream Model.SeriesIO Model.CInterface Model.Python
  Spec.Tensor Spec.NDHistory Spec.Basis Spec.Series Spec.Vtk Spec.CInterface Spec.SeriesIO Spec.Python
  Proofs.PythonP Proofs.DigitsP Proofs.SeriesIOExamples Proofs.PythonExamples.
Import ListNotations.
Local Open Scope string_scope.
Local Open Scope list_scope.
Local Open Scope Z_scope.

(** C53. Every one of the 88 calls into the C library is of the function the method is for, with the arguments it takes, except those of the
    12 methods listed. *)
Theorem C53_calls : forall c, In c python_calls -> (fits c <-> ~ In (py_class c, py_method c) misfits).
Proof. exact calls_fit. Qed.
Print Assumptions C53_calls.
Theorem C53_calls_fit_refuted : exists c, In c python_calls /\ ~ fits c.
Proof. exact misfit_witness. Qed.
Print Assumptions C53_calls_fit_refuted.
Example C53_case_calls : List.length python_calls = 88%nat /\
  (exists c, In c python_calls /\ py_method c = "set_linear_coeff" /\ fits c) /\ (exists c, In c python_calls /\ py_method c = "linear_index" /\ ~ fits c).
Proof. exact calls_case. Qed.

(** C53. Every function of the C interface is called by some method, but for three. *)
Theorem C53_reached : forall f line args, In (f, line, args) c_functions -> ((exists c, In c python_calls /\ py_symbol c = f) <-> ~ In f unreached).
Proof. exact reached. Qed.
Print Assumptions C53_reached.
Example C53_case_reached : exists line args, In ("PSeriesFunction_dsis_linear_index", line, args) c_functions.
Proof. exact reached_case. Qed.

(** C53. name(), var_name(), var_description() and description() never return a name: they hand the C function the eight bytes of a null
    pointer to write to, so they return None for an empty name and are undefined for any other. *)
Theorem C53_text : py_text "" = Ok None /\ forall s, plain_text s -> s <> "" -> exists u, py_text s = UB u.
Proof. exact (conj text_empty text_wild). Qed.
Print Assumptions C53_text.
Example C53_case_text : py_text "x" = UB UBDangling /\ py_text "Chebyshev" = UB UBOutOfBounds /\ plain_text "Chebyshev".
Proof. exact text_case. Qed.

(** C53. The empty series the constructor has a branch for cannot be made: without basis sets it is undefined. *)
Theorem C53_series_default_refuted : forall O : NumOps, py_series (O := O) [] = UB UBOutOfBounds.
Proof. exact series_default. Qed.
Print Assumptions C53_series_default_refuted.

(** C53. Over some basis sets it makes the zero series of their shape, with their stored results; set makes the zero series over new sets. *)
Theorem C53_series : forall (O : NumOps) bs, proper_basis (S := num_series O) bs ->
  exists s, py_series (map Some bs) = Ok s /\ series_over (S := num_series O) bs (nofZ O 0) (nofZ O 1) s /\
    has_shape s (sizes (S := num_series O) bs) /\ all_zero s (sizes (S := num_series O) bs) /\
    (forall k j b t, nth_error bs j = Some b -> 0 <= t < bs_size b -> stored_basis (S := num_series O) s k (Z.of_nat j) t = bstored b k t).
Proof. exact series_made. Qed.
Print Assumptions C53_series.
Theorem C53_set : forall (O : NumOps) lib (bs : list (bset (num O) (num O))) s, Forall (library_set lib) bs -> fit_sizes (sizes (S := num_series O) bs) ->
  exists s' bs', py_set lib (map Some bs) s = RRet s' tt /\ Forall (library_set lib) bs' /\ map (@bs_name _ _) bs' = map (@bs_name _ _) bs /\
    series_over (S := num_series O) bs' (se_zero s) (se_one s) s' /\ has_shape s' (sizes (S := num_series O) bs) /\ all_zero s' (sizes (S := num_series O) bs).
Proof. exact series_reset. Qed.
Print Assumptions C53_set.
Example C53_case_series : forall pw, exists bs, proper_basis (S := num_series ROps) bs /\ Forall (library_set (sample_library ROps pw)) bs /\
  sizes (S := num_series ROps) bs = [2; 3] /\ fit_sizes (sizes (S := num_series ROps) bs).
Proof. exact series_case. Qed.

(** C53. print_coeff writes what the C++ print_coeff would, with Python's str for the numbers. *)
Theorem C53_print : forall (O : NumOps) (str : num O -> text) (s : series (num_series O)), nd_reachable (sdflt (num_series O)) (se_coeff s) ->
  exists t, py_print_coeff str s = Ok t /\ se_print_coeff (S := num_series O) str s = Ok t.
Proof. exact (@print_same). Qed.
Print Assumptions C53_print.

(** C53. read_coeff takes the last word of each of the next volume() lines as the coefficients, in order; all else in the series stays. *)
Theorem C53_read : forall (O : NumOps) (tofloat : text -> option (num O)) ls vals (s : series (num_series O)) rest,
  nd_reachable (sdflt (num_series O)) (se_coeff s) ->
  Forall2 (fun l a => exists w, last_word l w /\ tofloat w = Some a) ls vals -> Z.of_nat (List.length ls) = dsis_volume s ->
  py_read_coeff tofloat (s, lines ls ++ rest) = RRet (with_values (S := num_series O) s vals, rest) PyDone.
Proof. exact (@read_all). Qed.
Print Assumptions C53_read.

(** C53. When the text ends too early or has a blank line, an IndexError is raised, and for a word that is no number a ValueError; the
    coefficients of the lines before it have been replaced. *)
Theorem C53_read_stops : forall (O : NumOps) (tofloat : text -> option (num O)) ls vals (s : series (num_series O)),
  nd_reachable (sdflt (num_series O)) (se_coeff s) ->
  Forall2 (fun l a => exists w, last_word l w /\ tofloat w = Some a) ls vals -> Z.of_nat (List.length ls) < dsis_volume s ->
  let s' := with_values (S := num_series O) s (vals ++ skipn (List.length ls) (nd_val (se_coeff s))) in
  py_read_coeff tofloat (s, lines ls) = RRet (s', []) PyIndexError /\
  (forall l rest, blank_line l -> py_read_coeff tofloat (s, lines ls ++ l ++ newline :: rest) = RRet (s', rest) PyIndexError) /\
  (forall l w rest, last_word l w -> tofloat w = None -> py_read_coeff tofloat (s, lines ls ++ l ++ newline :: rest) = RRet (s', rest) PyValueError).
Proof. exact (@read_stops). Qed.
Print Assumptions C53_read_stops.
Example C53_case_lines : Forall2 (fun l a => exists w, last_word l w /\ q_float w = Some a) (firstn 2 q_lines) [inject_Z 4; inject_Z (-1)].
Proof. exact q_lines_ok. Qed.
Example C53_case_loose : shown (py_read_coeff (O := QOps) q_float (q_series [0; 0; 0; 0; 0; 0], lines q_lines)) =
  Some (map inject_Z [4; -1; 0; 7; 12; -30], [], PyDone).
Proof. exact q_loose. Qed.
Example C53_case_short : shown (py_read_coeff (O := QOps) q_float (q_series [9; 9; 9; 9; 9; 9], lines (firstn 2 q_lines))) =
  Some (map inject_Z [4; -1; 9; 9; 9; 9], [], PyIndexError).
Proof. exact q_short. Qed.
Example C53_case_bad : shown (py_read_coeff (O := QOps) q_float (q_series [9; 9; 9; 9; 9; 9], lines (firstn 2 q_lines ++ [txt "0 2 nil"; txt "7"]))) =
  Some (map inject_Z [4; -1; 9; 9; 9; 9], lines [txt "7"], PyValueError).
Proof. exact q_bad. Qed.

(** C53. Printing and then reading into any series with as many coefficients restores them, when float undoes str. *)
Theorem C53_print_then_read : forall (O : NumOps) (str : num O -> text) (tofloat : text -> option (num O)) (s s' : series (num_series O)) rest,
  (forall a, word (str a)) -> (forall a, In a (nd_val (se_coeff s)) -> tofloat (str a) = Some a) ->
  nd_reachable (sdflt (num_series O)) (se_coeff s) -> nd_reachable (sdflt (num_series O)) (se_coeff s') -> dsis_volume s' = dsis_volume s ->
  exists t, py_print_coeff str s = Ok t /\
    py_read_coeff tofloat (s', t ++ rest) = RRet (with_values (S := num_series O) s' (nd_val (se_coeff s)), rest) PyDone.
Proof. exact print_then_read. Qed.
Print Assumptions C53_print_then_read.
Example C53_case_hypotheses : let s := q_series [4; -1; 0; 7; 12; -30] in
  (forall a, word (q_str a)) /\ (forall a, In a (nd_val (se_coeff s)) -> q_float (q_str a) = Some a) /\
  nd_reachable (sdflt (num_series QOps)) (se_coeff s) /\ nd_reachable (sdflt (num_series QOps)) (se_coeff (q_series [0; 0; 0; 0; 0; 0])) /\
  dsis_volume (O := QOps) (q_series [0; 0; 0; 0; 0; 0]) = dsis_volume (O := QOps) s.
Proof. exact q_hypotheses. Qed.
Example C53_case_print_read : py_print_coeff (O := QOps) q_str (q_series [4; -1; 0; 7; 12; -30]) = Ok io_text /\
  shown (py_read_coeff (O := QOps) q_float (q_series [0; 0; 0; 0; 0; 0], io_text ++ txt "more")) = Some (map inject_Z [4; -1; 0; 7; 12; -30], txt "more", PyDone).
Proof. exact (conj q_printed q_read). Qed.

(** C53, C36. float cannot undo a str with up to 16 significant digits (12 in Python 2, 6 in a C++ stream by default): some different series
    print alike. *)
Theorem C53_digits_lost_refuted : forall p (show : f64 -> text), 1 <= p <= 16 -> shows_digits p B2R show ->
  exists s s' : series (num_series FOps), nd_reachable (sdflt (num_series FOps)) (se_coeff s) /\ nd_reachable (sdflt (num_series FOps)) (se_coeff s') /\
    nd_dim (se_coeff s) = nd_dim (se_coeff s') /\ nd_val (se_coeff s) <> nd_val (se_coeff s') /\
    se_print_coeff (S := num_series FOps) show s = se_print_coeff (S := num_series FOps) show s' /\
    py_print_coeff (O := FOps) show s = py_print_coeff (O := FOps) show s'.
Proof. exact digits_printed_both. Qed.
Print Assumptions C53_digits_lost_refuted.
(** C53, C36. 17 digits tell all doubles apart. *)
Theorem C53_digits_enough : forall (x y : f64) m e, rounds_to 17 (B2R x) m e -> rounds_to 17 (B2R y) m e -> B2R x = B2R y.
Proof. exact digits_apart. Qed.
Print Assumptions C53_digits_enough.
(** C53. The digits of a number are determined, so there is such a [show] that writes them out. *)
Theorem C53_digits_unique : forall p x m e m' e', 0 <= p -> rounds_to p x m e -> rounds_to p x m' e' -> m = m' /\ e = e'.
Proof. exact rounds_unique. Qed.
Print Assumptions C53_digits_unique.
Example C53_case_digits : rounds_to 12 (1 / 3)%R 333333333333 (-12) /\ rounds_to 3 (999 + 4 / 10)%R 999 0 /\ rounds_to 3 (999 + 6 / 10)%R 100 1.
Proof. exact third_digits. Qed.
Example C53_case_digits_17 : exists x : f64, rounds_to 17 (B2R x) 10000000000000000 (-16).
Proof. exact one_digits. Qed.
