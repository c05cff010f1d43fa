(** Property C63: derivatives of series of doubles that were saved and read again. *)
From Coq Require Import ZArith List Bool Reals.
From Verif Require Import Model.Outcome Model.Num Model.NumInst Model.BasisSet Model.Series Model.Stream Model.SeriesIO Model.Decimal.
From Verif Require Import Spec.Tensor Spec.Basis Spec.Series Spec.SeriesIO Spec.Rounding Spec.SeriesRounding Spec.PolyRounding Spec.Decimal.
From Verif Require Import Proofs.SeriesRoundExamples Proofs.SavedSeriesExamples Proofs.SavedDerivativesP Proofs.SavedDerivativesExamples.
Import ListNotations.
Local Open Scope R_scope.

(** C63. The gradient of a series read from a table with six digits: within the rounding errors of C59 and five millionths of the sizes of the terms of
    the true partial derivative of the series saved. *)
Theorem C63_saved_gradient : forall (bs : list (bset (sx DS) (sa DS))) one one' (s s' : series DS) (c : list Z -> f64) rest, proper_basis bs ->
  series_over (S := DS) bs (nofZ FOps 0) one s -> series_over (S := DS) bs (nofZ FOps 0) one' s' -> coefficients s (sizes bs) c ->
  forall phis dphis Phis dPhis Bs dBs delta (xs : list f64) i, implements (S := DS) KVal bs phis -> implements (S := DS) KGrad bs dphis ->
  List.length xs = List.length bs -> derivatives Phis dPhis -> List.length Phis = List.length bs -> modest (sizes bs) delta ->
  close_to (sizes bs) delta (at_point phis xs) (at_point Phis (map value xs)) Bs -> close_to (sizes bs) delta (at_point dphis xs) (at_point dPhis (map value xs)) dBs ->
  (0 <= i < Z.of_nat (List.length bs))%Z -> well_in_scale (sizes bs) c (by1 Bs dBs i) ->
  exists t s2 st s3 a g, se_print_coeff (S := DS) (print_double 6) s = Ok t /\
    se_read_coeff (S := DS) double_scanner (s', is_open (Some (t ++ rest))) = RRet (s2, st) tt /\ is_fail st = false /\
    se_eval_grad (S := DS) xs s2 = RRet s3 tt /\ se_get_grad s3 i = Ok a /\ finite a /\
    partial (series_fun (sizes bs) (fun t => value (c t)) Phis) i (map value xs) g /\
    Rabs (value a - g) <= (series_error (sizes bs) delta * (1 + 5000002 / 1000000000000) + 5000002 / 1000000000000) * size_sum (sizes bs) c (by1 Bs dBs i).
Proof. exact saved_gradient. Qed.
Print Assumptions C63_saved_gradient.

(** C63. Its Hessian. *)
Theorem C63_saved_hessian : forall (bs : list (bset (sx DS) (sa DS))) one one' (s s' : series DS) (c : list Z -> f64) rest, proper_basis bs ->
  series_over (S := DS) bs (nofZ FOps 0) one s -> series_over (S := DS) bs (nofZ FOps 0) one' s' -> coefficients s (sizes bs) c ->
  forall phis dphis ddphis Phis dPhis ddPhis Bs dBs ddBs delta (xs : list f64) i j, implements (S := DS) KVal bs phis -> implements (S := DS) KGrad bs dphis ->
  implements (S := DS) KHess bs ddphis -> List.length xs = List.length bs -> derivatives Phis dPhis -> derivatives dPhis ddPhis -> List.length Phis = List.length bs -> modest (sizes bs) delta ->
  close_to (sizes bs) delta (at_point phis xs) (at_point Phis (map value xs)) Bs -> close_to (sizes bs) delta (at_point dphis xs) (at_point dPhis (map value xs)) dBs ->
  close_to (sizes bs) delta (at_point ddphis xs) (at_point ddPhis (map value xs)) ddBs ->
  (0 <= i < Z.of_nat (List.length bs))%Z -> (0 <= j < Z.of_nat (List.length bs))%Z -> well_in_scale (sizes bs) c (by2 Bs dBs ddBs i j) ->
  exists t s2 st s3 a g, se_print_coeff (S := DS) (print_double 6) s = Ok t /\
    se_read_coeff (S := DS) double_scanner (s', is_open (Some (t ++ rest))) = RRet (s2, st) tt /\ is_fail st = false /\
    se_eval_hess (S := DS) xs s2 = RRet s3 tt /\ se_get_hess s3 i j = Ok a /\ finite a /\
    second (series_fun (sizes bs) (fun t => value (c t)) Phis) i j (map value xs) g /\
    Rabs (value a - g) <= (series_error (sizes bs) delta * (1 + 5000002 / 1000000000000) + 5000002 / 1000000000000) * size_sum (sizes bs) c (by2 Bs dBs ddBs i j).
Proof. exact saved_hessian. Qed.
Print Assumptions C63_saved_hessian.

(** For instance 0.4 x y^2 at (0.4, 0.4); the other hypotheses are those of C63_case_saved. *)
Example C63_case_saved_derivatives :
  (implements (S := DS) KGrad se_bs se_dphis /\ implements (S := DS) KHess se_bs se_ddphis) /\ (derivatives se_Phis se_dPhis /\ derivatives se_dPhis se_ddPhis) /\
  List.length se_Phis = List.length se_bs /\
  close_to (sizes (S := DS) se_bs) unit_roundoff (at_point se_dphis se_xs) (at_point se_dPhis (map value se_xs)) se_dBs /\
  close_to (sizes (S := DS) se_bs) unit_roundoff (at_point se_ddphis se_xs) (at_point se_ddPhis (map value se_xs)) se_dBs /\
  (forall i, (0 <= i < 2)%Z -> well_in_scale (sizes (S := DS) se_bs) se_c (by1 se_Bs se_dBs i)) /\
  (forall i j, (0 <= i < 2)%Z -> (0 <= j < 2)%Z -> well_in_scale (sizes (S := DS) se_bs) se_c (by2 se_Bs se_dBs se_dBs i j)).
Proof. exact (conj (proj2 se_implements) (conj se_derivatives (conj eq_refl (conj se_dclose (conj se_ddclose (conj saved_plain_grad saved_plain_hess)))))). Qed.

(** C63, C60. The gradient of a series of Chebyshev polynomials that was saved and read. *)
Theorem C63_saved_chebyshev_gradient : forall pw (bs : list (bset f64 f64)) one one' (s s' : series DS) (c : list Z -> f64) (xs : list f64) rest,
  Forall (chebyshev_doubles pw) bs -> fit_sizes (sizes (S := DS) bs) -> series_over (S := DS) bs (nofZ FOps 0) one s -> series_over (S := DS) bs (nofZ FOps 0) one' s' ->
  coefficients (S := DS) s (sizes (S := DS) bs) c -> List.length xs = List.length bs -> (Z.of_nat (List.length bs) <= int_max)%Z ->
  Forall (fun x => finite x /\ Rabs (value x) <= 1) xs ->
  forall i, (0 <= i < Z.of_nat (List.length bs))%Z -> well_in_scale (sizes (S := DS) bs) c (by1 (chebyshev_sizes 0 xs) (chebyshev_sizes 1 xs) i) ->
  exists t s2 st s3 a g, se_print_coeff (S := DS) (print_double 6) s = Ok t /\
    se_read_coeff (S := DS) double_scanner (s', is_open (Some (t ++ rest))) = RRet (s2, st) tt /\ is_fail st = false /\
    se_eval_grad (S := DS) xs s2 = RRet s3 tt /\ se_get_grad s3 i = Ok a /\ finite a /\
    partial (series_fun (sizes (S := DS) bs) (fun t => value (c t)) (chebyshev_families bs)) i (map value xs) g /\
    Rabs (value a - g) <= (series_error (sizes (S := DS) bs) (41 * unit_roundoff) * (1 + 5000002 / 1000000000000) + 5000002 / 1000000000000) *
      size_sum (sizes (S := DS) bs) c (by1 (chebyshev_sizes 0 xs) (chebyshev_sizes 1 xs) i).
Proof. exact saved_chebyshev_gradient. Qed.
Print Assumptions C63_saved_chebyshev_gradient.

(** C63, C60. The hessian of a series of Chebyshev polynomials that was saved and read. *)
Theorem C63_saved_chebyshev_hessian : forall pw (bs : list (bset f64 f64)) one one' (s s' : series DS) (c : list Z -> f64) (xs : list f64) rest,
  Forall (chebyshev_doubles pw) bs -> fit_sizes (sizes (S := DS) bs) -> series_over (S := DS) bs (nofZ FOps 0) one s -> series_over (S := DS) bs (nofZ FOps 0) one' s' ->
  coefficients (S := DS) s (sizes (S := DS) bs) c -> List.length xs = List.length bs -> (Z.of_nat (List.length bs) <= int_max)%Z ->
  Forall (fun x => finite x /\ Rabs (value x) <= 1) xs ->
  forall i j, (0 <= i < Z.of_nat (List.length bs))%Z -> (0 <= j < Z.of_nat (List.length bs))%Z ->
  well_in_scale (sizes (S := DS) bs) c (by2 (chebyshev_sizes 0 xs) (chebyshev_sizes 1 xs) (chebyshev_sizes 2 xs) i j) ->
  exists t s2 st s3 a g, se_print_coeff (S := DS) (print_double 6) s = Ok t /\
    se_read_coeff (S := DS) double_scanner (s', is_open (Some (t ++ rest))) = RRet (s2, st) tt /\ is_fail st = false /\
    se_eval_hess (S := DS) xs s2 = RRet s3 tt /\ se_get_hess s3 i j = Ok a /\ finite a /\
    second (series_fun (sizes (S := DS) bs) (fun t => value (c t)) (chebyshev_families bs)) i j (map value xs) g /\
    Rabs (value a - g) <= (series_error (sizes (S := DS) bs) (41 * unit_roundoff) * (1 + 5000002 / 1000000000000) + 5000002 / 1000000000000) *
      size_sum (sizes (S := DS) bs) c (by2 (chebyshev_sizes 0 xs) (chebyshev_sizes 1 xs) (chebyshev_sizes 2 xs) i j).
Proof. exact saved_chebyshev_hessian. Qed.
Print Assumptions C63_saved_chebyshev_hessian.

(** The series of C63_case_saved_chebyshev. *)
Example C63_case_saved_chebyshev_derivatives :
  (forall i, (0 <= i < 2)%Z -> well_in_scale [2; 3]%Z se_c (by1 (chebyshev_sizes 0 se_xs) (chebyshev_sizes 1 se_xs) i)) /\
  (forall i j, (0 <= i < 2)%Z -> (0 <= j < 2)%Z -> well_in_scale [2; 3]%Z se_c (by2 (chebyshev_sizes 0 se_xs) (chebyshev_sizes 1 se_xs) (chebyshev_sizes 2 se_xs) i j)).
Proof. exact saved_cheb_scale. Qed.

(** C63, C60. The gradient of a series of monomials that was saved and read. *)
Theorem C63_saved_monomial_gradient : forall pw (bs : list (bset f64 f64)) one one' (s s' : series DS) (c : list Z -> f64) (xs : list f64) rest,
  Forall (monomial_doubles pw) bs -> fit_sizes (sizes (S := DS) bs) -> series_over (S := DS) bs (nofZ FOps 0) one s -> series_over (S := DS) bs (nofZ FOps 0) one' s' ->
  coefficients (S := DS) s (sizes (S := DS) bs) c -> List.length xs = List.length bs -> (Z.of_nat (List.length bs) <= int_max)%Z ->
  Forall (fun x => finite x /\ Rabs (value x) <= 1024) xs ->
  forall i, (0 <= i < Z.of_nat (List.length bs))%Z -> well_in_scale (sizes (S := DS) bs) c (by1 (monomial_sizes 0 xs) (monomial_sizes 1 xs) i) ->
  exists t s2 st s3 a g, se_print_coeff (S := DS) (print_double 6) s = Ok t /\
    se_read_coeff (S := DS) double_scanner (s', is_open (Some (t ++ rest))) = RRet (s2, st) tt /\ is_fail st = false /\
    se_eval_grad (S := DS) xs s2 = RRet s3 tt /\ se_get_grad s3 i = Ok a /\ finite a /\
    partial (series_fun (sizes (S := DS) bs) (fun t => value (c t)) (monomial_families bs)) i (map value xs) g /\
    Rabs (value a - g) <= (series_error (sizes (S := DS) bs) (29 * unit_roundoff) * (1 + 5000002 / 1000000000000) + 5000002 / 1000000000000) *
      size_sum (sizes (S := DS) bs) c (by1 (monomial_sizes 0 xs) (monomial_sizes 1 xs) i).
Proof. exact saved_monomial_gradient. Qed.
Print Assumptions C63_saved_monomial_gradient.

(** C63, C60. The hessian of a series of monomials that was saved and read. *)
Theorem C63_saved_monomial_hessian : forall pw (bs : list (bset f64 f64)) one one' (s s' : series DS) (c : list Z -> f64) (xs : list f64) rest,
  Forall (monomial_doubles pw) bs -> fit_sizes (sizes (S := DS) bs) -> series_over (S := DS) bs (nofZ FOps 0) one s -> series_over (S := DS) bs (nofZ FOps 0) one' s' ->
  coefficients (S := DS) s (sizes (S := DS) bs) c -> List.length xs = List.length bs -> (Z.of_nat (List.length bs) <= int_max)%Z ->
  Forall (fun x => finite x /\ Rabs (value x) <= 1024) xs ->
  forall i j, (0 <= i < Z.of_nat (List.length bs))%Z -> (0 <= j < Z.of_nat (List.length bs))%Z ->
  well_in_scale (sizes (S := DS) bs) c (by2 (monomial_sizes 0 xs) (monomial_sizes 1 xs) (monomial_sizes 2 xs) i j) ->
  exists t s2 st s3 a g, se_print_coeff (S := DS) (print_double 6) s = Ok t /\
    se_read_coeff (S := DS) double_scanner (s', is_open (Some (t ++ rest))) = RRet (s2, st) tt /\ is_fail st = false /\
    se_eval_hess (S := DS) xs s2 = RRet s3 tt /\ se_get_hess s3 i j = Ok a /\ finite a /\
    second (series_fun (sizes (S := DS) bs) (fun t => value (c t)) (monomial_families bs)) i j (map value xs) g /\
    Rabs (value a - g) <= (series_error (sizes (S := DS) bs) (29 * unit_roundoff) * (1 + 5000002 / 1000000000000) + 5000002 / 1000000000000) *
      size_sum (sizes (S := DS) bs) c (by2 (monomial_sizes 0 xs) (monomial_sizes 1 xs) (monomial_sizes 2 xs) i j).
Proof. exact saved_monomial_hessian. Qed.
Print Assumptions C63_saved_monomial_hessian.

(** The series of C63_case_saved_monomial. *)
Example C63_case_saved_monomial_derivatives :
  (forall i, (0 <= i < 2)%Z -> well_in_scale [2; 3]%Z se_c (by1 (monomial_sizes 0 se_xs) (monomial_sizes 1 se_xs) i)) /\
  (forall i j, (0 <= i < 2)%Z -> (0 <= j < 2)%Z -> well_in_scale [2; 3]%Z se_c (by2 (monomial_sizes 0 se_xs) (monomial_sizes 1 se_xs) (monomial_sizes 2 se_xs) i j)).
Proof. exact saved_mono_scale. Qed.
