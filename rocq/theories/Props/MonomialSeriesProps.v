(** Properties C60, C63: series of monomials in binary64, and after saving and reading. *)
From Coq Require Import ZArith List Bool Reals.
From Verif Require Import Model.Outcome Model.Num Model.NumInst Model.BasisSet Model.Series Model.Stream Model.SeriesIO Model.Decimal.
From Verif Require Import Spec.Tensor Spec.Basis Spec.Series Spec.SeriesIO Spec.Rounding Spec.SeriesRounding Spec.PolyRounding Spec.Decimal.
From Verif Require Import Proofs.SeriesRoundExamples Proofs.SampleSeriesRoundExamples Proofs.MonomialSeriesRoundP Proofs.MonomialSeriesExamples.
Import ListNotations.
Local Open Scope R_scope.

(** C60. Series of monomials in any number of variables on [-1024, 1024]: the error of the value ... *)
Theorem C60_monomial_series_value : forall pw (bs : list (bset f64 f64)) (one : f64) (s : series DS) (c : list Z -> f64) (xs : list f64),
  Forall (monomial_doubles pw) bs -> fit_sizes (sizes (S := DS) bs) -> series_over (S := DS) bs (nofZ FOps 0) one s ->
  coefficients (S := DS) s (sizes (S := DS) bs) c -> List.length xs = List.length bs -> (Z.of_nat (List.length bs) <= int_max)%Z ->
  Forall (fun x => finite x /\ Rabs (value x) <= 1024) xs -> in_scale (sizes (S := DS) bs) c (monomial_sizes 0 xs) ->
  exists s' a, se_call (S := DS) xs s = RRet s' a /\ se_get s' = Ok a /\ finite a /\
    Rabs (value a - series_fun (sizes (S := DS) bs) (fun t => value (c t)) (monomial_families bs) (map value xs)) <=
      series_error (sizes (S := DS) bs) (29 * unit_roundoff) * size_sum (sizes (S := DS) bs) c (monomial_sizes 0 xs).
Proof. exact mono_value. Qed.
Print Assumptions C60_monomial_series_value.

(** C60. ... of every component of the gradient ... *)
Theorem C60_monomial_series_gradient : forall pw (bs : list (bset f64 f64)) (one : f64) (s : series DS) (c : list Z -> f64) (xs : list f64),
  Forall (monomial_doubles pw) bs -> fit_sizes (sizes (S := DS) bs) -> series_over (S := DS) bs (nofZ FOps 0) one s ->
  coefficients (S := DS) s (sizes (S := DS) bs) c -> List.length xs = List.length bs -> (Z.of_nat (List.length bs) <= int_max)%Z ->
  Forall (fun x => finite x /\ Rabs (value x) <= 1024) xs ->
  forall i, (0 <= i < Z.of_nat (List.length bs))%Z -> in_scale (sizes (S := DS) bs) c (by1 (monomial_sizes 0 xs) (monomial_sizes 1 xs) i) ->
  exists s' a g, se_eval_grad (S := DS) xs s = RRet s' tt /\ se_get_grad s' i = Ok a /\ finite a /\
    partial (series_fun (sizes (S := DS) bs) (fun t => value (c t)) (monomial_families bs)) i (map value xs) g /\
    Rabs (value a - g) <= series_error (sizes (S := DS) bs) (29 * unit_roundoff) * size_sum (sizes (S := DS) bs) c (by1 (monomial_sizes 0 xs) (monomial_sizes 1 xs) i).
Proof. exact mono_gradient. Qed.
Print Assumptions C60_monomial_series_gradient.

(** C60. ... and of the Hessian. *)
Theorem C60_monomial_series_hessian : forall pw (bs : list (bset f64 f64)) (one : f64) (s : series DS) (c : list Z -> f64) (xs : list f64),
  Forall (monomial_doubles pw) bs -> fit_sizes (sizes (S := DS) bs) -> series_over (S := DS) bs (nofZ FOps 0) one s ->
  coefficients (S := DS) s (sizes (S := DS) bs) c -> List.length xs = List.length bs -> (Z.of_nat (List.length bs) <= int_max)%Z ->
  Forall (fun x => finite x /\ Rabs (value x) <= 1024) xs ->
  forall i j, (0 <= i < Z.of_nat (List.length bs))%Z -> (0 <= j < Z.of_nat (List.length bs))%Z ->
  in_scale (sizes (S := DS) bs) c (by2 (monomial_sizes 0 xs) (monomial_sizes 1 xs) (monomial_sizes 2 xs) i j) ->
  exists s' a g, se_eval_hess (S := DS) xs s = RRet s' tt /\ se_get_hess s' i j = Ok a /\ finite a /\
    second (series_fun (sizes (S := DS) bs) (fun t => value (c t)) (monomial_families bs)) i j (map value xs) g /\
    Rabs (value a - g) <= series_error (sizes (S := DS) bs) (29 * unit_roundoff) *
      size_sum (sizes (S := DS) bs) c (by2 (monomial_sizes 0 xs) (monomial_sizes 1 xs) (monomial_sizes 2 xs) i j).
Proof. exact mono_hessian. Qed.
Print Assumptions C60_monomial_series_hessian.

(** For instance 0.4 x y^2 at (0.4, 0.4). *)
Example C60_case_monomial_series : (exists bs s, Forall (monomial_doubles pw0) bs /\ sizes (S := DS) bs = [2; 3]%Z /\ fit_sizes (sizes (S := DS) bs) /\
    series_over (S := DS) bs (nofZ FOps 0) (nofZ FOps 1) s /\ coefficients (S := DS) s (sizes (S := DS) bs) se_c /\
    Forall (fun x => finite x /\ Rabs (value x) <= 1024) se_xs) /\
  in_scale [2; 3]%Z se_c (monomial_sizes 0 se_xs) /\
  (forall i, (0 <= i < 2)%Z -> in_scale [2; 3]%Z se_c (by1 (monomial_sizes 0 se_xs) (monomial_sizes 1 se_xs) i)) /\
  (forall i j, (0 <= i < 2)%Z -> (0 <= j < 2)%Z -> in_scale [2; 3]%Z se_c (by2 (monomial_sizes 0 se_xs) (monomial_sizes 1 se_xs) (monomial_sizes 2 se_xs) i j)).
Proof. exact (conj mono_case mono_scale). Qed.

(** C63, C60. The same for series of monomials that were saved and read again. *)
Theorem C63_saved_monomial : forall pw (bs : list (bset f64 f64)) one one' (s s' : series DS) (c : list Z -> f64) (xs : list f64) rest,
  Forall (monomial_doubles pw) bs -> fit_sizes (sizes (S := DS) bs) -> series_over (S := DS) bs (nofZ FOps 0) one s -> series_over (S := DS) bs (nofZ FOps 0) one' s' ->
  coefficients (S := DS) s (sizes (S := DS) bs) c -> List.length xs = List.length bs -> (Z.of_nat (List.length bs) <= int_max)%Z ->
  Forall (fun x => finite x /\ Rabs (value x) <= 1024) xs -> well_in_scale (sizes (S := DS) bs) c (monomial_sizes 0 xs) ->
  exists t s2 i s3 a, se_print_coeff (S := DS) (print_double 6) s = Ok t /\
    se_read_coeff (S := DS) double_scanner (s', is_open (Some (t ++ rest))) = RRet (s2, i) tt /\ is_fail i = false /\
    se_call (S := DS) xs s2 = RRet s3 a /\ finite a /\
    Rabs (value a - series_fun (sizes (S := DS) bs) (fun t => value (c t)) (monomial_families bs) (map value xs)) <=
      (series_error (sizes (S := DS) bs) (29 * unit_roundoff) * (1 + 5000002 / 1000000000000) + 5000002 / 1000000000000) * size_sum (sizes (S := DS) bs) c (monomial_sizes 0 xs).
Proof. exact saved_monomial. Qed.
Print Assumptions C63_saved_monomial.

Example C63_case_saved_monomial : exists bs s s', Forall (monomial_doubles pw0) bs /\ sizes (S := DS) bs = [2; 3]%Z /\ fit_sizes (sizes (S := DS) bs) /\
  series_over (S := DS) bs (nofZ FOps 0) (nofZ FOps 1) s /\ series_over (S := DS) bs (nofZ FOps 0) (nofZ FOps 1) s' /\ coefficients (S := DS) s (sizes (S := DS) bs) se_c /\
  coefficients (S := DS) s' (sizes (S := DS) bs) (fun _ => nofZ FOps 0) /\
  Forall (fun x => finite x /\ Rabs (value x) <= 1024) se_xs /\ well_in_scale (sizes (S := DS) bs) se_c (monomial_sizes 0 se_xs) /\ (forall t, finite (se_c t)).
Proof. exact saved_mono_case. Qed.
