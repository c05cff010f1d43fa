(** Property C63: series of doubles that were saved and read again. *)
From Coq Require Import ZArith List Bool Reals.
From Verif Require Import Model.Outcome Model.Num Model.NumInst Model.BasisSet Model.Series Model.Stream Model.SeriesIO Model.Decimal.
From Verif Require Import Spec.Tensor Spec.Basis Spec.Series Spec.SeriesIO Spec.Rounding Spec.SeriesRounding Spec.PolyRounding Spec.Decimal.
From Verif Require Import Proofs.SeriesRoundExamples Proofs.SampleSeriesRoundExamples Proofs.SavedSeriesP Proofs.SavedSeriesExamples.
Import ListNotations.
Local Open Scope R_scope.

(** C63. print_coeff with the default precision, read_coeff into another series over the same basis sets, and evaluating that: every step succeeds, and the value
    differs from the one meant by the coefficients saved by the rounding errors of C59 and five millionths of the sum of the sizes of the terms. *)
Theorem C63_saved_series : forall (bs : list (bset (sx DS) (sa DS))) one one' (s s' : series DS) (c : list Z -> f64) rest, proper_basis bs ->
  series_over (S := DS) bs (nofZ FOps 0) one s -> series_over (S := DS) bs (nofZ FOps 0) one' s' -> coefficients s (sizes bs) c ->
  forall phis Phis Bs delta (xs : list f64), implements (S := DS) KVal bs phis -> List.length xs = List.length bs -> modest (sizes bs) delta ->
  close_to (sizes bs) delta (at_point phis xs) (at_point Phis (map value xs)) Bs -> well_in_scale (sizes bs) c Bs ->
  exists t s2 i s3 a, se_print_coeff (S := DS) (print_double 6) s = Ok t /\
    se_read_coeff (S := DS) double_scanner (s', is_open (Some (t ++ rest))) = RRet (s2, i) tt /\ is_fail i = false /\
    se_call (S := DS) xs s2 = RRet s3 a /\ finite a /\
    Rabs (value a - series_fun (sizes bs) (fun t => value (c t)) Phis (map value xs)) <=
      (series_error (sizes bs) delta * (1 + 5000002 / 1000000000000) + 5000002 / 1000000000000) * size_sum (sizes bs) c Bs.
Proof. exact saved_six. Qed.
Print Assumptions C63_saved_series.

Example C63_case_saved : proper_basis (S := DS) se_bs /\ (exists s s', series_over (S := DS) se_bs (nofZ FOps 0) (nofZ FOps 1) s /\
    series_over (S := DS) se_bs (nofZ FOps 0) (nofZ FOps 1) s' /\ coefficients (S := DS) s (sizes (S := DS) se_bs) se_c) /\
  implements (S := DS) KVal se_bs se_phis /\ List.length se_xs = List.length se_bs /\ modest (sizes (S := DS) se_bs) unit_roundoff /\
  close_to (sizes (S := DS) se_bs) unit_roundoff (at_point se_phis se_xs) (at_point se_Phis (map value se_xs)) se_Bs /\ well_in_scale (sizes (S := DS) se_bs) se_c se_Bs.
Proof. exact (conj se_proper (conj saved_case_plain (conj (proj1 se_implements) (conj eq_refl (conj se_modest (conj se_close saved_plain_scale)))))). Qed.

(** C63, C60. For instance series of Chebyshev polynomials in any number of variables on [-1, 1]. *)
Theorem C63_saved_chebyshev : forall pw (bs : list (bset f64 f64)) one one' (s s' : series DS) (c : list Z -> f64) (xs : list f64) rest,
  Forall (chebyshev_doubles pw) bs -> fit_sizes (sizes (S := DS) bs) -> series_over (S := DS) bs (nofZ FOps 0) one s -> series_over (S := DS) bs (nofZ FOps 0) one' s' ->
  coefficients (S := DS) s (sizes (S := DS) bs) c -> List.length xs = List.length bs -> (Z.of_nat (List.length bs) <= int_max)%Z ->
  Forall (fun x => finite x /\ Rabs (value x) <= 1) xs -> well_in_scale (sizes (S := DS) bs) c (chebyshev_sizes 0 xs) ->
  exists t s2 i s3 a, se_print_coeff (S := DS) (print_double 6) s = Ok t /\
    se_read_coeff (S := DS) double_scanner (s', is_open (Some (t ++ rest))) = RRet (s2, i) tt /\ is_fail i = false /\
    se_call (S := DS) xs s2 = RRet s3 a /\ finite a /\
    Rabs (value a - series_fun (sizes (S := DS) bs) (fun t => value (c t)) (chebyshev_families bs) (map value xs)) <=
      (series_error (sizes (S := DS) bs) (41 * unit_roundoff) * (1 + 5000002 / 1000000000000) + 5000002 / 1000000000000) * size_sum (sizes (S := DS) bs) c (chebyshev_sizes 0 xs).
Proof. exact saved_chebyshev. Qed.
Print Assumptions C63_saved_chebyshev.

Example C63_case_saved_chebyshev : exists bs s s', Forall (chebyshev_doubles pw0) bs /\ sizes (S := DS) bs = [2; 3]%Z /\ fit_sizes (sizes (S := DS) bs) /\
  series_over (S := DS) bs (nofZ FOps 0) (nofZ FOps 1) s /\ series_over (S := DS) bs (nofZ FOps 0) (nofZ FOps 1) s' /\ coefficients (S := DS) s (sizes (S := DS) bs) se_c /\
  coefficients (S := DS) s' (sizes (S := DS) bs) (fun _ => nofZ FOps 0) /\
  Forall (fun x => finite x /\ Rabs (value x) <= 1) se_xs /\ well_in_scale (sizes (S := DS) bs) se_c (chebyshev_sizes 0 se_xs) /\ (forall t, finite (se_c t)).
Proof. exact saved_case. Qed.

(** C63. If the stream's precision is set to 17, the series read gives the very doubles the series saved gives. *)
Theorem C63_saved_seventeen : forall (bs : list (bset (sx DS) (sa DS))) one one' (s s' : series DS) (c : list Z -> f64) rest, proper_basis bs ->
  series_over (S := DS) bs (nofZ FOps 0) one s -> series_over (S := DS) bs (nofZ FOps 0) one' s' -> coefficients s (sizes bs) c ->
  (forall t, valid_index (sizes bs) t -> finite (c t)) ->
  forall phis (xs : list f64), implements (S := DS) KVal bs phis -> List.length xs = List.length bs ->
  exists t s2 i s3 s4 a, se_print_coeff (S := DS) (print_double 17) s = Ok t /\
    se_read_coeff (S := DS) double_scanner (s', is_open (Some (t ++ rest))) = RRet (s2, i) tt /\ is_fail i = false /\
    se_call (S := DS) xs s2 = RRet s3 a /\ se_call (S := DS) xs s = RRet s4 a.
Proof. exact saved_seventeen. Qed.
Print Assumptions C63_saved_seventeen.
