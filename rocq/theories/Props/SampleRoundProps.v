(** Property C60: the sample basis sets evaluated in binary64. *)
From Coq Require Import ZArith List Reals.
From Flocq Require Import Core.Raux Core.Zaux.
From Verif Require Import Model.Outcome Model.Num Model.NumInst Model.BasisSet Model.Series Model.Samples.
From Verif Require Import Spec.Tensor Spec.Basis Spec.Series Spec.Poly Spec.Rounding Spec.SeriesRounding Spec.PolyRounding.
From Verif Require Import Proofs.SeriesRoundExamples Proofs.SampleRoundExamples Proofs.SampleSeriesRoundP Proofs.SampleSeriesRoundExamples.
Import ListNotations.
Local Open Scope R_scope.

(** C60. Chebyshev polynomials on [-1, 1]: values, first and second derivatives are finite and within 41 roundoffs of the exact
    ones, relative to the polynomial with all signs positive. Every term, every double, after any calls and resizings. *)
Theorem C60_chebyshev_error : forall pw (d : f64) N (b0 b : bset f64 f64), (0 <= N)%Z -> chebyshev_set FOps pw d N = Ok b0 -> later d b0 b ->
  (0 <= bs_size b <= 30)%Z /\ offers_within b chebyshev growth 1 (41 * unit_roundoff) (bpow radix2 (-980)).
Proof. exact chebyshev64. Qed.
Print Assumptions C60_chebyshev_error.

(** C60. Monomials: within 29 roundoffs, relative to the exact value, apart from underflow; on [-1, 1] and on [-1024, 1024]. *)
Theorem C60_monomial_error : forall pw (d : f64) N (b0 b : bset f64 f64), (0 <= N)%Z -> monomial_set FOps pw d N = Ok b0 -> later d b0 b ->
  (0 <= bs_size b <= 30)%Z /\
  offers_within b (fun n x => x ^ n) (fun n x => x ^ n) 1 (29 * unit_roundoff) (bpow radix2 (-1028)) /\
  offers_within b (fun n x => x ^ n) (fun n x => x ^ n) 1024 (29 * unit_roundoff) (bpow radix2 (-791)).
Proof. exact monomial64. Qed.
Print Assumptions C60_monomial_error.

(** Both sets can be made with all 30 terms, and there are points to evaluate them at. *)
Example C60_case_sets :
  (exists b : bset f64 f64, chebyshev_set FOps (fun a _ => a) (nofZ FOps 0) 30 = Ok b /\ later (nofZ FOps 0 : f64) b b /\ bs_size b = 30%Z) /\
  (exists b : bset f64 f64, monomial_set FOps (fun a _ => a) (nofZ FOps 0) 30 = Ok b /\ later (nofZ FOps 0 : f64) b b /\ bs_size b = 30%Z) /\
  finite bad_x /\ Rabs (value bad_x) <= 1.
Proof. exact made64. Qed.

(** C60. The size the error is relative to grows by a factor of at most 1 + sqrt 2 per degree. *)
Theorem C60_growth : forall n x, 0 <= x <= 1 -> growth n x <= (1 + sqrt 2) ^ n.
Proof. exact growth_power. Qed.
Print Assumptions C60_growth.

Example C60_growth_case : 0 <= 1 <= 1 /\ growth 3 1 = 7.
Proof. split; [split; [apply Rle_0_1|apply Rle_refl]|simpl; ring]. Qed.

(** C60. So every value is within 0.0003 of the Chebyshev polynomial... *)
Theorem C60_chebyshev_absolute : forall pw (d : f64) N (b0 b : bset f64 f64) t (x : f64), (0 <= N)%Z -> chebyshev_set FOps pw d N = Ok b0 -> later d b0 b ->
  (0 <= t < bs_size b)%Z -> finite x -> Rabs (value x) <= 1 ->
  exists y, res_outcome (bs_call t x b) = Ok y /\ finite y /\ Rabs (value y - chebyshev (Z.to_nat t) (value x)) <= 3 / 10000.
Proof. exact chebyshev64_absolute. Qed.
Print Assumptions C60_chebyshev_absolute.

(** C60. ... but not within 0.00001: the sum of monomials cancels, and T_29 keeps fewer digits than a float has, although no
    Chebyshev polynomial exceeds 1 on [-1, 1]. *)
Theorem C60_chebyshev_digits_refuted : exists (x y : f64) b b', chebyshev_set FOps (fun a _ => a) (nofZ FOps 0) 30 = Ok b /\ finite x /\ Rabs (value x) <= 1 /\
  bs_call 29 x b = RRet b' y /\ Rabs (value y - chebyshev 29 (value x)) > 1 / 100000.
Proof. exact digits_lost. Qed.
Print Assumptions C60_chebyshev_digits_refuted.

(** C60. Series of Chebyshev polynomials in any number of variables on [-1, 1]: the error of the value ... *)
Theorem C60_series_value : forall pw (bs : list (bset f64 f64)) (one : f64) (s : series DS) (c : list Z -> f64) (xs : list f64),
  Forall (chebyshev_doubles pw) bs -> fit_sizes (sizes (S := DS) bs) -> series_over (S := DS) bs (nofZ FOps 0) one s ->
  coefficients (S := DS) s (sizes (S := DS) bs) c -> List.length xs = List.length bs -> (Z.of_nat (List.length bs) <= int_max)%Z ->
  Forall (fun x => finite x /\ Rabs (value x) <= 1) xs -> in_scale (sizes (S := DS) bs) c (chebyshev_sizes 0 xs) ->
  exists s' a, se_call (S := DS) xs s = RRet s' a /\ se_get s' = Ok a /\ finite a /\
    Rabs (value a - series_fun (sizes (S := DS) bs) (fun t => value (c t)) (chebyshev_families bs) (map value xs)) <=
      series_error (sizes (S := DS) bs) (41 * unit_roundoff) * size_sum (sizes (S := DS) bs) c (chebyshev_sizes 0 xs).
Proof. exact cheb_value. Qed.
Print Assumptions C60_series_value.

(** C60. ... of every component of the gradient ... *)
Theorem C60_series_gradient : forall pw (bs : list (bset f64 f64)) (one : f64) (s : series DS) (c : list Z -> f64) (xs : list f64),
  Forall (chebyshev_doubles pw) bs -> fit_sizes (sizes (S := DS) bs) -> series_over (S := DS) bs (nofZ FOps 0) one s ->
  coefficients (S := DS) s (sizes (S := DS) bs) c -> List.length xs = List.length bs -> (Z.of_nat (List.length bs) <= int_max)%Z ->
  Forall (fun x => finite x /\ Rabs (value x) <= 1) xs ->
  forall i, (0 <= i < Z.of_nat (List.length bs))%Z -> in_scale (sizes (S := DS) bs) c (by1 (chebyshev_sizes 0 xs) (chebyshev_sizes 1 xs) i) ->
  exists s' a g, se_eval_grad (S := DS) xs s = RRet s' tt /\ se_get_grad s' i = Ok a /\ finite a /\
    partial (series_fun (sizes (S := DS) bs) (fun t => value (c t)) (chebyshev_families bs)) i (map value xs) g /\
    Rabs (value a - g) <= series_error (sizes (S := DS) bs) (41 * unit_roundoff) * size_sum (sizes (S := DS) bs) c (by1 (chebyshev_sizes 0 xs) (chebyshev_sizes 1 xs) i).
Proof. exact cheb_gradient. Qed.
Print Assumptions C60_series_gradient.

(** C60. ... and of the Hessian. *)
Theorem C60_series_hessian : forall pw (bs : list (bset f64 f64)) (one : f64) (s : series DS) (c : list Z -> f64) (xs : list f64),
  Forall (chebyshev_doubles pw) bs -> fit_sizes (sizes (S := DS) bs) -> series_over (S := DS) bs (nofZ FOps 0) one s ->
  coefficients (S := DS) s (sizes (S := DS) bs) c -> List.length xs = List.length bs -> (Z.of_nat (List.length bs) <= int_max)%Z ->
  Forall (fun x => finite x /\ Rabs (value x) <= 1) xs ->
  forall i j, (0 <= i < Z.of_nat (List.length bs))%Z -> (0 <= j < Z.of_nat (List.length bs))%Z ->
  in_scale (sizes (S := DS) bs) c (by2 (chebyshev_sizes 0 xs) (chebyshev_sizes 1 xs) (chebyshev_sizes 2 xs) i j) ->
  exists s' a g, se_eval_hess (S := DS) xs s = RRet s' tt /\ se_get_hess s' i j = Ok a /\ finite a /\
    second (series_fun (sizes (S := DS) bs) (fun t => value (c t)) (chebyshev_families bs)) i j (map value xs) g /\
    Rabs (value a - g) <= series_error (sizes (S := DS) bs) (41 * unit_roundoff) *
      size_sum (sizes (S := DS) bs) c (by2 (chebyshev_sizes 0 xs) (chebyshev_sizes 1 xs) (chebyshev_sizes 2 xs) i j).
Proof. exact cheb_hessian. Qed.
Print Assumptions C60_series_hessian.

(** For instance 0.4 T_1(x) T_2(y) at (0.4, 0.4). *)
Example C60_case_series : (exists bs s, Forall (chebyshev_doubles pw0) bs /\ sizes (S := DS) bs = [2; 3]%Z /\ fit_sizes (sizes (S := DS) bs) /\
    series_over (S := DS) bs (nofZ FOps 0) (nofZ FOps 1) s /\ coefficients (S := DS) s (sizes (S := DS) bs) se_c /\
    Forall (fun x => finite x /\ Rabs (value x) <= 1) se_xs) /\
  in_scale [2; 3]%Z se_c (chebyshev_sizes 0 se_xs) /\
  (forall i, (0 <= i < 2)%Z -> in_scale [2; 3]%Z se_c (by1 (chebyshev_sizes 0 se_xs) (chebyshev_sizes 1 se_xs) i)) /\
  (forall i j, (0 <= i < 2)%Z -> (0 <= j < 2)%Z -> in_scale [2; 3]%Z se_c (by2 (chebyshev_sizes 0 se_xs) (chebyshev_sizes 1 se_xs) (chebyshev_sizes 2 se_xs) i j)).
Proof. exact (conj cheb_case cheb_scale). Qed.
