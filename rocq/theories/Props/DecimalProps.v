(** Property C63: doubles as decimal texts. *)
From Coq Require Import ZArith List Bool Ascii String Reals.
From Flocq Require Import Core.
From Flocq Require Import IEEE754.BinarySingleNaN.
From Verif Require Import Model.Outcome Model.Num Model.NumInst Model.PNDArray Model.Series Model.Stream Model.SeriesIO Model.Decimal.
From Verif Require Import Spec.Tensor Spec.NDHistory Spec.Vtk Spec.SeriesIO Spec.Python Spec.Rounding Spec.Decimal.
From Verif Require Import Proofs.DecimalTextP Proofs.DecimalSeriesP Proofs.DecimalExamples.
Import ListNotations.
Local Open Scope Z_scope.

(** C63. Reading: from any decimal numeral, in any of its notations, that ends at a blank or at the end of the text, operator>> stores the double
    nearest to the number (ties to even) with the sign written, and stops after the numeral. *)
Theorem C63_reads_nearest : number_reader denotes double_scanner.
Proof. exact double_reader. Qed.
Print Assumptions C63_reads_nearest.
(** C63. If that is too large for a double, the largest double with that sign is stored and the stream fails. *)
Theorem C63_reads_too_large : forall w neg, too_large w neg ->
  exists a, finite a /\ Bsign a = neg /\ (forall b, finite b -> (Rabs (value b) <= Rabs (value a))%R) /\ forall r, ends_word r -> double_scanner (w ++ r) = (a, false, r).
Proof. exact double_too_large. Qed.
Print Assumptions C63_reads_too_large.
Example C63_case_read : denotes (txt "+.0250E+03") (dbl 25 0) /\ decimal_text (txt "-7.") true 7 /\ too_large (txt "2e308") false.
Proof. exact (conj odd_reader (conj (proj2 odd_text) large_text)). Qed.

(** C63. Printing: the text of a finite double is a decimal numeral with its sign that denotes its value rounded to the precision's digits. *)
Theorem C63_prints_digits : forall p x, 1 <= p -> finite x -> decimal_text (print_double p x) (Bsign x) (to_digits p (Rabs (value x))).
Proof. exact prints_digits. Qed.
Print Assumptions C63_prints_digits.
(** C63. Hence it is a text as supposed in C53. *)
Theorem C63_prints_only_digits : forall p, 1 <= p -> shows_digits p (@B2R 53 1024) (print_double p).
Proof. exact prints_shown. Qed.
Print Assumptions C63_prints_only_digits.
Example C63_case_print : map (print_double 6) some_doubles = [txt "0.333333"; txt "1e+10"; txt "-4.94066e-324"; txt "0.1"; txt "-1.23457e+07"; txt "1.5"] /\
  print_double 17 third = txt "0.33333333333333331" /\ Forall finite some_doubles.
Proof. exact some_texts. Qed.

(** C63. With the default precision every finite double printed can be read again: the sign is kept, the value changes by at most about
    5e-6 of it (and half of the smallest double), and the double read prints as the same text, unless it is tiny. *)
Theorem C63_reread : forall x, finite x -> exists a, (forall r, ends_word r -> double_scanner (print_double 6 x ++ r) = (a, true, r)) /\ finite a /\ Bsign a = Bsign x /\
  (Rabs (value a - value x) <= 5000001 / 1000000000000 * Rabs (value x) + bpow radix2 (-1075))%R /\
  (value x = 0%R \/ (bpow radix2 (-1050) <= Rabs (value x))%R -> print_double 6 a = print_double 6 x).
Proof. exact reread_six. Qed.
Print Assumptions C63_reread.
(** C63. A number written with six digits or fewer, in any notation, is restored by reading, printing and reading: the text printed denotes the
    same number, and the double read from it is the same. *)
Theorem C63_six_digits_kept : forall w neg N k, 0 <= N < 10 ^ 6 -> N = 0 \/ (bpow radix2 (-1051) <= IZR N * powerRZ 10 k)%R ->
  decimal_text w neg (IZR N * powerRZ 10 k) -> ~ too_large w neg ->
  exists x, (forall r, ends_word r -> double_scanner (w ++ r) = (x, true, r)) /\ decimal_text (print_double 6 x) neg (IZR N * powerRZ 10 k) /\
    (forall r, ends_word r -> double_scanner (print_double 6 x ++ r) = (x, true, r)).
Proof. exact reread_short. Qed.
Print Assumptions C63_six_digits_kept.
(** C63. With seventeen digits every finite double is read back exactly. *)
Theorem C63_seventeen_digits : forall x, finite x -> forall r, ends_word r -> double_scanner (print_double 17 x ++ r) = (x, true, r).
Proof. exact reread_seventeen. Qed.
Print Assumptions C63_seventeen_digits.
Example C63_case_reread : map (fun t => let '(a, ok, r) := double_scanner (t ++ txt " 7") in (print_double 17 a, ok, r)) six_texts =
  map (fun w => (w, true, txt " 7")) [txt "0.33333299999999999"; txt "10000000000"; txt "-4.9406564584124654e-324"; txt "0.10000000000000001"; txt "-12345700"; txt "1.5"].
Proof. exact some_read. Qed.

(** C63. Tiny doubles need not print as the same text after having been printed and read. *)
Theorem C63_tiny_refuted : exists x a : f64, finite x /\ finite a /\ double_scanner (print_double 6 x) = (a, true, []) /\ print_double 6 a <> print_double 6 x.
Proof. exact small_changes. Qed.
Print Assumptions C63_tiny_refuted.
(** C63. Infinities and NaNs are printed as words that are no numbers: reading them stores 0 and fails. *)
Theorem C63_not_finite : forall p x r, ~ finite x -> exists r', double_scanner (print_double p x ++ r) = (B754_zero false, false, r').
Proof. exact no_number. Qed.
Print Assumptions C63_not_finite.

(** C63, C36. print_coeff and read_coeff on a series with finite doubles as coefficients: all of them are read, with the error of [C63_reread], and
    (unless there are tiny ones) print_coeff then prints the same table. *)
Theorem C63_series : forall (s s' : series (num_series FOps)) rest, nd_reachable (sdflt (num_series FOps)) (se_coeff s) -> nd_reachable (sdflt (num_series FOps)) (se_coeff s') ->
  nd_dim (se_coeff s') = nd_dim (se_coeff s) -> Forall finite (nd_val (se_coeff s)) ->
  exists t r vals, se_print_coeff (S := num_series FOps) (print_double 6) s = Ok t /\
    se_read_coeff (S := num_series FOps) double_scanner (s', is_open (Some (t ++ rest))) = RRet (with_values s' vals, is_open (Some r)) tt /\
    Forall2 (fun a b => finite b /\ Bsign b = Bsign a /\ (Rabs (value b - value a) <= 5000001 / 1000000000000 * Rabs (value a) + bpow radix2 (-1075))%R) (nd_val (se_coeff s)) vals /\
    (r = newline :: rest \/ r = rest /\ nd_val (se_coeff s) = []) /\
    (Forall (fun a => value a = 0%R \/ (bpow radix2 (-1050) <= Rabs (value a))%R) (nd_val (se_coeff s)) -> se_print_coeff (S := num_series FOps) (print_double 6) (with_values s' vals) = Ok t).
Proof. exact series_six. Qed.
Print Assumptions C63_series.
(** C63, C36. If the caller sets the stream's precision to 17, the coefficients are restored exactly. *)
Theorem C63_series_seventeen : forall (s s' : series (num_series FOps)) rest, nd_reachable (sdflt (num_series FOps)) (se_coeff s) -> nd_reachable (sdflt (num_series FOps)) (se_coeff s') ->
  nd_dim (se_coeff s') = nd_dim (se_coeff s) -> Forall finite (nd_val (se_coeff s)) ->
  exists t r, se_print_coeff (S := num_series FOps) (print_double 17) s = Ok t /\
    se_read_coeff (S := num_series FOps) double_scanner (s', is_open (Some (t ++ rest))) = RRet (with_values s' (nd_val (se_coeff s)), is_open (Some r)) tt /\
    (r = newline :: rest \/ r = rest /\ nd_val (se_coeff s) = []).
Proof. exact series_seventeen. Qed.
Print Assumptions C63_series_seventeen.
Example C63_case_series : nd_reachable (sdflt (num_series FOps)) (se_coeff (dec_series some_doubles)) /\ nd_reachable (sdflt (num_series FOps)) (se_coeff (dec_series zeros)) /\
  se_print_coeff (S := num_series FOps) (print_double 6) (dec_series some_doubles) = Ok (txt "0 0 0.333333
0 1 1e+10
0 2 -4.94066e-324
1 0 0.1
1 1 -1.23457e+07
1 2 1.5
") /\ read_back zeros dec_text = Some ([txt "0.33333299999999999"; txt "10000000000"; txt "-4.9406564584124654e-324"; txt "0.10000000000000001"; txt "-12345700"; txt "1.5"], false).
Proof. exact (conj (dec_reachable _ _ _ _ _ _) (conj (dec_reachable _ _ _ _ _ _) dec_printed)). Qed.

(** C63, C36. A table with an infinite coefficient cannot be read back: it becomes 0, the coefficients after it keep what they were, and only the
    stream's state tells. *)
Theorem C63_infinity_refuted : exists (s s' s2 : series (num_series FOps)) t i, nd_reachable (sdflt (num_series FOps)) (se_coeff s) /\ nd_reachable (sdflt (num_series FOps)) (se_coeff s') /\
  nd_dim (se_coeff s') = nd_dim (se_coeff s) /\ se_print_coeff (S := num_series FOps) (print_double 6) s = Ok t /\
  se_read_coeff (S := num_series FOps) double_scanner (s', is_open (Some t)) = RRet (s2, i) tt /\ is_fail i = true /\
  exists k, nth_error (nd_val (se_coeff s)) k = Some (B754_infinity false) /\ nth_error (nd_val (se_coeff s2)) k = Some (B754_zero false) /\
    forall j a, (k < j)%nat -> nth_error (nd_val (se_coeff s2)) j = Some a -> nth_error (nd_val (se_coeff s')) j = Some a.
Proof. exact infinity_lost. Qed.
Print Assumptions C63_infinity_refuted.
