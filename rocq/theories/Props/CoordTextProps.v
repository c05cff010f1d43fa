(** Property C63: coordinates as texts. *)
From Coq Require Import ZArith List Bool Ascii String Reals.
From Flocq Require Import Core.
From Flocq Require Import IEEE754.BinarySingleNaN.
From Verif Require Import Model.Outcome Model.Num Model.NumInst Model.Stream Model.SeriesIO Model.Decimal Model.CoordText.
From Verif Require Import Spec.Vtk Spec.Python Spec.Rounding Spec.Decimal Spec.CoordText.
From Verif Require Import Proofs.DecimalExamples Proofs.CoordTextP.
Import ListNotations.
Local Open Scope Z_scope.

(** C63. Printing a coordinate of any dimension is defined, and puts the texts of its numbers with one blank between two of them and none after the last. *)
Theorem C63_coordinate_text : forall p c, exists t, co_print p c = Ok t /\ joined (map (print_double p) c) t.
Proof. exact printed_coordinate. Qed.
Print Assumptions C63_coordinate_text.
(** C63. From the text printed with the default precision, followed by a blank or the end, operator>> reads as many numbers as the coordinate has, in
    the same order, each with the error of [C63_reread]; nothing else is consumed, and (without tiny numbers) what was read prints the same. *)
Theorem C63_coordinate_reread : forall (c : list f64) r, c <> [] -> Forall finite c -> ends_word r ->
  exists t c', co_print 6 c = Ok t /\ reads_doubles (is_open (Some (t ++ r))) c' (mkIstr r (match r with [] => true | _ => false end) false) /\
    Forall2 (fun x a => finite a /\ Bsign a = Bsign x /\ (Rabs (value a - value x) <= 5000001 / 1000000000000 * Rabs (value x) + bpow radix2 (-1075))%R) c c' /\
    (Forall (fun x => value x = 0%R \/ (bpow radix2 (-1050) <= Rabs (value x))%R) c -> co_print 6 c' = Ok t).
Proof. exact coordinate_six. Qed.
Print Assumptions C63_coordinate_reread.
(** C63. With precision 17 the same coordinate is read. *)
Theorem C63_coordinate_seventeen : forall (c : list f64) r, c <> [] -> Forall finite c -> ends_word r ->
  exists t, co_print 17 c = Ok t /\ reads_doubles (is_open (Some (t ++ r))) c (mkIstr r (match r with [] => true | _ => false end) false).
Proof. exact coordinate_seventeen. Qed.
Print Assumptions C63_coordinate_seventeen.
Example C63_case_coordinate : co_print 6 [third; dbl (-3) (-1); dbl 5 0] = Ok (txt "0.333333 -1.5 5") /\ Forall finite [third; dbl (-3) (-1); dbl 5 0] /\ ends_word (txt " 7").
Proof. exact some_coordinate. Qed.
Example C63_case_coordinate_seventeen : co_print 17 [third; dbl (-3) (-1); dbl 5 0] = Ok (txt "0.33333333333333331 -1.5 5").
Proof. exact some_coordinate_seventeen. Qed.
