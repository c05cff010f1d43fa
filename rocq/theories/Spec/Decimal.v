(** Specification vocabulary: decimal texts of doubles. *)
From Coq Require Import ZArith List Bool Ascii Reals.
From Flocq Require Import Core.
From Flocq Require Import IEEE754.BinarySingleNaN.
From Verif Require Import Model.Outcome Model.Num Model.NumInst Model.Stream.
From Verif Require Import Spec.Vtk Spec.Rounding.
Import ListNotations.
Local Open Scope Z_scope.

(** The parts of a numeral: digits (perhaps none), a sign, a fraction and an exponent (any of which may be missing). *)
Inductive digits : text -> Z -> Prop :=
| DigitsNone : digits [] 0
| DigitsMore : forall t n d, digits t n -> 0 <= d <= 9 -> digits (t ++ [numeral d]) (10 * n + d).
Definition sign_text (t : text) (neg : bool) : Prop := t = ["-"%char] /\ neg = true \/ (t = [] \/ t = ["+"%char]) /\ neg = false.
Definition fraction_text (t f : text) : Prop := t = [] /\ f = [] \/ t = "."%char :: f.
Definition exponent_text (t : text) (k : Z) : Prop :=
  t = [] /\ k = 0 \/
  exists c s u neg n, t = c :: s ++ u /\ (c = "e"%char \/ c = "E"%char) /\ sign_text s neg /\ decimal u n /\ k = if neg then - n else n.

(** [w] has a minus sign or not ([neg]) and denotes, apart from it, [x]. *)
Definition decimal_text (w : text) (neg : bool) (x : R) : Prop :=
  exists s i t f e m k, w = s ++ i ++ t ++ e /\ sign_text s neg /\ fraction_text t f /\ exponent_text e k /\
    digits (i ++ f) m /\ i ++ f <> [] /\ x = (IZR m * powerRZ 10 (k - Z.of_nat (List.length f)))%R.

(** Rounding to the nearest double, ties to even; and to [p] decimal digits. *)
Definition to_double (x : R) : R := round radix2 (FLT_exp (-1074) 53) ZnearestE x.
Definition ten : radix := Build_radix 10 eq_refl.
Definition to_digits (p : Z) (x : R) : R := round ten (FLX_exp p) ZnearestE x.

(** [w] denotes a number to which [a] is the nearest double, with the sign written. *)
Definition denotes (w : text) (a : f64) : Prop :=
  exists neg x, decimal_text w neg x /\ finite a /\ Bsign a = neg /\ Rabs (value a) = to_double x.
(** Too large a number. *)
Definition too_large (w : text) (neg : bool) : Prop := exists x, decimal_text w neg x /\ (bpow radix2 1024 <= to_double x)%R.
