(** Model of the decimal text of doubles, of the C++ standard library (libstdc++ and glibc, "C" locale, default rounding mode): operator<< as used by
    pfunction/PSeriesFunction.hh (416, 428, 440, 452; default format and precision) and operator>> as used by PSeriesFunction.hh (468),
    pfield/Mesh.hh (159-364) and pfield/Body.hh (41-123). *)
From Coq Require Import ZArith List Bool Ascii.
From Flocq Require Import Core.Raux IEEE754.BinarySingleNaN.
From Verif Require Import Model.Outcome Model.Num Model.NumInst Model.Stream Model.SeriesIO.
Import ListNotations.
Local Open Scope Z_scope.

(** The integer nearest to n / d for d > 0, ties to even (infrastructure). *)
Definition rdiv (n d : Z) : Z :=
  let q := n / d in
  match 2 * (n mod d) ?= d with
  | Lt => q
  | Eq => if Z.even q then q else q + 1
  | Gt => q + 1
  end.
(** m b^e as a fraction. *)
Definition ratio (b m e : Z) : Z * Z := if 0 <=? e then (m * b ^ e, 1) else (m, b ^ (- e)).
(** The integer nearest to n / (d b^e). *)
Definition rscale (b n d e : Z) : Z := if 0 <=? e then rdiv n (d * b ^ e) else rdiv (n * b ^ (- e)) d.

(** ** Printing: operator<<(stream, double), PSeriesFunction.hh 416, 428, 440, 452: printf's %.*g with the stream's precision, 6 by default *)

(** The exponent k with 10^k <= n / d < 10^(k+1); doubles need fewer than 400 steps. *)
Fixpoint exp_up (fuel : nat) (k n d : Z) : Z :=
  match fuel with
  | 0%nat => k
  | S f => if 10 * d <=? n then exp_up f (k + 1) n (10 * d) else k
  end.
Fixpoint exp_down (fuel : nat) (k n d : Z) : Z :=
  match fuel with
  | 0%nat => k
  | S f => if n <? d then exp_down f (k - 1) (10 * n) d else k
  end.
Definition dec_exp (n d : Z) : Z := if d <=? n then exp_up 400 0 n d else exp_down 400 0 n d.

(** n / d rounded to [p] decimal digits: the digits and the exponent of the first. *)
Definition dec_digits (p n d : Z) : Z * Z :=
  let x := dec_exp n d in
  let N := rscale 10 n d (x - (p - 1)) in
  if N =? 10 ^ p then (10 ^ (p - 1), x + 1) else (N, x).

(** The digits of a number. *)
Definition digits_of (n : Z) : text := print_digits (S (Z.to_nat (Z.log2 n))) n.
(** %g omits trailing zeros after the decimal point. *)
Fixpoint strip_zeros (t : text) : text :=
  match t with
  | [] => []
  | c :: t' => match strip_zeros t' with
               | [] => if Ascii.eqb c "0" then [] else [c]
               | r => c :: r
               end
  end.
(** The fraction, with its point unless it is empty. *)
Definition fraction (t : text) : text := match strip_zeros t with [] => [] | r => "."%char :: r end.
(** The exponent has a sign and at least two digits. *)
Definition exponent (x : Z) : text :=
  "e"%char :: (if x <? 0 then "-"%char else "+"%char) :: (if Z.abs x <? 10 then ["0"%char] else []) ++ digits_of (Z.abs x).
(** The number with [p] digits [N], the first of which is worth 10^[x]. *)
Definition general (p N x : Z) : text :=
  let ds := digits_of N in
  if (-4 <=? x) && (x <? p) then
    if 0 <=? x then firstn (Z.to_nat (x + 1)) ds ++ fraction (skipn (Z.to_nat (x + 1)) ds)
    else "0"%char :: fraction (repeat "0"%char (Z.to_nat (- x - 1)) ++ ds)
  else firstn 1 ds ++ fraction (skipn 1 ds) ++ exponent x.

(** operator<<(stream, double) at precision [p] (at least 1). The sign of a NaN is left out. *)
Definition print_double (p : Z) (x : f64) : text :=
  let sign (s : bool) : text := if s then ["-"%char] else [] in
  match x with
  | B754_zero s => sign s ++ ["0"%char]
  | B754_infinity s => sign s ++ ["i"; "n"; "f"]%char
  | B754_nan => ["n"; "a"; "n"]%char
  | B754_finite s m e _ =>
      let (n, d) := ratio 2 (Zpos m) e in
      let (N, k) := dec_digits p n d in
      sign s ++ general p N k
  end.

(** ** Reading: operator>>(stream, double), PSeriesFunction.hh 468: the characters of a number, as far as they go, then strtod *)

(** The double nearest to n / d (n, d > 0), ties to even, with a sign; infinity if that is too large. *)
Definition quotient_exp (n d : Z) : Z :=
  let k := Z.log2 n - Z.log2 d in
  let mag := if (if 0 <=? k then d * 2 ^ k <=? n else d <=? n * 2 ^ (- k)) then k + 1 else k in
  Z.max (mag - 53) (-1074).
Definition nearest_quotient (neg : bool) (n d : Z) : f64 :=
  let e := quotient_exp n d in
  let q := rscale 2 n d e in
  binary_normalize 53 1024 f64_prec f64_emax mode_NE (if neg then - q else q) e neg.
(** strtod's value of m 10^e. *)
Definition nearest_decimal (neg : bool) (m e : Z) : f64 :=
  if m =? 0 then B754_zero neg else let (n, d) := ratio 10 m e in nearest_quotient neg n d.

(** The largest double. *)
Definition double_max (neg : bool) : f64 := binary_normalize 53 1024 f64_prec f64_emax mode_NE ((if neg then -1 else 1) * (2 ^ 53 - 1)) 971 neg.
(** libstdc++ stores the largest double and fails on overflow. *)
Definition stored (x : f64) : f64 * bool := match x with B754_infinity s => (double_max s, false) | _ => (x, true) end.

(** An optional sign. *)
Definition scan_sign (t : text) : bool * text :=
  match t with
  | c :: t' => if Ascii.eqb c "-" then (true, t') else if Ascii.eqb c "+" then (false, t') else (false, t)
  | [] => (false, [])
  end.
(** Digits: the accumulated value, how many there were, the rest. *)
Fixpoint scan_count (acc k : Z) (t : text) : Z * Z * text :=
  match t with
  | [] => (acc, k, [])
  | c :: t' => match digit c with
               | Some d => scan_count (acc * 10 + d) (k + 1) t'
               | None => (acc, k, t)
               end
  end.
(** operator>>(stream, double): sign, digits with at most one point, and an exponent after at least one digit. Without any digit, or without a
    digit after the exponent's e, 0 is stored and the stream fails. *)
Definition double_scanner : scanner f64 :=
  fun t =>
    let (neg, t1) := scan_sign t in
    match scan_count 0 0 t1 with
    | (m1, k1, t2) =>
        match (match t2 with
               | c :: t3 => if Ascii.eqb c "." then scan_count m1 0 t3 else (m1, 0, t2)
               | [] => (m1, 0, [])
               end) with
        | (m, k2, t4) =>
            if k1 + k2 =? 0 then (B754_zero false, false, t4)
            else
              let plain := let (v, ok) := stored (nearest_decimal neg m (- k2)) in (v, ok, t4) in
              match t4 with
              | c :: t5 =>
                  if Ascii.eqb c "e" || Ascii.eqb c "E" then
                    let (eneg, t6) := scan_sign t5 in
                    match scan_count 0 0 t6 with
                    | (x, k, t7) =>
                        if k =? 0 then (B754_zero false, false, t7)
                        else let (v, ok) := stored (nearest_decimal neg m ((if eneg then - x else x) - k2)) in (v, ok, t7)
                    end
                  else plain
              | [] => plain
              end
        end
    end.
