(** Specification vocabulary for series evaluated in binary64. *)
From Coq Require Import ZArith List Reals.
From Flocq Require Import Core.Raux Core.Zaux.
From Verif Require Import Model.Num Model.NumInst Model.Series.
From Verif Require Import Spec.Tensor Spec.Series Spec.Rounding.
Import ListNotations.
Local Open Scope R_scope.

(** Series of doubles. *)
Definition DS : SerOps := num_series FOps.

(** The computed factors [fs] are finite and close to the factors [Fs] meant, relative to bounds [Bs] on them, for every
    term number of the shape. *)
Definition close_to (dims : list Z) (delta : R) (fs : list (Z -> f64)) (Fs Bs : list (Z -> R)) : Prop :=
  length fs = length dims /\ length Fs = length dims /\ length Bs = length dims /\
  forall j n f F B t, nth_error dims j = Some n -> nth_error fs j = Some f -> nth_error Fs j = Some F -> nth_error Bs j = Some B ->
    (0 <= t < n)%Z -> finite (f t) /\ Rabs (F t) <= B t /\ Rabs (value (f t) - F t) <= delta * B t.

(** The sum of the sizes of the terms. *)
Definition size_sum (dims : list Z) (c : list Z -> f64) (Bs : list (Z -> R)) : R :=
  nested_sum dims (fun t => Rabs (value (c t)) * product (factors Bs t)).

(** The coefficients are finite, and no product or sum comes near the ends of the range of the doubles. *)
Definition in_scale (dims : list Z) (c : list Z -> f64) (Bs : list (Z -> R)) : Prop :=
  (forall t, valid_index dims t -> finite (c t) /\ (value (c t) = 0 \/
     forall k, (k <= length dims)%nat ->
       bpow radix2 (-1000) <= Rabs (value (c t)) * product (firstn k (factors Bs t)) <= bpow radix2 1000)) /\
  size_sum dims c Bs <= bpow radix2 1000.

(** The same with a factor of two to spare. *)
Definition well_in_scale (dims : list Z) (c : list Z -> f64) (Bs : list (Z -> R)) : Prop :=
  (forall t, valid_index dims t -> finite (c t) /\ (value (c t) = 0 \/
     forall k, (k <= length dims)%nat ->
       bpow radix2 (-999) <= Rabs (value (c t)) * product (firstn k (factors Bs t)) <= bpow radix2 999)) /\
  size_sum dims c Bs <= bpow radix2 999.

(** The relative error: one factor [1 + delta] and one roundoff per variable, one roundoff per term. *)
Definition series_error (dims : list Z) (delta : R) : R :=
  (1 + delta) ^ length dims * (1 + unit_roundoff) ^ (length dims + Z.to_nat (zprod dims)) - 1.

(** Few enough variables, and factors accurate enough for their number. *)
Definition modest (dims : list Z) (delta : R) : Prop :=
  0 <= delta /\ INR (length dims) * delta <= 1 / 4 /\ (Z.of_nat (length dims) <= int_max)%Z.
