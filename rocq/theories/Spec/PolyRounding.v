(** Specification vocabulary for the sample basis sets evaluated in binary64. *)
From Coq Require Import ZArith List Reals.
From Coquelicot Require Import Coquelicot.
From Flocq Require Import Core.Raux Core.Zaux.
From Coq Require Import List.
From Verif Require Import Model.Outcome Model.Num Model.NumInst Model.BasisSet Model.Samples.
From Verif Require Import Spec.Basis Spec.Rounding Spec.Poly.
Local Open Scope R_scope.

(** The Chebyshev polynomials with all signs positive: G_0 = 1, G_1 = x, G_(n+2) = 2 x G_(n+1) + G_n. *)
Fixpoint growth (n : nat) (x : R) : R :=
  match n with
  | 0%nat => 1
  | S m => match m with 0%nat => x | S k => 2 * x * growth m x + growth k x end
  end.

(** For |x| <= [X], [b] offers the functions [f 0], [f 1], ... with first and second derivatives, each finite and with an error
    of [rel] relative to the same derivative of [a 0], [a 1], ... at |x|, and [abs] from underflow. *)
Definition offers_within (b : bset f64 f64) (f a : nat -> R -> R) (X rel abs : R) : Prop :=
  forall t (x : f64), (0 <= t < bs_size b)%Z -> finite x -> Rabs (value x) <= X ->
    let F := f (Z.to_nat t) in let G := a (Z.to_nat t) in
    (exists y, res_outcome (bs_call t x b) = Ok y /\ finite y /\
       Rabs (value y - F (value x)) <= rel * G (Rabs (value x)) + abs) /\
    (exists y d e, res_outcome (bs_call_grad t x b) = Ok y /\ finite y /\
       is_derive F (value x) d /\ is_derive G (Rabs (value x)) e /\ Rabs (value y - d) <= rel * e + abs) /\
    (exists y d e, res_outcome (bs_call_hess t x b) = Ok y /\ finite y /\
       is_derive_n F 2 (value x) d /\ is_derive_n G 2 (Rabs (value x)) e /\ Rabs (value y - d) <= rel * e + abs).

(** A set of Chebyshev polynomials of doubles, after any evaluations and resizings. *)
Definition chebyshev_doubles (pw : f64 -> f64 -> f64) (b : bset f64 f64) : Prop :=
  exists N b0, (0 <= N)%Z /\ chebyshev_set FOps pw (nofZ FOps 0) N = Ok b0 /\ later (nofZ FOps 0 : f64) b0 b.

(** Bounds on the terms (k = 0) and their derivatives (k = 1, 2) at a point, one function of the term number per variable. *)
Definition chebyshev_sizes (k : nat) (xs : list f64) : list (Z -> R) :=
  map (fun x t => 1 + Derive_n (growth (Z.to_nat t)) k (Rabs (value x))) xs.
(** The Chebyshev polynomials, one family per variable. *)
Definition chebyshev_families {X A : Type} (bs : list (bset X A)) : list (Z -> R -> R) := map (fun _ t => chebyshev (Z.to_nat t)) bs.

(** The same for sets of monomials. *)
Definition monomial_doubles (pw : f64 -> f64 -> f64) (b : bset f64 f64) : Prop :=
  exists N b0, (0 <= N)%Z /\ monomial_set FOps pw (nofZ FOps 0) N = Ok b0 /\ later (nofZ FOps 0 : f64) b0 b.
Definition monomial_sizes (k : nat) (xs : list f64) : list (Z -> R) :=
  map (fun x t => 1 + Derive_n (fun y => y ^ Z.to_nat t) k (Rabs (value x))) xs.
Definition monomial_families {X A : Type} (bs : list (bset X A)) : list (Z -> R -> R) := map (fun _ t x => x ^ Z.to_nat t) bs.
