(** Instances of the arithmetic interface (infrastructure). *)
From Coq Require Import ZArith Reals Bool.
From Coq Require Import Floats.SpecFloat.
From Coq Require Import QArith Qround.
From Flocq Require Import Core.Raux IEEE754.BinarySingleNaN.
From Verif Require Import Model.Outcome Model.Num.

(** Exact real arithmetic. *)
Definition ROps : NumOps :=
  mkNum R IZR Rplus Rminus Rmult Rdiv Ropp Rlt_bool Rle_bool Req_bool (fun x => Some (Zfloor x)).

(** Lets Coq infer the arithmetic from the type R. *)
Canonical Structure ROps.

(** Real arithmetic in which the result of each operation is rounded by [rnd]
    (IEEE arithmetic away from overflow and NaN is the case rnd = round to nearest even). *)
Definition RndOps (rnd : R -> R) : NumOps :=
  mkNum R (fun z => rnd (IZR z)) (fun x y => rnd (x + y)%R) (fun x y => rnd (x - y)%R)
        (fun x y => rnd (x * y)%R) (fun x y => rnd (x / y)%R) Ropp
        Rlt_bool Rle_bool Req_bool (fun x => Some (Zfloor x)).

(** Floor of an IEEE number. *)
Definition sf_floor (x : spec_float) : option Z :=
  match x with
  | S754_zero _ => Some 0%Z
  | S754_infinity _ => None
  | S754_nan => None
  | S754_finite s m e =>
      let z := if s then Zneg m else Zpos m in
      Some (if (0 <=? e)%Z then (z * 2 ^ e)%Z else (z / 2 ^ (- e))%Z)
  end.

(** IEEE 754 binary64 numbers and arithmetic, round to nearest even (Flocq's executable formalisation). *)
Definition f64 : Type := binary_float 53 1024.
Definition f64_prec : FLX.Prec_gt_0 53 := eq_refl.
Definition f64_emax : Prec_lt_emax 53 1024 := eq_refl.

(** The binary64 number nearest to m * 2^e. *)
Definition f64_make (m e : Z) : f64 := binary_normalize 53 1024 f64_prec f64_emax mode_NE m e false.

Definition FOps : NumOps :=
  mkNum f64 (fun z => f64_make z 0)
        (@Bplus 53 1024 f64_prec f64_emax mode_NE) (@Bminus 53 1024 f64_prec f64_emax mode_NE)
        (@Bmult 53 1024 f64_prec f64_emax mode_NE) (@Bdiv 53 1024 f64_prec f64_emax mode_NE) Bopp
        Bltb Bleb Beqb (fun x => sf_floor (B2SF x)).

(** Lets Coq infer the arithmetic from the type f64. *)
Canonical Structure FOps.

(** Exact rational arithmetic, for executable examples. *)
Definition QOps : NumOps :=
  mkNum Q inject_Z (fun x y => Qred (x + y)) (fun x y => Qred (x - y)) (fun x y => Qred (x * y))
        (fun x y => Qred (x / y)) Qopp
        (fun x y => negb (Qle_bool y x)) Qle_bool Qeq_bool (fun x => Some (Qfloor x)).
