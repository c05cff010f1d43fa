(** Specification vocabulary for the C interface: text in a buffer, basis sets obtained from the library. *)
From Coq Require Import ZArith List Ascii String Reals.
From Verif Require Import Model.Outcome Model.Num Model.BasisSet Model.Series Model.CInterface Spec.Tensor Spec.Basis Spec.Poly.
Import ListNotations.
Local Open Scope Z_scope.

(** A text without NUL characters. *)
Definition plain_text (s : string) : Prop := ~ In zero (list_ascii_of_string s).

(** The buffer is the text, a NUL, and [rest]. *)
Definition spells (buffer : list ascii) (s : string) (rest : list ascii) : Prop := buffer = list_ascii_of_string s ++ zero :: rest.

(** A basis set checked out of the library and used in any way that returns or throws (PBasisSet_dd_new, _calc*, _eval*, _resize; sizes are
    ints that are not negative). *)
Inductive library_set {O : NumOps} (lib : list (bclass O)) : bset (num O) (num O) -> Prop :=
| LibNew : forall name N b, 0 <= N <= int_max -> checkout_set lib name N = Ok b -> library_set lib b
| LibRet : forall b c b', library_set lib b -> (forall n, c = BResize n -> 0 <= n <= int_max) ->
    brun (nofZ O 0) c b = RRet b' tt -> library_set lib b'
| LibThrow : forall b c b' e, library_set lib b -> (forall n, c = BResize n -> 0 <= n <= int_max) ->
    brun (nofZ O 0) c b = RThrow b' e -> library_set lib b'.

(** The shape a caller reads off a series, and coefficients that are all 0. *)
Definition has_shape {O : NumOps} (s : series (num_series O)) (dims : list Z) : Prop :=
  dsis_order s = Z.of_nat (List.length dims) /\ dsis_volume s = zprod dims /\
  (forall i n, nth_error dims i = Some n -> dsis_dim s (Z.of_nat i) = Ok n).
Definition all_zero {O : NumOps} (s : series (num_series O)) (dims : list Z) : Prop :=
  forall i, 0 <= i < zprod dims -> dsis_get_linear_coeff s i = Ok (nofZ O 0).

(** What the sets of the sample library are called and the functions they stand for. *)
Definition family_named (name : string) (f : Z -> R -> R) : Prop :=
  (name = "Monomial"%string /\ f = fun t x => (x ^ Z.to_nat t)%R) \/ (name = "Chebyshev"%string /\ f = fun t x => chebyshev (Z.to_nat t) x).
