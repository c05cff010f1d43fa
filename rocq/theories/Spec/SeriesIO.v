(** Specification vocabulary for tables of coefficients. *)
From Coq Require Import ZArith List Ascii.
From Verif Require Import Model.PNDArray Model.Series Model.Stream.
From Verif Require Import Spec.Tensor Spec.Vtk.
Import ListNotations.
Local Open Scope Z_scope.

(** Decimal integers with an optional minus sign. *)
Inductive int_text : text -> Z -> Prop :=
| IntPos : forall t n, decimal t n -> int_text t n
| IntNeg : forall t n, decimal t n -> int_text ("-"%char :: t) (- n).

(** A table: for every position from [i] on, in increasing row-major order, a line with the index tuple (every index followed by one space), and
    the value. *)
Inductive table {A : Type} (num_text : text -> A -> Prop) (dims : list Z) : Z -> list A -> text -> Prop :=
| TableEnd : forall i, table num_text dims i [] []
| TableLine : forall i a vals term its nt t,
    valid_index dims term -> row_major dims term = i -> Forall2 int_text its term -> num_text nt a ->
    table num_text dims (i + 1) vals t ->
    table num_text dims i (a :: vals) (List.concat (map (fun w => w ++ [" "%char]) its) ++ nt ++ newline :: t).

(** Entries of a text with integers and numbers. *)
Definition entry_text {A : Type} (num_text : text -> A -> Prop) (t : text) (e : Z + A) : Prop :=
  match e with
  | inl z => int_text t z /\ fits_int z
  | inr a => num_text t a
  end.

(** The entries of rows of integers and a number. *)
Definition entries {A : Type} (rows : list (list Z * A)) : list (Z + A) :=
  List.concat (map (fun r => map inl (fst r) ++ [inr (snd r)]) rows).

(** The series [s] with the coefficients [v], in storage order; nothing else differs. *)
Definition with_values {S : SerOps} (s : @series S) (v : list (sa S)) : @series S :=
  mkSeries (mkNd (nd_dim (se_coeff s)) (nd_unroll (se_coeff s)) v (nd_order (se_coeff s)) (nd_volume (se_coeff s)))
    (se_one s) (se_zero s) (se_basis s) (se_val s) (se_grad s) (se_hess s).

(** A text that does not go on with an int: only blanks, a number that is no int, or something else than a number. *)
Inductive no_index : text -> Prop :=
| NoMore : forall b, blanks b -> no_index b
| TooLarge : forall b w z r, blanks b -> int_text w z -> ~ fits_int z -> ends_word r -> no_index (b ++ w ++ r)
| NoNumber : forall b c r, blanks b -> ~ blank c -> ~ In c ["-"; "+"]%char -> (forall d, 0 <= d <= 9 -> c <> numeral d) -> no_index (b ++ c :: r).
