(** Model of the print and read routines of include/IntegrationTools/pfunction/PSeriesFunction.hh (409-470). *)
From Coq Require Import ZArith List Bool Ascii.
From Verif Require Import Model.Outcome Model.Num Model.PNDArray Model.PSimple Model.BasisSet Model.Series Model.Stream.
Import ListNotations.
Local Open Scope Z_scope.

(** operator<<(stream, int) (PSeriesFunction.hh 416, 428, 440, 452): decimal digits of a non-negative number; [fuel] bounds their number. *)
Fixpoint print_digits (fuel : nat) (n : Z) : text :=
  match fuel with
  | 0%nat => []
  | Datatypes.S f => (if n <? 10 then [] else print_digits f (n / 10)) ++ [ascii_of_nat (48 + Z.to_nat (n mod 10))]
  end.

(** operator<<(stream, int): a minus sign and the digits of the absolute value; log2 bounds the number of digits. *)
Definition print_int (z : Z) : text :=
  let n := Z.abs z in
  (if z <? 0 then ["-"%char] else []) ++ print_digits (Datatypes.S (Z.to_nat (Z.log2 n))) n.

Section SeriesIO.
Context {S : SerOps}.
Local Notation A := (sa S).
(** operator<<(stream, OutType) and operator>>(stream, OutType). Failures of the output stream are not modelled. *)
Context (print_num : A -> text) (num_scanner : scanner A).

(** PSeriesFunction.hh 415-417, 427-429, 439-441, 451-453: one line: every index followed by a space, the value, a newline. *)
Definition print_line (term : list Z) (a : A) : text :=
  List.concat (map (fun k => print_int k ++ [" "%char]) term) ++ print_num a ++ [nl].

(** The loop shared by the four print routines (411-418, 423-430, 435-442, 447-454); [value] is the expression printed for linear index
    i and index tuple [term], which tensor_indices overwrites; the result is the text sent to the stream. *)
Definition print_table (c : nd A) (value : Z -> list Z -> outcome A) : outcome text :=
  let* r := ofold (fun st i =>
                     let* term := tensor_indices c i (fst st) in
                     let* a := value i term in
                     Ok (term, snd st ++ print_line term a))
                  (zseq (nd_volume c)) (repeat 0 (Z.to_nat (nd_order c)), []) in
  Ok (snd r).

(** PSeriesFunction.hh 409-420: print_basis. *)
Definition se_print_basis (s : @series S) : outcome text := print_table (se_coeff s) (fun _ term => se_get_product s term).
(** PSeriesFunction.hh 421-432: print_basis_grad. *)
Definition se_print_basis_grad (s : @series S) (di : Z) : outcome text :=
  print_table (se_coeff s) (fun _ term => se_get_product_grad s term di).
(** PSeriesFunction.hh 433-444: print_basis_hess. *)
Definition se_print_basis_hess (s : @series S) (di dj : Z) : outcome text :=
  print_table (se_coeff s) (fun _ term => se_get_product_hess s term di dj).
(** PSeriesFunction.hh 445-455: print_coeff. *)
Definition se_print_coeff (s : @series S) : outcome text := print_table (se_coeff s) (fun i _ => nd_get (se_coeff s) i).

(** PSeriesFunction.hh 464-467: one row's indices, read into [term] and never used. *)
Fixpoint read_term (term : list Z) (s : istr) : list Z * istr :=
  match term with
  | [] => ([], s)
  | k :: term' =>
      let (a, s1) := extract int_scanner (Some k) s in
      let (l, s2) := read_term term' s1 in
      (match a with Some z => z | None => k end :: l, s2)
  end.

(** PSeriesFunction.hh 462-469: the rows from linear index [i] on. *)
Fixpoint read_rows (is : list Z) (term : list Z) (c : nd A) (s : istr) : outcome (nd A * istr) :=
  match is with
  | [] => Ok (c, s)
  | i :: is' =>
      let (term', s1) := read_term term s in
      let* old := nd_get c i in
      let (a, s2) := extract num_scanner (Some old) s1 in
      let* c' := nd_set c i (match a with Some x => x | None => old end) in
      read_rows is' term' c' s2
  end.

(** PSeriesFunction.hh 456-470: read_coeff; the state is the series and the stream. *)
Definition se_read_coeff : M (@series S * istr) unit :=
  fun st =>
    let (s, i) := st in
    match read_rows (zseq (nd_volume (se_coeff s))) (repeat 0 (Z.to_nat (nd_order (se_coeff s)))) (se_coeff s) i with
    | Ok (c, i') => RRet (mkSeries c (se_one s) (se_zero s) (se_basis s) (se_val s) (se_grad s) (se_hess s), i') tt
    | Throw e => RThrow st e
    | Exit => RExit
    | UB r => RUB r
    | NoFuel => RNoFuel
    end.

End SeriesIO.
