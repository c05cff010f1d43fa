(** Property C36: printing and reading series coefficients. *)
From Coq Require Import ZArith List Bool Ascii String.
From Verif Require Import Model.Outcome Model.PNDArray Model.Series Model.Stream Model.SeriesIO.
From Verif Require Import Spec.Tensor Spec.NDHistory Spec.Vtk Spec.SeriesIO.
From Verif Require Import Proofs.SeriesIOP Proofs.SeriesShortP Proofs.SeriesExamples Proofs.SeriesIOExamples.
Import ListNotations.
Local Open Scope Z_scope.

(** C36. For every value type, every array of coefficients a client can build and every way of printing and reading a single number that
    is inverse: print_coeff succeeds, and read_coeff on a series of the same shape, from the printed text followed by anything, restores the
    coefficient array exactly, changes nothing else in the series, and leaves the stream in a good state just after the last number. *)
Theorem C36_print_then_read : forall (S : SerOps) (print_num : sa S -> text) num_scanner,
  number_reader (fun w a => w = print_num a) num_scanner ->
  forall (s s' : @series S) rest, nd_reachable (sdflt S) (se_coeff s) -> nd_reachable (sdflt S) (se_coeff s') ->
  nd_dim (se_coeff s') = nd_dim (se_coeff s) ->
  exists t r s2, se_print_coeff print_num s = Ok t /\
    se_read_coeff num_scanner (s', is_open (Some (t ++ rest))) = RRet (s2, is_open (Some r)) tt /\
    se_coeff s2 = se_coeff s /\ s2 = with_values s' (nd_val (se_coeff s)) /\
    (r = newline :: rest \/ r = rest /\ nd_val (se_coeff s) = []).
Proof. exact print_read. Qed.
Print Assumptions C36_print_then_read.

(** C36. What is printed: one line per coefficient, in row-major order, with the decimal indices of its tuple and the coefficient. *)
Theorem C36_printed_table : forall (S : SerOps) (print_num : sa S -> text) (s : @series S), nd_reachable (sdflt S) (se_coeff s) ->
  exists t, se_print_coeff print_num s = Ok t /\ table (fun w a => w = print_num a) (nd_dim (se_coeff s)) 0 (nd_val (se_coeff s)) t.
Proof. exact print_coeff_table. Qed.
Print Assumptions C36_printed_table.

(** C36. What is read: from any text of the right number of rows, each made of as many ints as the series has dimensions and a number, the
    numbers become the coefficients in the order of the rows. The ints are ignored, whatever they are. *)
Theorem C36_read_ignores_indices : forall (S : SerOps) (num_text : text -> sa S -> Prop) num_scanner, number_reader num_text num_scanner ->
  forall (s : @series S) rows d rest, nd_reachable (sdflt S) (se_coeff s) ->
  Z.of_nat (List.length rows) = nd_volume (se_coeff s) -> Forall (fun r => List.length (fst r) = List.length (nd_dim (se_coeff s))) rows ->
  tokens (entry_text num_text) d (entries rows) -> separated rows rest ->
  exists i, se_read_coeff num_scanner (s, is_open (Some (d ++ rest))) = RRet (with_values s (map snd rows), i) tt /\
    is_rest i = rest /\ is_fail i = false.
Proof. exact read_coeff_rows. Qed.
Print Assumptions C36_read_ignores_indices.

(** C36. A text that breaks off: after some rows, and possibly some ints of the next row, it ends, or goes on with a number that is no int or with something
    that is no number. Then the rows that are there are read, all other coefficients keep their old values, and nothing is reported but the state of the stream. *)
Theorem C36_read_breaks_off : forall (S : SerOps) (num_text : text -> sa S -> Prop) num_scanner, number_reader num_text num_scanner ->
  forall (s : @series S) rows zs d1 d2 u, nd_reachable (sdflt S) (se_coeff s) ->
  Z.of_nat (List.length rows) < nd_volume (se_coeff s) -> Forall (fun r => List.length (fst r) = List.length (nd_dim (se_coeff s))) rows ->
  (List.length zs < List.length (nd_dim (se_coeff s)))%nat ->
  tokens (entry_text num_text) d1 (entries rows) -> separated rows (d2 ++ u) ->
  tokens (fun w z => int_text w z /\ fits_int z) d2 zs -> separated zs u -> no_index u ->
  exists i, se_read_coeff num_scanner (s, is_open (Some (d1 ++ d2 ++ u))) =
      RRet (with_values s (map snd rows ++ skipn (List.length rows) (nd_val (se_coeff s))), i) tt /\ is_fail i = true.
Proof. exact read_short. Qed.
Print Assumptions C36_read_breaks_off.

(** Two rows of six, and 99999999999 as the second index of the third row. *)
Example C36_case_breaks_off :
  (tokens (entry_text (fun w z => w = print_int z)) cut_text (entries cut_rows) /\ separated cut_rows (cut_row ++ cut_rest) /\
   tokens (fun w z => int_text w z /\ fits_int z) cut_row [0] /\ separated [0] cut_rest /\ no_index cut_rest) /\
  exists i, @se_read_coeff int_series big_scanner (io_series [10; 11; 12; 13; 14; 15], is_open (Some (cut_text ++ cut_row ++ cut_rest))) =
    RRet (io_series [4; -1; 12; 13; 14; 15], i) tt /\ is_fail i = true.
Proof. split; [exact cut_case|]. eexists. split; vm_compute; reflexivity. Qed.

(** C36. print_basis, print_basis_grad and print_basis_hess print the table of the stored products of all index tuples, when these can be read. *)
Theorem C36_printed_products : forall (S : SerOps) (print_num : sa S -> text) (s : @series S), nd_reachable (sdflt S) (se_coeff s) ->
  forall print value f,
  (print = se_print_basis print_num s /\ value = se_get_product s) \/
  (exists di, print = se_print_basis_grad print_num s di /\ value = fun tm => se_get_product_grad s tm di) \/
  (exists di dj, print = se_print_basis_hess print_num s di dj /\ value = fun tm => se_get_product_hess s tm di dj) ->
  (forall tm, valid_index (nd_dim (se_coeff s)) tm -> value tm = Ok (f tm)) ->
  exists t vals, print = Ok t /\ table (fun w a => w = print_num a) (nd_dim (se_coeff s)) 0 vals t /\
    Z.of_nat (List.length vals) = nd_volume (se_coeff s) /\
    forall tm, nd_dim (se_coeff s) <> [] -> valid_index (nd_dim (se_coeff s)) tm ->
      nth_error vals (Z.to_nat (row_major (nd_dim (se_coeff s)) tm)) = Some (f tm).
Proof. exact print_products. Qed.
Print Assumptions C36_printed_products.

(** A 2 by 3 table of integers: the text, and reading it back over zeros. *)
Example C36_case :
  number_reader (fun w z => w = print_int z) big_scanner /\ nd_reachable 0 (io_coeff [4; -1; 0; 7; 12; -30]) /\
  nd_reachable 0 (io_coeff [0; 0; 0; 0; 0; 0]) /\ @se_print_coeff int_series print_int (io_series [4; -1; 0; 7; 12; -30]) = Ok io_text /\
  @se_read_coeff int_series big_scanner (io_series [0; 0; 0; 0; 0; 0], is_open (Some io_text)) =
    RRet (io_series [4; -1; 0; 7; 12; -30], is_open (Some [newline])) tt.
Proof.
  repeat match goal with |- _ /\ _ => split end;
    [exact big_reader|apply io_reachable|apply io_reachable|exact io_printed|vm_compute; reflexivity].
Qed.

(** The same numbers in another layout with wrong indices. *)
Example C36_case_loose :
  tokens (entry_text (fun w z => w = print_int z)) loose_text (entries loose_rows) /\ separated loose_rows (txt " tail") /\
  exists i, @se_read_coeff int_series big_scanner (io_series [0; 0; 0; 0; 0; 0], is_open (Some (loose_text ++ txt " tail"))) =
    RRet (io_series [4; -1; 0; 7; 12; -30], i) tt /\ is_rest i = txt " tail".
Proof.
  split; [exact loose_tokens|]. split; [|exact loose_run]. right. right. eexists _, _. split; [reflexivity|]. left. reflexivity.
Qed.

(** The products 1, y, x, x y, x^2, x^2 y and their derivatives in x at (2, 5). *)
Example C36_case_products :
  (let* s := q_series in se_print_basis (S := QS) print_whole s) = Ok (txt "0 0 1
0 1 5
1 0 2
1 1 10
2 0 4
2 1 20
") /\
  (let* s := q_series in se_print_basis_grad (S := QS) print_whole s 0) = Ok (txt "0 0 0
0 1 0
1 0 1
1 1 5
2 0 4
2 1 20
").
Proof. exact q_printed. Qed.
