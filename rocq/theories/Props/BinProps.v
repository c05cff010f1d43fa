(** Properties C06-C12: the bin grid. *)
From Coq Require Import ZArith List Lia Reals Lra.
From Verif Require Import Model.Outcome Model.Num Model.NumInst Model.PNDArray Model.Bin.
From Verif Require Import Spec.Tensor Spec.Grid.
From Verif Require Import Proofs.BinP Proofs.BinRP Proofs.BinLaterP Proofs.BinFloatP Proofs.BinEdgeP Proofs.BinExamples.
Import ListNotations.
Local Open Scope Z_scope.

(** C06. In any reachable grid, add(x, c) returns; afterwards the bin of every coordinate of the cell of c has x
    appended, and the bin of every other coordinate is unchanged. *)
Theorem C06_add_reaches_its_cell :
  forall (T : Type) (teqb : T -> T -> bool) (mn inc : list R) (N : list Z), proper_grid mn inc N ->
  forall (b : bin ROps T) x c, bin_reachable teqb mn inc N b -> inside mn inc N c ->
  exists b', bin_add x c b = RRet b' tt /\ bin_reachable teqb mn inc N b' /\
    forall c', inside mn inc N c' -> exists l, view b c' = Ok l /\
      (same_cell mn inc c c' -> view b' c' = Ok (l ++ [x])) /\
      (~ same_cell mn inc c c' -> view b' c' = Ok l).
Proof. exact @bin_add_spec. Qed.
Print Assumptions C06_add_reaches_its_cell.

(** C06, the start and the queries: a new grid is reachable and empty; contents changes nothing. *)
Theorem C06_new_grid_is_empty :
  forall (T : Type) (teqb : T -> T -> bool) (mn inc : list R) (N : list Z), proper_grid mn inc N ->
  exists b : bin ROps T, bin_make mn inc N = Ok b /\ bin_reachable teqb mn inc N b /\
    forall c, inside mn inc N c -> view b c = Ok [].
Proof. exact @bin_make_spec. Qed.
Print Assumptions C06_new_grid_is_empty.

Theorem C06_contents_is_pure :
  forall (T : Type) (teqb : T -> T -> bool) (mn inc : list R) (N : list Z), proper_grid mn inc N ->
  forall (b : bin ROps T) c, bin_reachable teqb mn inc N b -> inside mn inc N c ->
  exists b' l, bin_contents c b = RRet b' l /\ bin_reachable teqb mn inc N b' /\
    forall c', inside mn inc N c' -> view b' c' = view b c'.
Proof. exact @bin_contents_spec. Qed.
Print Assumptions C06_contents_is_pure.

(** A 4 x 3 grid over [0,2) x [-1,2), two points of one cell and a point of another cell. *)
Example C06_case :
  proper_grid [0; -1]%R [1/2; 1]%R [4; 3] /\
  inside [0; -1]%R [1/2; 1]%R [4; 3] [3/4; 0]%R /\ inside [0; -1]%R [1/2; 1]%R [4; 3] [1/2; 1/2]%R /\
  same_cell [0; -1]%R [1/2; 1]%R [3/4; 0]%R [1/2; 1/2]%R /\
  ~ same_cell [0; -1]%R [1/2; 1]%R [3/4; 0]%R [1; 0]%R.
Proof. exact (conj ex_grid (conj ex_inside1 (conj ex_inside2 (conj ex_same ex_other)))). Qed.

(** The same grid run in binary64: 7 is added at (0.75, 0); read at (0.5, 0.5) and at (1, 0). *)
Example C06_run :
  (let* b := ex_f64_grid in
   match bin_add 7 [f64_make 3 (-2); f64_make 0 0] b with
   | RRet b1 _ => let* l1 := view b1 [f64_make 1 (-1); f64_make 1 (-1)] in
                  let* l2 := view b1 [f64_make 1 0; f64_make 0 0] in Ok (l1, l2)
   | _ => Exit
   end) = Ok ([7], []).
Proof. vm_compute; reflexivity. Qed.

(** C07. add_range returns (so it terminates) and appends x exactly once to each bin of the index cuboid spanned by
    the cells of the two corners; other bins keep their contents. *)
Theorem C07_add_range_covers_the_box :
  forall (T : Type) (teqb : T -> T -> bool) (mn inc : list R) (N : list Z), proper_grid mn inc N ->
  forall (b : bin ROps T) x clo chi, bin_reachable teqb mn inc N b ->
  inside mn inc N clo -> inside mn inc N chi -> below clo chi ->
  exists b', bin_add_range x clo chi b = RRet b' tt /\ bin_reachable teqb mn inc N b' /\
    forall c t tlo thi, inside mn inc N c ->
      in_cell mn inc t c -> in_cell mn inc tlo clo -> in_cell mn inc thi chi ->
      exists l, view b c = Ok l /\
      (Forall3 (fun kl kh k => kl <= k <= kh) tlo thi t -> view b' c = Ok (l ++ [x])) /\
      (~ Forall3 (fun kl kh k => kl <= k <= kh) tlo thi t -> view b' c = Ok l).
Proof. exact @bin_add_range_spec. Qed.
Print Assumptions C07_add_range_covers_the_box.

(** Corners in cells (1,0) and (2,1); a point of cell (2,0) is covered, one of cell (3,1) is not. *)
Example C07_case :
  inside [0; -1]%R [1/2; 1]%R [4; 3] [3/4; -1/2]%R /\ inside [0; -1]%R [1/2; 1]%R [4; 3] [1; 1/2]%R /\
  below [3/4; -1/2]%R [1; 1/2]%R /\
  in_cell [0; -1]%R [1/2; 1]%R [1; 0] [3/4; -1/2]%R /\ in_cell [0; -1]%R [1/2; 1]%R [2; 1] [1; 1/2]%R.
Proof. exact (conj ex_lo (conj ex_hi (conj ex_below (conj ex_cell_lo ex_cell_hi)))). Qed.

Example C07_run :
  (let* b := ex_f64_grid in
   match bin_add_range 7 [f64_make 3 (-2); f64_make (-1) (-1)] [f64_make 1 0; f64_make 1 (-1)] b with
   | RRet b1 _ => Ok (nd_val (bin_item b1))
   | _ => Exit
   end) = Ok [[]; []; []; [7]; [7]; []; [7]; [7]; []; []; []; []].
Proof. vm_compute; reflexivity. Qed.

(** C08. add_once(x, c) leaves x in the bin of c: appended if it was not there, untouched otherwise. *)
Theorem C08_add_once_adds_if_absent :
  forall (T : Type) (teqb : T -> T -> bool) (mn inc : list R) (N : list Z), proper_grid mn inc N ->
  forall (b : bin ROps T) x c, decides_eq teqb -> bin_reachable teqb mn inc N b -> inside mn inc N c ->
  exists b' l, view b c = Ok l /\ bin_add_once teqb x c b = RRet b' tt /\ bin_reachable teqb mn inc N b' /\
    (forall c', inside mn inc N c' ->
       (same_cell mn inc c c' /\ ~ In x l -> view b' c' = Ok (l ++ [x])) /\
       (~ same_cell mn inc c c' \/ In x l -> view b' c' = view b c')).
Proof. exact @bin_add_once_spec. Qed.
Print Assumptions C08_add_once_adds_if_absent.

(** C08. Whatever sequence of add_once calls (and queries, and rejected coordinates) was made, no bin holds an item
    twice. *)
Theorem C08_add_once_never_duplicates :
  forall (T : Type) (teqb : T -> T -> bool) (mn inc : list R) (N : list Z), proper_grid mn inc N ->
  forall b : bin ROps T, decides_eq teqb -> once_reachable teqb mn inc N b ->
  forall c, inside mn inc N c -> exists l, view b c = Ok l /\ NoDup l.
Proof. exact @once_nodup. Qed.
Print Assumptions C08_add_once_never_duplicates.

Example C08_case : decides_eq Z.eqb /\
  exists b : bin ROps Z, once_reachable Z.eqb [0; -1]%R [1/2; 1]%R [4; 3] b /\ view b [3/4; 0]%R = Ok [7].
Proof. exact (conj ex_decides ex_once). Qed.

(** 7 twice and 8 once into one cell. *)
Example C08_run :
  (let* b := ex_f64_grid in
   match (bin_add_once Z.eqb 7 [f64_make 3 (-2); f64_make 0 0] ;;;
          bin_add_once Z.eqb 8 [f64_make 1 (-1); f64_make 0 0] ;;;
          bin_add_once Z.eqb 7 [f64_make 1 (-1); f64_make 1 (-1)]) b with
   | RRet b1 _ => view b1 [f64_make 3 (-2); f64_make 0 0]
   | _ => Exit
   end) = Ok [7; 8].
Proof. vm_compute; reflexivity. Qed.

(** C09. A coordinate outside the limits makes every call throw domain_error, and no bin changes. *)
Theorem C09_outside_is_rejected :
  forall (T : Type) (teqb : T -> T -> bool) (mn inc : list R) (N : list Z), proper_grid mn inc N ->
  forall (b : bin ROps T) (o : bin_op ROps T), bin_reachable teqb mn inc N b ->
  match o with
  | BAdd _ c => outside mn inc N c
  | BAddOnce _ c => outside mn inc N c
  | BAddRange _ lo hi => length lo = length N /\ length hi = length N /\
                         (outside mn inc N lo \/ outside mn inc N hi)
  | BContents c => outside mn inc N c
  end ->
  exists b', bin_step teqb o b = RThrow b' DomainError /\
    forall c, inside mn inc N c -> view b' c = view b c.
Proof. exact @bin_outside_spec. Qed.
Print Assumptions C09_outside_is_rejected.

Example C09_case : outside [0; -1]%R [1/2; 1]%R [4; 3] [3/4; 5]%R /\
  (let* b := ex_f64_grid in
   match bin_step Z.eqb (BAdd 7 [f64_make 3 (-2); f64_make 5 0]) b with
   | RThrow b1 DomainError => view b1 [f64_make 3 (-2); f64_make 0 0]
   | _ => Exit
   end) = Ok [].
Proof. split; [exact ex_outside|vm_compute; reflexivity]. Qed.

(** C10. A coordinate that passes the range check gets an index inside the grid exactly when it is below the upper limits. *)
Theorem C10_index_valid_iff_below_upper_limit :
  forall (T : Type) (teqb : T -> T -> bool) (mn inc : list R) (N : list Z), proper_grid mn inc N ->
  forall (b : bin ROps T) c, bin_reachable teqb mn inc N b ->
  length c = length N -> ~ outside mn inc N c ->
  exists b', bin_find c b = RRet b' tt /\ (valid_index N (bin_indices b') <-> inside mn inc N c).
Proof. exact @bin_index_valid_iff. Qed.
Print Assumptions C10_index_valid_iff_below_upper_limit.

(** C10. On the upper limit of the first dimension the access lies outside the storage (undefined behaviour). *)
Theorem C10_upper_limit_first_dimension_undefined :
  forall (T : Type) (teqb : T -> T -> bool) a h n mn inc N (b : bin ROps T) c,
  proper_grid (a :: mn) (h :: inc) (n :: N) -> bin_reachable teqb (a :: mn) (h :: inc) (n :: N) b ->
  inside mn inc N c ->
  exists r, view b ((a + h * IZR n)%R :: c) = UB r.
Proof. exact @upper_limit_first_dimension. Qed.
Print Assumptions C10_upper_limit_first_dimension_undefined.

(** C10. On the upper limit of the second of two dimensions the access reads the first bin of the next row. *)
Theorem C10_upper_limit_second_dimension_aliases :
  forall (T : Type) (teqb : T -> T -> bool) a0 a1 h0 h1 n0 n1 (b : bin ROps T) c,
  proper_grid [a0; a1] [h0; h1] [n0; n1] -> bin_reachable teqb [a0; a1] [h0; h1] [n0; n1] b ->
  (a0 <= c)%R -> (c + h0 < a0 + h0 * IZR n0)%R ->
  view b [c; (a1 + h1 * IZR n1)%R] = view b [(c + h0)%R; a1].
Proof. exact @upper_limit_second_dimension. Qed.
Print Assumptions C10_upper_limit_second_dimension_aliases.

(** C10. "Every accepted coordinate is safe" is false: here on the doubles themselves, for the 4 x 3 grid. *)
Theorem C10_accepted_coordinate_is_safe_refuted :
  exists (mn inc : list f64) (N : list Z) (b : bin FOps Z) (c : list f64) (r : ub_reason),
    proper_shape N /\ bin_make mn inc N = Ok b /\
    Forall3 (fun a z x => nltb FOps x a = false /\ nltb FOps z x = false) mn (bin_max b) c /\
    view b c = UB r.
Proof. exact upper_limit_refuted. Qed.
Print Assumptions C10_accepted_coordinate_is_safe_refuted.

(** An item in cell (2,0) is seen at (0.75, 2), on the upper limit, as if it were in cell (1,3). *)
Example C10_case :
  (let* b := ex_f64_grid in
   match bin_add 7 [f64_make 5 (-2); f64_make (-1) 0] b with
   | RRet b1 _ => Ok (view b1 [f64_make 3 (-2); f64_make 2 0], view b1 [f64_make 2 0; f64_make 0 0])
   | _ => Exit
   end) = Ok (Ok [7], UB UBOutOfBounds).
Proof. vm_compute; reflexivity. Qed.

(** C11. In IEEE binary64 arithmetic: an item registered by add_range(x, lo, hi) is in the bin of every point p with
    lo <= p <= hi, also after any later calls. The only thing asked of the grid is positive spacing; rounding,
    subnormals, overflow to infinity are all included. *)
Theorem C11_box_is_found_binary64 :
  forall (T : Type) (teqb : T -> T -> bool) (mn inc : list f64) (N : list Z) (b0 b b1 b2 : bin FOps T) x lo hi p,
  proper_shape N -> length mn = length N -> length inc = length N ->
  Forall (fun h => nltb FOps (nofZ FOps 0) h = true) inc ->
  length lo = length N -> length hi = length N ->
  bin_make mn inc N = Ok b0 -> later teqb b0 b ->
  bin_add_range x lo hi b = RRet b1 tt -> later teqb b1 b2 ->
  Forall2 (fun x y => nleb FOps x y = true) lo p -> Forall2 (fun x y => nleb FOps x y = true) p hi ->
  exists l, view b2 p = Ok l /\ In x l.
Proof. exact box_found_binary64. Qed.
Print Assumptions C11_box_is_found_binary64.

(** C11, for real arithmetic with any monotone rounding after each operation (any precision, any rounding mode; the
    identity gives exact arithmetic). *)
Theorem C11_box_is_found_any_rounding :
  forall (rnd : R -> R), (forall x y, (x <= y)%R -> (rnd x <= rnd y)%R) ->
  forall (T : Type) (teqb : T -> T -> bool) (mn inc : list R) (N : list Z) (b0 b b1 b2 : bin (RndOps rnd) T) x
         (lo hi p : list R),
  proper_shape N -> length mn = length N -> length inc = length N -> Forall (fun h => (0 < h)%R) inc ->
  length lo = length N -> length hi = length N ->
  bin_make (O := RndOps rnd) mn inc N = Ok b0 -> later teqb b0 b ->
  bin_add_range (O := RndOps rnd) x lo hi b = RRet b1 tt -> later teqb b1 b2 ->
  Forall2 Rle lo p -> Forall2 Rle p hi ->
  exists l, view (O := RndOps rnd) b2 p = Ok l /\ In x l.
Proof. exact box_found_rounded. Qed.
Print Assumptions C11_box_is_found_any_rounding.

(** C11. Nothing is ever removed: in any arithmetic, what a coordinate shows is a prefix of what it shows later. *)
Theorem C11_contents_only_grow :
  forall (O : NumOps) (T : Type) (teqb : T -> T -> bool) (mn inc : list (num O)) N (b0 b b' : bin O T) c l,
  proper_shape N -> length mn = length N -> length inc = length N -> length c = length N ->
  bin_make mn inc N = Ok b0 -> later teqb b0 b -> later teqb b b' ->
  view b c = Ok l -> exists l', view b' c = Ok (l ++ l').
Proof. exact @contents_persist. Qed.
Print Assumptions C11_contents_only_grow.

(** Spacing 0.1 (not a binary64 number): the corner 0.3 has the rounded index 2, not 3, and so has every point
    found between the corners. *)
Example C11_case :
  (let* b := bin_make (O := FOps) [f64_make 0 0] [ex_tenth] [10] in
   match bin_add_range 7 [ex_tenth] [ex_three_tenths] b with
   | RRet b1 _ => let* l1 := view b1 [ex_three_tenths] in
                  let* l2 := view b1 [f64_make 1 (-2)] in Ok (l1, l2, nd_val (bin_item b1))
   | _ => Exit
   end) = Ok ([7], [7], [[]; [7]; [7]; []; []; []; []; []; []; []]).
Proof. vm_compute; reflexivity. Qed.

(** C12. max_size is an upper bound of the number of items in every bin, and attained. *)
Theorem C12_max_size_bounds_every_bin :
  forall (T : Type) (teqb : T -> T -> bool) (mn inc : list R) (N : list Z), proper_grid mn inc N ->
  forall b : bin ROps T, bin_reachable teqb mn inc N b ->
  exists m, bin_max_size b = Ok m /\
    (forall c l, inside mn inc N c -> view b c = Ok l -> Z.of_nat (length l) <= m) /\
    (exists c l, inside mn inc N c /\ view b c = Ok l /\ Z.of_nat (length l) = m).
Proof. exact @bin_max_size_spec. Qed.
Print Assumptions C12_max_size_bounds_every_bin.

(** C12 for an object without grid (default constructor): 0. *)
Theorem C12_max_size_of_nothing :
  forall (O : NumOps) (T : Type), bin_max_size (@bin_empty O T) = Ok 0.
Proof. reflexivity. Qed.
Print Assumptions C12_max_size_of_nothing.

(** C12. clear() makes such an object of any other: then every coordinate is undefined behaviour, whatever is looked up or added. *)
Theorem C12_cleared :
  forall (O : NumOps) (T : Type) (teqb : T -> T -> bool) (b : bin O T), exists b', bin_clear b = RRet b' tt /\ bin_max_size b' = Ok 0 /\
  forall c c' x, bin_contents c b' = RUB UBOutOfBounds /\ bin_add x c b' = RUB UBOutOfBounds /\ bin_add_once teqb x c b' = RUB UBOutOfBounds /\
    bin_add_range x c c' b' = RUB UBOutOfBounds.
Proof. exact @cleared. Qed.
Print Assumptions C12_cleared.

Example C12_case :
  (let* b := ex_f64_grid in
   match (bin_add 7 [f64_make 3 (-2); f64_make 0 0] ;;; bin_add 8 [f64_make 1 (-1); f64_make 0 0] ;;;
          bin_add 9 [f64_make 1 0; f64_make 0 0]) b with
   | RRet b1 _ => bin_max_size b1
   | _ => Exit
   end) = Ok 2.
Proof. vm_compute; reflexivity. Qed.
