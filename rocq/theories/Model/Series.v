(** Model of include/IntegrationTools/pfunction/PSeriesFunction.hh (input and output of coefficients: SeriesIO.v). *)
From Coq Require Import ZArith List Bool String.
From Verif Require Import Model.Outcome Model.Num Model.PNDArray Model.PSimple Model.BasisSet.
Import ListNotations.
Local Open Scope Z_scope.

(** The template parameters InType and OutType with the operations the class uses: OutType's [*=], [+=] and
    value-initialisation, and the implicit conversion of an InType to int (see [se_call_grad]). *)
Record SerOps : Type := mkSer {
  sx : Type;
  sa : Type;
  sadd : sa -> sa -> sa;
  smul : sa -> sa -> sa;
  sdflt : sa;
  sint : sx -> outcome Z
}.

(** double to int: truncation towards zero, undefined when the result does not fit. *)
Definition trunc_to_int (O : NumOps) (x : num O) : outcome Z :=
  match (if nltb O x (nofZ O 0) then option_map Z.opp (nfloor O (nopp O x)) else nfloor O x) with
  | Some k => if in_int k then Ok k else UB UBBadConversion
  | None => UB UBBadConversion
  end.

(** InType = OutType = double. *)
Definition num_series (O : NumOps) : SerOps :=
  mkSer (num O) (num O) (nadd O) (nmul O) (nofZ O 0) (trunc_to_int O).

Section Series.
Context {S : SerOps}.
Local Notation X := (sx S).
Local Notation A := (sa S).
Local Notation pbset := (option (bset X A)).

(** PSeriesFunction.hh 39-50: _coeff, _identity_val, _zero_val, _basis_set, _val, _grad_val, _hess_val. *)
Record series : Type := mkSeries {
  se_coeff : nd A;
  se_one : A;
  se_zero : A;
  se_basis : list pbset;
  se_val : option A;
  se_grad : list A;
  se_hess : list (list A)
}.

(** PSeriesFunction.hh 53-57: constructor without basis sets; _val is not initialised. *)
Definition se_new0 (zero one : A) : series := mkSeries nd_empty one zero [] None [] [].

(** PSeriesFunction.hh 72-82: clear. *)
Definition se_clear : M series unit :=
  mmod (fun s => mkSeries nd_empty (se_one s) (se_zero s) [] (Some (se_zero s)) [] []).

(** PSeriesFunction.hh 91-93: the shape, from the basis sets' sizes. *)
Definition se_dims (bs : list pbset) : outcome (list Z) :=
  ofold (fun dim b => let* n := pb_size b in Ok (dim ++ [n])) bs [].

(** PSeriesFunction.hh 107: [_basis_set\[i\] = basis_set\[i\]], PBasisSet.hh 123-129 with a null left side: the copy is a clone of
    the right side, which must not be null. *)
Definition pb_assign (b : pbset) : outcome pbset :=
  match b with
  | None => UB UBNull
  | Some _ => Ok b
  end.

(** PSeriesFunction.hh 86-110: set. Simplification: the assignment loop (102-108) is over the given list, whose length is
    _coeff.order(). *)
Definition se_set (bs : list pbset) : M series unit :=
  se_clear ;;;
  do* dim := mlift (se_dims bs) in
  do* s := mget in
  do* c := mlift (nd_make (sdflt S) dim) in
  do* l := mlift (ofold (fun l b => let* b' := pb_assign b in Ok (l ++ [b'])) bs []) in
  let n := Z.to_nat (nd_order c) in
  mput (mkSeries c (se_one s) (se_zero s) l (se_val s) (repeat (sdflt S) n) (repeat (repeat (sdflt S) n) n)).

(** PSeriesFunction.hh 59-65: constructor with basis sets. *)
Definition se_new (zero one : A) (bs : list pbset) : outcome series :=
  match se_set bs (se_new0 zero one) with
  | RRet s _ => Ok s
  | RThrow _ e => Throw e
  | RExit => Exit
  | RUB r => UB r
  | RNoFuel => NoFuel
  end.

(** A call on the member _basis_set\[i\]. *)
Definition on_basis {B : Type} (i : Z) (m : M pbset B) : M series B :=
  fun s => match on_elem i m (se_basis s) with
           | RRet l a => RRet (mkSeries (se_coeff s) (se_one s) (se_zero s) l (se_val s) (se_grad s) (se_hess s)) a
           | RThrow l e => RThrow (mkSeries (se_coeff s) (se_one s) (se_zero s) l (se_val s) (se_grad s) (se_hess s)) e
           | RExit => RExit
           | RUB r => RUB r
           | RNoFuel => RNoFuel
           end.

(** A getter of the member _basis_set\[i\]. *)
Definition basis_get (get : pbset -> Z -> outcome A) (s : series) (i term : Z) : outcome A :=
  let* p := vget (se_basis s) i in get p term.

(** PSeriesFunction.hh 298-304: eval_basis(var). *)
Definition se_eval_basis (var : list X) : M series unit :=
  do* s := mget in
  mfor (zseq (nd_order (se_coeff s))) (fun i =>
    do* x := mlift (vget var i) in
    on_basis i (pb_eval x) ;;; mret tt).

(** PSeriesFunction.hh 311-316: eval_basis_grad(var). *)
Definition se_eval_basis_grad (var : list X) : M series unit :=
  do* s := mget in
  mfor (zseq (nd_order (se_coeff s))) (fun i =>
    do* x := mlift (vget var i) in
    on_basis i (pb_eval_grad x) ;;; mret tt).

(** PSeriesFunction.hh 322-327: eval_basis_hess(var). *)
Definition se_eval_basis_hess (var : list X) : M series unit :=
  do* s := mget in
  mfor (zseq (nd_order (se_coeff s))) (fun i =>
    do* x := mlift (vget var i) in
    on_basis i (pb_eval_hess x) ;;; mret tt).

(** PSeriesFunction.hh 305-309, 317-321, 328-332: the same for one basis set. *)
Definition se_eval_basis1 (var : list X) (i : Z) : M series unit :=
  do* x := mlift (vget var i) in on_basis i (pb_eval x) ;;; mret tt.
Definition se_eval_basis_grad1 (var : list X) (i : Z) : M series unit :=
  do* x := mlift (vget var i) in on_basis i (pb_eval_grad x) ;;; mret tt.
Definition se_eval_basis_hess1 (var : list X) (i : Z) : M series unit :=
  do* x := mlift (vget var i) in on_basis i (pb_eval_hess x) ;;; mret tt.

(** The factor of basis set [j] in a product: 493 (value), 513-520 (gradient di), 541-555 (Hessian di dj). *)
Definition pick_val (s : series) (j term : Z) : outcome A := basis_get pb_get s j term.
Definition pick_grad (di : Z) (s : series) (j term : Z) : outcome A :=
  if j =? di then basis_get pb_get_grad s j term else basis_get pb_get s j term.
Definition pick_hess (di dj : Z) (s : series) (j term : Z) : outcome A :=
  if (j =? di) || (j =? dj)
  then if di =? dj then basis_get pb_get_hess s j term else basis_get pb_get_grad s j term
  else basis_get pb_get s j term.

(** The loop nest shared by calc_val (483-496), calc_grad_val (504-525) and calc_hess_val (532-558): [tindex] is overwritten by
    tensor_indices, [tmp] is the product, the sum starts at _zero_val. *)
Definition calc_sum (pick : Z -> Z -> outcome A) (c : nd A) (zero : A) : outcome A :=
  let* r := ofold (fun (r : list Z * A) i =>
      let* tmp := nd_get c i in
      let* tindex := tensor_indices c i (fst r) in
      let* tmp := ofold (fun tmp j =>
          let* t := vget tindex j in
          let* b := pick j t in
          Ok (smul S tmp b)) (zseq (nd_order c)) tmp in
      Ok (tindex, sadd S (snd r) tmp))
    (zseq (nd_volume c)) (repeat 0 (Z.to_nat (nd_order c)), zero) in
  Ok (snd r).

(** PSeriesFunction.hh 481-499: calc_val. *)
Definition calc_val : M series A :=
  do* s := mget in
  do* a := mlift (calc_sum (pick_val s) (se_coeff s) (se_zero s)) in
  mput (mkSeries (se_coeff s) (se_one s) (se_zero s) (se_basis s) (Some a) (se_grad s) (se_hess s)) ;;;
  mret a.

(** PSeriesFunction.hh 502-527: calc_grad_val. *)
Definition calc_grad_val (di : Z) : M series A :=
  do* s := mget in
  do* _ := mlift (vset (se_grad s) di (se_zero s)) in
  do* a := mlift (calc_sum (pick_grad di s) (se_coeff s) (se_zero s)) in
  do* g := mlift (vset (se_grad s) di a) in
  mput (mkSeries (se_coeff s) (se_one s) (se_zero s) (se_basis s) (se_val s) g (se_hess s)) ;;;
  mret a.

(** PSeriesFunction.hh 530-560: calc_hess_val. *)
Definition calc_hess_val (di dj : Z) : M series A :=
  do* s := mget in
  do* row := mlift (vget (se_hess s) di) in
  do* _ := mlift (vset row dj (se_zero s)) in
  do* a := mlift (calc_sum (pick_hess di dj s) (se_coeff s) (se_zero s)) in
  do* row' := mlift (vset row dj a) in
  do* h := mlift (vset (se_hess s) di row') in
  mput (mkSeries (se_coeff s) (se_one s) (se_zero s) (se_basis s) (se_val s) (se_grad s) h) ;;;
  mret a.

(** PSeriesFunction.hh 124-131: operator()(var). *)
Definition se_call (var : list X) : M series A := se_eval_basis var ;;; calc_val.

(** The expression [_basis_set\[i\](var\[i\])] of 144 and 170: with one argument overload resolution picks the const getter
    PBasisSet::operator()(int term), so the coordinate is converted to a term number and a stored value is read and dropped. *)
Definition getter_call (var : list X) (i : Z) : M series unit :=
  do* s := mget in
  do* x := mlift (vget var i) in
  do* k := mlift (sint S x) in
  do* _ := mlift (basis_get pb_get s i k) in
  mret tt.

(** PSeriesFunction.hh 133-150: grad(var, di). *)
Definition se_call_grad (var : list X) (di : Z) : M series A :=
  do* s := mget in
  mfor (zseq (nd_order (se_coeff s))) (fun i =>
    if i =? di
    then do* x := mlift (vget var i) in on_basis i (pb_eval_grad x) ;;; mret tt
    else getter_call var i) ;;;
  calc_grad_val di.

(** PSeriesFunction.hh 152-176: hess(var, di, dj). *)
Definition se_call_hess (var : list X) (di dj : Z) : M series A :=
  do* s := mget in
  mfor (zseq (nd_order (se_coeff s))) (fun i =>
    if (i =? di) || (i =? dj)
    then do* x := mlift (vget var i) in
         (if di =? dj then on_basis i (pb_eval_hess x) else on_basis i (pb_eval_grad x)) ;;; mret tt
    else getter_call var i) ;;;
  calc_hess_val di dj.

(** PSeriesFunction.hh 180-183: eval(var). *)
Definition se_eval (var : list X) : M series unit := se_call var ;;; mret tt.

(** PSeriesFunction.hh 184-192: eval_grad(var). *)
Definition se_eval_grad (var : list X) : M series unit :=
  se_eval_basis var ;;;
  se_eval_basis_grad var ;;;
  do* s := mget in
  mfor (zseq (nd_order (se_coeff s))) (fun i => calc_grad_val i ;;; mret tt).

(** PSeriesFunction.hh 193-205: eval_hess(var). *)
Definition se_eval_hess (var : list X) : M series unit :=
  se_eval_basis var ;;;
  se_eval_basis_grad var ;;;
  se_eval_basis_hess var ;;;
  do* s := mget in
  mfor (zseq (nd_order (se_coeff s))) (fun i =>
    mfor (zseq (nd_order (se_coeff s))) (fun j => calc_hess_val i j ;;; mret tt)).

(** PSeriesFunction.hh 207-218: the getters. *)
Definition se_get (s : series) : outcome A := read_member (se_val s).
Definition se_get_grad (s : series) (di : Z) : outcome A := vget (se_grad s) di.
Definition se_get_hess (s : series) (di dj : Z) : outcome A := let* row := vget (se_hess s) di in vget row dj.

(** PSeriesFunction.hh 227-238: basis, basis_grad, basis_hess of one term of one basis set. *)
Definition se_basis1 (bindex term : Z) (var : list X) : M series A :=
  do* x := mlift (vget var bindex) in on_basis bindex (pb_call term x).
Definition se_basis_grad1 (bindex term : Z) (var : list X) : M series A :=
  do* x := mlift (vget var bindex) in on_basis bindex (pb_call_grad term x).
Definition se_basis_hess1 (bindex term : Z) (var : list X) : M series A :=
  do* x := mlift (vget var bindex) in on_basis bindex (pb_call_hess term x).

(** The loop of 245-246, 254-264, 272-289: a product of freshly evaluated factors. *)
Fixpoint fresh_product (js : list Z) (eval : Z -> Z -> X -> M series A) (term : list Z) (var : list X) (tmp : A) : M series A :=
  match js with
  | [] => mret tmp
  | j :: js' =>
      do* t := mlift (vget term j) in
      do* x := mlift (vget var j) in
      do* a := eval j t x in
      fresh_product js' eval term var (smul S tmp a)
  end.

(** PSeriesFunction.hh 241-249: basis(term, var). *)
Definition se_product (term : list Z) (var : list X) : M series A :=
  do* s := mget in
  fresh_product (zseq (nd_order (se_coeff s))) (fun j t x => on_basis j (pb_call t x)) term var (se_one s).

(** PSeriesFunction.hh 250-267: basis_grad(term, var, di). *)
Definition se_product_grad (term : list Z) (var : list X) (di : Z) : M series A :=
  do* s := mget in
  fresh_product (zseq (nd_order (se_coeff s)))
    (fun j t x => on_basis j (if j =? di then pb_call_grad t x else pb_call t x)) term var (se_one s).

(** PSeriesFunction.hh 268-292: basis_hess(term, var, di, dj). *)
Definition se_product_hess (term : list Z) (var : list X) (di dj : Z) : M series A :=
  do* s := mget in
  fresh_product (zseq (nd_order (se_coeff s)))
    (fun j t x => on_basis j (if (j =? di) || (j =? dj) then if di =? dj then pb_call_hess t x else pb_call_grad t x
                              else pb_call t x)) term var (se_one s).

(** PSeriesFunction.hh 335-346: stored results of one term. *)
Definition se_get_basis (s : series) (bindex term : Z) : outcome A := basis_get pb_get s bindex term.
Definition se_get_basis_grad (s : series) (bindex term : Z) : outcome A := basis_get pb_get_grad s bindex term.
Definition se_get_basis_hess (s : series) (bindex term : Z) : outcome A := basis_get pb_get_hess s bindex term.

(** The loop of 353-354, 362-372, 380-397: a product of stored factors. *)
Definition stored_product (pick : Z -> Z -> outcome A) (s : series) (term : list Z) : outcome A :=
  ofold (fun tmp j => let* t := vget term j in let* b := pick j t in Ok (smul S tmp b))
    (zseq (nd_order (se_coeff s))) (se_one s).

(** PSeriesFunction.hh 349-357, 358-375, 376-400: basis(term), basis_grad(term, di), basis_hess(term, di, dj). *)
Definition se_get_product (s : series) (term : list Z) : outcome A := stored_product (pick_val s) s term.
Definition se_get_product_grad (s : series) (term : list Z) (di : Z) : outcome A := stored_product (pick_grad di s) s term.
Definition se_get_product_hess (s : series) (term : list Z) (di dj : Z) : outcome A := stored_product (pick_hess di dj s) s term.

(** PSeriesFunction.hh 112-115: coeff(), a reference to the coefficient array: any method of it can be called. *)
Definition on_coeff {B : Type} (m : M (nd A) B) : M series B :=
  fun s => match m (se_coeff s) with
           | RRet c a => RRet (mkSeries c (se_one s) (se_zero s) (se_basis s) (se_val s) (se_grad s) (se_hess s)) a
           | RThrow c e => RThrow (mkSeries c (se_one s) (se_zero s) (se_basis s) (se_val s) (se_grad s) (se_hess s)) e
           | RExit => RExit
           | RUB r => RUB r
           | RNoFuel => RNoFuel
           end.

End Series.
Arguments series : clear implicits.
