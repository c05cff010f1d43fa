(** Specification vocabulary for series: tensor-product sums, and what a client may do to a series. *)
From Coq Require Import ZArith List Bool Reals.
From Coquelicot Require Import Coquelicot.
From Coq Require Import List.
From Verif Require Import Model.Outcome Model.Num Model.NumInst Model.PNDArray Model.BasisSet Model.Series
  Spec.Tensor Spec.NDHistory Spec.Basis.
Import ListNotations.
Local Open Scope Z_scope.

(** ** Tensor-product sums in any arithmetic *)

(** 0, 1, ..., n-1 *)
Definition upto (n : Z) : list Z := map Z.of_nat (seq 0 (Z.to_nat n)).

(** All index tuples of a shape in lexicographic order. *)
Fixpoint tuples (dims : list Z) : list (list Z) :=
  match dims with
  | [] => [[]]
  | d :: ds => flat_map (fun i => map (cons i) (tuples ds)) (upto d)
  end.

(** The factors selected by an index tuple from one function of the index per variable. *)
Definition factors {A : Type} (fs : list (Z -> A)) (t : list Z) : list A :=
  map (fun p => fst p (snd p)) (combine fs t).

(** The sum over all index tuples of coefficient times factors, in the order written: products from the left starting at
    the coefficient, the sum from the left starting at [zero]. *)
Definition tensor_sum (S : SerOps) (dims : list Z) (c : list Z -> sa S) (fs : list (Z -> sa S)) (zero : sa S) : sa S :=
  fold_left (sadd S) (map (fun t => fold_left (smul S) (factors fs t) (c t)) (tuples dims)) zero.

(** One-variable functions (term number, argument), one family per variable, at a point. *)
Definition at_point {X A : Type} (phis : list (Z -> X -> A)) (xs : list X) : list (Z -> A) :=
  map (fun p k => fst p k (snd p)) (combine phis xs).

(** The families with family [i] replaced by that of another list. *)
Definition swap {B : Type} (l : list B) (i : Z) (l' : list B) : list B :=
  match nth_error l' (Z.to_nat i) with
  | Some b => lset l (Z.to_nat i) b
  | None => l
  end.

(** Differentiating the product of the families by variable [i], and by [i] and [j]. *)
Definition by1 {B : Type} (f df : list B) (i : Z) : list B := swap f i df.
Definition by2 {B : Type} (f df ddf : list B) (i j : Z) : list B :=
  if i =? j then swap f i ddf else swap (swap f i df) j df.

(** ** Nested sums over the reals *)
Fixpoint nested_sum (dims : list Z) (F : list Z -> R) : R :=
  match dims with
  | [] => F []
  | d :: ds => fold_right Rplus 0%R (map (fun i => nested_sum ds (fun t => F (i :: t))) (upto d))
  end.

Definition product (l : list R) : R := fold_right Rmult 1%R l.

(** The series with coefficients [c] and families [phis] as a function of the point. *)
Definition series_fun (dims : list Z) (c : list Z -> R) (phis : list (Z -> R -> R)) (xs : list R) : R :=
  nested_sum dims (fun t => (c t * product (factors (at_point phis xs) t))%R).

(** [v] is the partial derivative of [f] by coordinate [i] at [x]; the second one by [i], then [j]. *)
Definition partial (f : list R -> R) (i : Z) (x : list R) (v : R) : Prop :=
  exists xi, nth_error x (Z.to_nat i) = Some xi /\ is_derive (fun u : R => f (lset x (Z.to_nat i) u)) xi v.
Definition second (f : list R -> R) (i j : Z) (x : list R) (v : R) : Prop :=
  exists D, (forall y, List.length y = List.length x -> partial f i y (D y)) /\ partial D j x v.

(** Each family's derivative list is the true derivative. *)
Definition derivatives (phis dphis : list (Z -> R -> R)) : Prop :=
  Forall2 (fun phi dphi => forall k u, is_derive (phi k) u (dphi k u)) phis dphis.

Section Client.
Context {S : SerOps}.
Local Notation X := (sx S).
Local Notation A := (sa S).

(** The term functions of the basis sets, where they exist. *)
Definition implements (k : kind) (bs : list (bset X A)) (phis : list (Z -> X -> A)) : Prop :=
  Forall2 (fun b phi => forall t x, 0 <= t < bs_size b ->
    terms_of (bs_fun b) (bs_dfun b) (bs_ddfun b) k t x = Ok (phi t x)) bs phis.

(** Sizes for which the coefficient array can be built. *)
Definition sizes (bs : list (bset X A)) : list Z := map bs_size bs.
Definition fit_sizes (dims : list Z) : Prop := usable_shape dims /\ Forall (fun n => n <= int_max) dims.

(** ** What a client may do to a series *)
Inductive scall : Type :=
| SCall (x : list X)
| SGrad (x : list X) (i : Z)
| SHess (x : list X) (i j : Z)
| SEval (x : list X)
| SEvalGrad (x : list X)
| SEvalHess (x : list X)
| SBasis (k : kind) (x : list X)
| SBasis1 (k : kind) (x : list X) (i : Z)
| STerm (k : kind) (i t : Z) (x : list X)
| SProduct (t : list Z) (x : list X)
| SProductGrad (t : list Z) (x : list X) (i : Z)
| SProductHess (t : list Z) (x : list X) (i j : Z)
| SSetCoeff (i : Z) (a : A)
| SPutCoeff (t : list Z) (a : A).

Definition srun (c : scall) : M (series S) unit :=
  match c with
  | SCall x => se_call x ;;; mret tt
  | SGrad x i => se_call_grad x i ;;; mret tt
  | SHess x i j => se_call_hess x i j ;;; mret tt
  | SEval x => se_eval x
  | SEvalGrad x => se_eval_grad x
  | SEvalHess x => se_eval_hess x
  | SBasis KVal x => se_eval_basis x
  | SBasis KGrad x => se_eval_basis_grad x
  | SBasis KHess x => se_eval_basis_hess x
  | SBasis1 KVal x i => se_eval_basis1 x i
  | SBasis1 KGrad x i => se_eval_basis_grad1 x i
  | SBasis1 KHess x i => se_eval_basis_hess1 x i
  | STerm KVal i t x => se_basis1 i t x ;;; mret tt
  | STerm KGrad i t x => se_basis_grad1 i t x ;;; mret tt
  | STerm KHess i t x => se_basis_hess1 i t x ;;; mret tt
  | SProduct t x => se_product t x ;;; mret tt
  | SProductGrad t x i => se_product_grad t x i ;;; mret tt
  | SProductHess t x i j => se_product_hess t x i j ;;; mret tt
  | SSetCoeff i a => on_coeff (lift_set (fun c => nd_set c i a))
  | SPutCoeff t a => on_coeff (lift_set (fun c => nd_put c t a))
  end.

(** A series built over [bs] (by a constructor or by set on any series) and used in any way that returns or throws. *)
Inductive series_over (bs : list (bset X A)) (zero one : A) : series S -> Prop :=
| SBuilt : forall s s0, se_zero s = zero -> se_one s = one -> se_set (map Some bs) s = RRet s0 tt -> series_over bs zero one s0
| SRet : forall s c s', series_over bs zero one s -> srun c s = RRet s' tt -> series_over bs zero one s'
| SThrow : forall s c s' e, series_over bs zero one s -> srun c s = RThrow s' e -> series_over bs zero one s'.

(** Basis sets a client may have built, of sizes the coefficient array supports. *)
Definition proper_basis (bs : list (bset X A)) : Prop :=
  Forall (reachable_bset (sdflt S)) bs /\ fit_sizes (sizes bs).

(** The coefficients a client reads off the series. *)
Definition coefficients (s : series S) (dims : list Z) (c : list Z -> A) : Prop :=
  forall t, valid_index dims t -> nd_at (se_coeff s) t = Ok (c t).

(** The stored results of the basis sets a client reads off the series. *)
Definition stored_basis (s : series S) (k : kind) (j t : Z) : outcome A :=
  match k with KVal => se_get_basis s j t | KGrad => se_get_basis_grad s j t | KHess => se_get_basis_hess s j t end.
Definition cached (s : series S) (dims : list Z) (k : kind) (fs : list (Z -> A)) : Prop :=
  List.length fs = List.length dims /\
  forall j n f t, nth_error dims j = Some n -> nth_error fs j = Some f -> 0 <= t < n ->
    stored_basis s k (Z.of_nat j) t = Ok (f t).

(** The coordinates of the variables that are not selected can serve as term numbers of their basis sets. *)
Definition readable (bs : list (bset X A)) (sel : Z -> bool) (xs : list X) : Prop :=
  forall j b x, nth_error bs j = Some b -> nth_error xs j = Some x -> sel (Z.of_nat j) = false ->
    exists k, sint S x = Ok k /\ 0 <= k < bs_size b.

End Client.

(** The conversion of the argument type to int gives an int or is undefined. *)
Definition int_conversion (S : SerOps) : Prop :=
  forall x, match sint S x with Ok k => fits_int k | UB _ => True | _ => False end.
Arguments scall : clear implicits.
