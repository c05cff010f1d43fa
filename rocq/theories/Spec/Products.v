(** Specification vocabulary for the functions of a series that concern one term. *)
From Coq Require Import ZArith List Reals.
From Verif Require Import Model.Outcome Model.PNDArray Model.BasisSet Model.Series Spec.Tensor Spec.Basis Spec.Series.
Import ListNotations.
Local Open Scope Z_scope.

(** What is needed of the basis set of variable [j] to differentiate a product once by each variable listed. *)
Definition order_of (ds : list Z) (j : Z) : kind :=
  match count_occ Z.eq_dec ds j with
  | 0%nat => KVal
  | 1%nat => KGrad
  | _ => KHess
  end.

Section Products.
Context {S : SerOps}.

(** The methods: basis, basis_grad and basis_hess of a term at a point, and of the results stored. *)
Definition product_at (ds : list Z) (t : list Z) (xs : list (sx S)) : option (M (series S) (sa S)) :=
  match ds with
  | [] => Some (se_product t xs)
  | [i] => Some (se_product_grad t xs i)
  | [i; j] => Some (se_product_hess t xs i j)
  | _ => None
  end.
Definition product_stored (ds : list Z) (t : list Z) (s : series S) : option (outcome (sa S)) :=
  match ds with
  | [] => Some (se_get_product s t)
  | [i] => Some (se_get_product_grad s t i)
  | [i; j] => Some (se_get_product_hess s t i j)
  | _ => None
  end.
Definition term_at (k : kind) (i t : Z) (xs : list (sx S)) : M (series S) (sa S) :=
  match k with KVal => se_basis1 i t xs | KGrad => se_basis_grad1 i t xs | KHess => se_basis_hess1 i t xs end.

(** One function of the index for each of [n] variables: that of the order the variable is differentiated. *)
Definition chosen {B : Type} (ds : list Z) (n : nat) (fams : kind -> list B) (fs : list B) : Prop :=
  List.length fs = n /\
  forall j f, nth_error fs j = Some f -> nth_error (fams (order_of ds (Z.of_nat j))) j = Some f.

(** The product of the factors of a term, from the left, starting at [one]. *)
Definition term_product (fs : list (Z -> sa S)) (t : list Z) (one : sa S) : sa S := fold_left (smul S) (factors fs t) one.

(** Nothing a client can read has changed but the stored results of the terms selected. *)
Definition updates (sel : kind -> nat -> Z -> Prop) (dims : list Z) (fs : list (Z -> sa S)) (s s' : series S) : Prop :=
  se_coeff s' = se_coeff s /\ se_get s' = se_get s /\ (forall i, se_get_grad s' i = se_get_grad s i) /\
  (forall i j, se_get_hess s' i j = se_get_hess s i j) /\
  forall k j n f t, nth_error dims j = Some n -> nth_error fs j = Some f -> 0 <= t < n ->
    (sel k j t -> stored_basis s' k (Z.of_nat j) t = Ok (f t)) /\
    (~ sel k j t -> stored_basis s' k (Z.of_nat j) t = stored_basis s k (Z.of_nat j) t).
End Products.

(** The product of basis functions of a term as a function of the point. *)
Definition product_fun (phis : list (Z -> R -> R)) (t : list Z) (xs : list R) : R := product (factors (at_point phis xs) t).
