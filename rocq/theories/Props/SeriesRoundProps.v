(** Property C59: series evaluated in binary64. *)
From Coq Require Import ZArith List Bool Reals.
From Flocq Require Import Core.Raux Core.Zaux.
From Verif Require Import Model.Outcome Model.Num Model.NumInst Model.BasisSet Model.Series.
From Verif Require Import Spec.Tensor Spec.Basis Spec.Series Spec.Rounding Spec.SeriesRounding.
From Verif Require Import Proofs.SeriesRoundP Proofs.SeriesRoundExamples.
Import ListNotations.
Local Open Scope R_scope.

(** C59. Value: if the basis functions are computed with relative error [delta], the value of the series is finite and within
    [series_error] of the series of the functions meant, relative to the sum of the sizes of its terms. Basis sets of any
    number and size, any coefficients, and whatever was evaluated before. *)
Theorem C59_value_error :
  forall (bs : list (bset (sx DS) (sa DS))) one (s : series DS) (c : list Z -> f64),
  proper_basis bs -> series_over (S := DS) bs (nofZ FOps 0) one s -> coefficients s (sizes bs) c ->
  forall phis Phis Bs delta (xs : list f64), implements (S := DS) KVal bs phis -> List.length xs = List.length bs -> modest (sizes bs) delta ->
  close_to (sizes bs) delta (at_point phis xs) (at_point Phis (map value xs)) Bs -> in_scale (sizes bs) c Bs ->
  exists s' a, se_call (S := DS) xs s = RRet s' a /\ se_get s' = Ok a /\ finite a /\
    Rabs (value a - series_fun (sizes bs) (fun t => value (c t)) Phis (map value xs)) <= series_error (sizes bs) delta * size_sum (sizes bs) c Bs.
Proof. exact value_error59. Qed.
Print Assumptions C59_value_error.

(** Not trivial: 0.4 x y^2 over the products of 1, x and 1, y, y^2, at (0.4, 0.4), where y^2 is computed as y * y. *)
Example C59_value_error_case : proper_basis (S := DS) se_bs /\
  (exists s, series_over (S := DS) se_bs (nofZ FOps 0) (nofZ FOps 1) s /\ coefficients (S := DS) s (sizes (S := DS) se_bs) se_c) /\
  implements (S := DS) KVal se_bs se_phis /\ List.length se_xs = List.length se_bs /\ modest (sizes (S := DS) se_bs) unit_roundoff /\
  close_to (sizes (S := DS) se_bs) unit_roundoff (at_point se_phis se_xs) (at_point se_Phis (map value se_xs)) se_Bs /\
  in_scale (sizes (S := DS) se_bs) se_c se_Bs.
Proof. exact (conj se_proper (conj se_series (conj (proj1 se_implements) (conj eq_refl (conj se_modest (conj se_close se_scale)))))). Qed.

(** C59. The gradient stored by eval_grad: within the same relative error of the true partial derivative. *)
Theorem C59_gradient_error :
  forall (bs : list (bset (sx DS) (sa DS))) one (s : series DS) (c : list Z -> f64),
  proper_basis bs -> series_over (S := DS) bs (nofZ FOps 0) one s -> coefficients s (sizes bs) c ->
  forall phis dphis Phis dPhis Bs dBs delta (xs : list f64) i, implements (S := DS) KVal bs phis -> implements (S := DS) KGrad bs dphis ->
  List.length xs = List.length bs -> derivatives Phis dPhis -> List.length Phis = List.length bs -> modest (sizes bs) delta ->
  close_to (sizes bs) delta (at_point phis xs) (at_point Phis (map value xs)) Bs ->
  close_to (sizes bs) delta (at_point dphis xs) (at_point dPhis (map value xs)) dBs ->
  (0 <= i < Z.of_nat (List.length bs))%Z -> in_scale (sizes bs) c (by1 Bs dBs i) ->
  exists s' a g, se_eval_grad (S := DS) xs s = RRet s' tt /\ se_get_grad s' i = Ok a /\ finite a /\
    partial (series_fun (sizes bs) (fun t => value (c t)) Phis) i (map value xs) g /\
    Rabs (value a - g) <= series_error (sizes bs) delta * size_sum (sizes bs) c (by1 Bs dBs i).
Proof. exact gradient_error59. Qed.
Print Assumptions C59_gradient_error.

Example C59_gradient_error_case :
  implements (S := DS) KGrad se_bs se_dphis /\ derivatives se_Phis se_dPhis /\ List.length se_Phis = List.length se_bs /\
  close_to (sizes (S := DS) se_bs) unit_roundoff (at_point se_dphis se_xs) (at_point se_dPhis (map value se_xs)) se_dBs /\
  (forall i, (0 <= i < 2)%Z -> in_scale (sizes (S := DS) se_bs) se_c (by1 se_Bs se_dBs i)).
Proof. exact (conj (proj1 (proj2 se_implements)) (conj (proj1 se_derivatives) (conj eq_refl (conj se_dclose se_scale_grad)))). Qed.

(** C59. The Hessian stored by eval_hess. *)
Theorem C59_hessian_error :
  forall (bs : list (bset (sx DS) (sa DS))) one (s : series DS) (c : list Z -> f64),
  proper_basis bs -> series_over (S := DS) bs (nofZ FOps 0) one s -> coefficients s (sizes bs) c ->
  forall phis dphis ddphis Phis dPhis ddPhis Bs dBs ddBs delta (xs : list f64) i j,
  implements (S := DS) KVal bs phis -> implements (S := DS) KGrad bs dphis -> implements (S := DS) KHess bs ddphis ->
  List.length xs = List.length bs -> derivatives Phis dPhis -> derivatives dPhis ddPhis -> List.length Phis = List.length bs -> modest (sizes bs) delta ->
  close_to (sizes bs) delta (at_point phis xs) (at_point Phis (map value xs)) Bs ->
  close_to (sizes bs) delta (at_point dphis xs) (at_point dPhis (map value xs)) dBs ->
  close_to (sizes bs) delta (at_point ddphis xs) (at_point ddPhis (map value xs)) ddBs ->
  (0 <= i < Z.of_nat (List.length bs))%Z -> (0 <= j < Z.of_nat (List.length bs))%Z -> in_scale (sizes bs) c (by2 Bs dBs ddBs i j) ->
  exists s' a g, se_eval_hess (S := DS) xs s = RRet s' tt /\ se_get_hess s' i j = Ok a /\ finite a /\
    second (series_fun (sizes bs) (fun t => value (c t)) Phis) i j (map value xs) g /\
    Rabs (value a - g) <= series_error (sizes bs) delta * size_sum (sizes bs) c (by2 Bs dBs ddBs i j).
Proof. exact hessian_error59. Qed.
Print Assumptions C59_hessian_error.

Example C59_hessian_error_case :
  implements (S := DS) KHess se_bs se_ddphis /\ derivatives se_dPhis se_ddPhis /\
  close_to (sizes (S := DS) se_bs) unit_roundoff (at_point se_ddphis se_xs) (at_point se_ddPhis (map value se_xs)) se_dBs /\
  (forall i j, (0 <= i < 2)%Z -> (0 <= j < 2)%Z -> in_scale (sizes (S := DS) se_bs) se_c (by2 se_Bs se_dBs se_dBs i j)).
Proof. exact (conj (proj2 (proj2 se_implements)) (conj (proj2 se_derivatives) (conj se_ddclose se_scale_hess))). Qed.

(** C59. The relative error is at most twice: [delta] per variable, one roundoff per variable and one per term. *)
Theorem C59_error_is_linear :
  forall (bs : list (bset (sx DS) (sa DS))) delta, proper_basis bs -> modest (sizes bs) delta ->
  series_error (sizes bs) delta <= 2 * (INR (List.length bs) * delta + INR (List.length bs + Z.to_nat (zprod (sizes bs))) * unit_roundoff).
Proof. exact error_linear. Qed.
Print Assumptions C59_error_is_linear.

(** For the example: two variables and six terms. *)
Example C59_error_is_linear_case : List.length se_bs = 2%nat /\ zprod (sizes (S := DS) se_bs) = 6%Z.
Proof. split; reflexivity. Qed.
