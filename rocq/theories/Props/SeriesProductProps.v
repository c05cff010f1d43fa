(** Property C65: the functions of a series that concern one term. *)
From Coq Require Import ZArith Reals.
From Coq Require Import List QArith.
From Verif Require Import Model.Outcome Model.Num Model.NumInst Model.PNDArray Model.BasisSet Model.Series Spec.Tensor
  Spec.Basis Spec.Series Spec.Products Proofs.SeriesRP Proofs.SeriesProductP Proofs.SeriesExamples Proofs.SeriesIOExamples Proofs.SeriesProductRP.
Import ListNotations.
Local Open Scope Z_scope.

(** C65. basis(term, var), basis_grad(term, var, di) and basis_hess(term, var, di, dj), after any history and in any arithmetic, return the product of the
    factors of the term, each of the order its variable is differentiated, from the left. They store each factor with its term; the coefficients and
    everything else that is stored stays. *)
Theorem C65_products : forall (S : SerOps) bs zero one (s : series S) fams fs ds t xs m, proper_basis bs -> series_over bs zero one s ->
  (forall j, let k := order_of ds j in implements k bs (fams k)) -> chosen ds (List.length bs) (fun k => at_point (fams k) xs) fs ->
  List.length xs = List.length bs -> valid_index (sizes bs) t -> product_at ds t xs = Some m ->
  exists s', m s = RRet s' (term_product fs t one) /\ series_over bs zero one s' /\
    updates (fun k j u => k = order_of ds (Z.of_nat j) /\ nth_error t j = Some u) (sizes bs) fs s s'.
Proof. exact (@product_fresh). Qed.
Print Assumptions C65_products.

(** C65. basis(term), basis_grad(term, di) and basis_hess(term, di, dj) return the same product of the results stored. *)
Theorem C65_stored_products : forall (S : SerOps) bs zero one (s : series S) fams fs ds t o, proper_basis bs -> series_over bs zero one s ->
  (forall j, let k := order_of ds j in cached s (sizes bs) k (fams k)) -> chosen ds (List.length bs) fams fs ->
  valid_index (sizes bs) t -> product_stored ds t s = Some o -> o = Ok (term_product fs t one).
Proof. exact (@product_kept). Qed.
Print Assumptions C65_stored_products.

(** C65. basis(bindex, term, var), basis_grad and basis_hess of one basis set return that function of the coordinate and store it, nothing else. *)
Theorem C65_one_factor : forall (S : SerOps) bs zero one (s : series S) k phis j phi x t xs n, proper_basis bs -> series_over bs zero one s ->
  implements k bs phis -> nth_error phis j = Some phi -> nth_error xs j = Some x -> nth_error (sizes bs) j = Some n -> 0 <= t < n ->
  List.length xs = List.length bs ->
  exists s', term_at k (Z.of_nat j) t xs s = RRet s' (phi t x) /\ series_over bs zero one s' /\
    updates (fun k' j' u => k' = k /\ j' = j /\ u = t) (sizes bs) (at_point phis xs) s s'.
Proof. exact (@term_fresh). Qed.
Print Assumptions C65_one_factor.

(** C65. eval_basis(var, i), eval_basis_grad, eval_basis_hess store the functions of one basis set at its coordinate, the calls without i those of all
    basis sets, and nothing else changes. *)
Theorem C65_one_set : forall (S : SerOps) bs zero one (s : series S) k phis xs j, proper_basis bs -> series_over bs zero one s -> implements k bs phis ->
  List.length xs = List.length bs -> (j < List.length bs)%nat ->
  exists s', srun (SBasis1 k xs (Z.of_nat j)) s = RRet s' tt /\ series_over bs zero one s' /\
    updates (fun k' j' u => k' = k /\ j' = j) (sizes bs) (at_point phis xs) s s'.
Proof. exact (@refresh_one). Qed.
Print Assumptions C65_one_set.

Theorem C65_all_sets : forall (S : SerOps) bs zero one (s : series S) k phis xs, proper_basis bs -> series_over bs zero one s -> implements k bs phis ->
  List.length xs = List.length bs ->
  exists s', srun (SBasis k xs) s = RRet s' tt /\ series_over bs zero one s' /\ updates (fun k' j' u => k' = k) (sizes bs) (at_point phis xs) s s'.
Proof. exact (@refresh_all). Qed.
Print Assumptions C65_all_sets.

(** C65. Over the reals these are the product of basis functions and its first and second partial derivatives. *)
Theorem C65_derivatives : forall (bs : list (bset R R)) zero (s : series RS) phis dphis ddphis t xs,
  proper_basis (S := RS) bs -> series_over (S := RS) bs zero 1%R s ->
  implements (S := RS) KVal bs phis -> implements (S := RS) KGrad bs dphis -> implements (S := RS) KHess bs ddphis ->
  derivatives phis dphis -> derivatives dphis ddphis -> List.length xs = List.length bs -> valid_index (sizes (S := RS) bs) t ->
  (exists s', se_product (S := RS) t xs s = RRet s' (product_fun phis t xs)) /\
  (forall i, 0 <= i < Z.of_nat (List.length bs) ->
     exists s' g, se_product_grad (S := RS) t xs i s = RRet s' g /\ partial (product_fun phis t) i xs g) /\
  (forall i j, 0 <= i < Z.of_nat (List.length bs) -> 0 <= j < Z.of_nat (List.length bs) ->
     exists s' h, se_product_hess (S := RS) t xs i j s = RRet s' h /\ second (product_fun phis t) i j xs h).
Proof. exact real_products. Qed.
Print Assumptions C65_derivatives.

(** A series over 1, x, x^2 and 1, y; the factors of x^2 y differentiated by x and y are 2x and 1. *)
Example C65_case : proper_basis (S := RS) ex_bs /\ series_over (S := RS) ex_bs 0%R 1%R ex_s /\
  (forall j, let k := order_of [0; 1] j in implements (S := RS) k ex_bs (fams ex_phis ex_dphis ex_ddphis k)) /\
  chosen [0; 1] (List.length ex_bs) (fun k => at_point (fams ex_phis ex_dphis ex_ddphis k) [3%R; 5%R]) [fun k => dmono k 3; fun k => dmono k 5] /\
  valid_index (sizes (S := RS) ex_bs) [2; 1] /\ derivatives ex_phis ex_dphis /\ derivatives ex_dphis ex_ddphis.
Proof.
  split; [exact ex_proper|]. split; [exact ex_over|]. split; [|split; [|split; [|exact ex_derivatives]]].
  - intros j. simpl. destruct ex_implements as (A & B & C). destruct (order_of [0; 1] j); auto.
  - split; [reflexivity|]. intros [|[|[|j]]] f Hf; simpl in *; try discriminate; auto.
  - change (valid_index [3; 2] [2; 1]). repeat constructor; discriminate.
Qed.

(** x^2 y at (3, 7): 63, by x 42, by y 9, by x twice 14, by x and y 6; the results stored for (2, 5) give 20, by x 20. *)
Definition q_answers (s : series QS) : list (option Q) :=
  let run (m : M (series QS) Q) := match m s with RRet _ a => Some (Qred a) | _ => None end in
  let read (o : outcome Q) := match o with Ok a => Some (Qred a) | _ => None end in
  let x := [3%Q; 7%Q] in
  [run (se_product (S := QS) [2; 1] x); run (se_product_grad (S := QS) [2; 1] x 0); run (se_product_grad (S := QS) [2; 1] x 1);
   run (se_product_hess (S := QS) [2; 1] x 0 0); run (se_product_hess (S := QS) [2; 1] x 0 1); run (se_basis_grad1 (S := QS) 0 2 x);
   read (se_get_product (S := QS) s [2; 1]); read (se_get_product_grad (S := QS) s [2; 1] 0)].
Example C65_case_values : (let* s := q_series in Ok (q_answers s)) =
  Ok [Some 63%Q; Some 42%Q; Some 9%Q; Some 14%Q; Some 6%Q; Some 6%Q; Some 20%Q; Some 20%Q].
Proof. vm_compute. reflexivity. Qed.

(** C65. The derivative of a product by a variable that does not exist is refused or 0: refuted, basis_grad returns the product itself. *)
Theorem C65_no_such_variable_refuted : exists (bs : list (bset R R)) (s s' : series RS) phis dphis t xs i,
  proper_basis (S := RS) bs /\ series_over (S := RS) bs 0%R 1%R s /\ implements (S := RS) KVal bs phis /\ implements (S := RS) KGrad bs dphis /\
  derivatives phis dphis /\ valid_index (sizes (S := RS) bs) t /\ List.length xs = List.length bs /\ Z.of_nat (List.length bs) <= i /\
  se_product_grad (S := RS) t xs i s = RRet s' (product_fun phis t xs) /\ product_fun phis t xs <> 0%R.
Proof. exact no_such_variable. Qed.
Print Assumptions C65_no_such_variable_refuted.
