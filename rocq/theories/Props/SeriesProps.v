(** Properties of basis sets and series. *)
From Coq Require Import ZArith Reals List QArith.
From Verif Require Import Model.Outcome Model.Num Model.NumInst Model.PNDArray Model.BasisSet Model.Series Model.Iface Spec.Tensor
  Spec.Basis Spec.Series Proofs.BasisP Proofs.SeriesRP Proofs.SeriesClientP Proofs.SeriesExamples.
Import ListNotations.
Local Open Scope Z_scope.

(** C31. After any history the set has the size last given to it and the getter of each of its terms returns the result last
    computed for that term and kind (the default if there is none); other terms are out of bounds. *)
Theorem C31_getter_is_last_result :
  forall (X A : Type) (d : A) (F : terms X A) b n m, bhistory d F b n m ->
  bs_size b = n /\
  (forall k t, 0 <= t < n -> bstored b k t = Ok (match m k t with Some a => a | None => d end)) /\
  (forall k t, ~ 0 <= t < n -> bstored b k t = UB UBOutOfBounds).
Proof. exact (@stored_is_last). Qed.
Print Assumptions C31_getter_is_last_result.

(** A single evaluation returns the term's result; an evaluation of all terms returns and stores every one of them. *)
Theorem C31_single_evaluation :
  forall (X A : Type) (d : A) (F : terms X A) b n m k t x, bhistory d F b n m -> 0 <= t < n ->
  res_outcome (bevaluate k t x b) = F k t x.
Proof. exact (@single_returns). Qed.
Print Assumptions C31_single_evaluation.

Theorem C31_all_refreshed :
  forall (X A : Type) (d : A) (F : terms X A) b n m k x g, bhistory d F b n m ->
  (forall t, 0 <= t < n -> F k t x = Ok (g t)) ->
  exists b', bevaluate_all k x b = RRet b' (map g (zseq n)) /\ (forall t, 0 <= t < n -> bstored b' k t = Ok (g t)).
Proof. exact (@all_return). Qed.
Print Assumptions C31_all_refreshed.

(** The same results are read through the wrapper class, whose terms are ints. *)
Theorem C31_wrapper_reads_the_same :
  forall (X A : Type) (d : A) (F : terms X A) b n m k t, bhistory d F b n m -> - 2 ^ 31 <= t < 2 ^ 31 ->
  pbstored (Some b) k t = bstored b k t.
Proof. exact (@wrapper_reads_the_same). Qed.
Print Assumptions C31_wrapper_reads_the_same.

(** So is the size; max_size is the limit, and -1 for a set without limit. *)
Theorem C31_wrapper_sizes :
  forall (X A : Type) (d : A) (F : terms X A) b n m, bhistory d F b n m ->
  (n < 2 ^ 31 -> pb_size (Some b) = Ok n) /\
  (forall l, bs_limit b = Some l -> 0 <= l < 2 ^ 31 -> pb_max_size (Some b) = Ok l) /\
  (bs_limit b = None -> pb_max_size (Some b) = Ok (-1)).
Proof. exact (@wrapper_sizes). Qed.
Print Assumptions C31_wrapper_sizes.

(** Resizing through the wrapper to any int: a number within the limit is the same as resizing the set; more terms, or a negative number, end the
    program for a set with a limit; a negative number for a set without one is a length_error that leaves the set as it was. *)
Theorem C31_wrapper_resize :
  forall (X A : Type) (d : A) (F : terms X A) b n m N, bhistory d F b n m -> - 2 ^ 31 <= N < 2 ^ 31 ->
  (0 <= N -> (forall l, bs_limit b = Some l -> N <= l) ->
     exists b', pb_resize d N (Some b) = RRet (Some b') tt /\ bhistory d F b' N (brecall F n m (BResize N))) /\
  (forall l, bs_limit b = Some l -> 0 <= l < 2 ^ 63 -> l < N \/ N < 0 -> pb_resize d N (Some b) = RExit) /\
  (bs_limit b = None -> N < 0 -> pb_resize d N (Some b) = RThrow (Some b) LengthError).
Proof. exact (@wrapper_resize). Qed.
Print Assumptions C31_wrapper_resize.

(** A set of the base class itself has no terms to evaluate: evaluating one, or all of at least one, ends the program. *)
Theorem C31_base_class :
  forall (X A : Type) (d : A) name n, 0 <= n < 2 ^ 63 ->
  exists b : bset X A, bs_make d name None bs_undefined bs_undefined bs_undefined n = Ok b /\ bs_size b = n /\
    (forall k t x, bevaluate k t x b = RExit) /\ (forall k x, 0 < n -> bevaluate_all k x b = RExit) /\ (forall k x, n = 0 -> bevaluate_all k x b = RRet b []).
Proof. exact (@base_class_exits). Qed.
Print Assumptions C31_base_class.

(** The monomials: term 2 at 3, all terms at 2, term 1 at 7, shrunk to two terms and grown to three again. *)
Example C31_run : q_hist = Ok [1; 7; 0]%Q.
Proof. exact q_hist_value. Qed.
Example C31_case_sizes : pb_size (Some (mono_set 3)) = Ok 3 /\ pb_max_size (Some (mono_set 3)) = Ok 30 /\
  pb_resize 0%R (-1) (Some (mono_set 3)) = RExit.
Proof. repeat split; reflexivity. Qed.
Example C31_case : reachable_bset 0%R (mono_set 3).
Proof. apply mono_reachable. repeat constructor. Qed.

(** C32. A call returns, and the getter returns afterwards, the tensor-product sum, in any arithmetic and after any history;
    stored derivatives and coefficients are untouched. *)
Theorem C32_value_is_tensor_sum :
  forall (S : SerOps) bs zero one (s : series S) c phis xs, proper_basis bs -> series_over bs zero one s ->
  coefficients s (sizes bs) c -> implements KVal bs phis -> List.length xs = List.length bs ->
  exists s', se_call xs s = RRet s' (tensor_sum S (sizes bs) c (at_point phis xs) zero) /\
    se_get s' = Ok (tensor_sum S (sizes bs) c (at_point phis xs) zero) /\
    coefficients s' (sizes bs) c /\ (forall i, se_get_grad s' i = se_get_grad s i) /\ (forall i j, se_get_hess s' i j = se_get_hess s i j).
Proof. exact (@value_ok). Qed.
Print Assumptions C32_value_is_tensor_sum.

(** Over the reals it is the nested sum of coefficient times product of the basis functions. *)
Theorem C32_value_real :
  forall (bs : list (bset R R)) one (s : series RS) c, proper_basis (S := RS) bs -> series_over (S := RS) bs 0%R one s ->
  coefficients s (sizes (S := RS) bs) c ->
  forall phis xs, implements (S := RS) KVal bs phis -> List.length xs = List.length bs ->
  exists s', se_call (S := RS) xs s = RRet s' (series_fun (sizes (S := RS) bs) c phis xs) /\
    se_get s' = Ok (series_fun (sizes (S := RS) bs) c phis xs).
Proof. exact real_value. Qed.
Print Assumptions C32_value_real.

(** Such series exist over all proper basis sets, with any coefficients: they are built with default coefficients, which can
    be read, and assigned one by one. *)
Theorem C32_series_exist :
  forall (S : SerOps) (bs : list (bset (sx S) (sa S))) zero one, proper_basis bs ->
  exists s0, se_new zero one (map Some bs) = Ok s0 /\ series_over bs zero one s0 /\
    coefficients s0 (sizes bs) (fun _ => sdflt S) /\ se_get s0 = Ok zero.
Proof. exact (@new_ok). Qed.
Print Assumptions C32_series_exist.

Theorem C32_coefficients_exist :
  forall (S : SerOps) bs zero one (s : series S), proper_basis bs -> series_over bs zero one s ->
  exists c, coefficients s (sizes bs) c.
Proof. exact (@coefficients_exist). Qed.
Print Assumptions C32_coefficients_exist.

Theorem C32_assign_coefficient :
  forall (S : SerOps) bs zero one (s : series S) c t a, proper_basis bs -> series_over bs zero one s ->
  coefficients s (sizes bs) c -> valid_index (sizes bs) t ->
  exists s', srun (SPutCoeff t a) s = RRet s' tt /\ series_over bs zero one s' /\
    coefficients s' (sizes bs) (fun t' => if list_eq_dec Z.eq_dec t' t then a else c t').
Proof. exact (@put_ok). Qed.
Print Assumptions C32_assign_coefficient.

(** 2xy + 3x^2 at (2, 5): value 32, gradient (22, 4), second x-derivative 6. *)
Example C32_run : q_run = Ok (32, 22, 4, 6)%Q.
Proof. exact q_run_value. Qed.
(** 2xy over the reals. *)
Example C32_case : proper_basis (S := RS) ex_bs /\ series_over (S := RS) ex_bs 0%R 1%R ex_s /\
  coefficients (S := RS) ex_s (sizes (S := RS) ex_bs) ex_c /\ implements (S := RS) KVal ex_bs ex_phis /\
  series_fun (sizes (S := RS) ex_bs) ex_c ex_phis [3%R; 5%R] = (2 * (3 * 5))%R.
Proof. exact (conj ex_proper (conj ex_over (conj ex_coefficients (conj (proj1 ex_implements) (ex_fun 3%R 5%R))))). Qed.

(** C33. In any arithmetic eval_grad and eval_hess store the tensor-product sums of the differentiated products, and the
    stored Hessian is symmetric. *)
Theorem C33_gradient_sums :
  forall (S : SerOps) bs zero one (s : series S) c phis dphis xs, proper_basis bs -> series_over bs zero one s ->
  coefficients s (sizes bs) c -> implements KVal bs phis -> implements KGrad bs dphis -> List.length xs = List.length bs ->
  exists s', se_eval_grad xs s = RRet s' tt /\ coefficients s' (sizes bs) c /\ se_get s' = se_get s /\
    (forall i, 0 <= i < Z.of_nat (List.length bs) ->
       se_get_grad s' i = Ok (tensor_sum S (sizes bs) c (by1 (at_point phis xs) (at_point dphis xs) i) zero)).
Proof. exact (@gradient_ok). Qed.
Print Assumptions C33_gradient_sums.

Theorem C33_hessian_sums :
  forall (S : SerOps) bs zero one (s : series S) c phis dphis ddphis xs, proper_basis bs -> series_over bs zero one s ->
  coefficients s (sizes bs) c -> implements KVal bs phis -> implements KGrad bs dphis -> implements KHess bs ddphis ->
  List.length xs = List.length bs ->
  exists s', se_eval_hess xs s = RRet s' tt /\ coefficients s' (sizes bs) c /\ se_get s' = se_get s /\
    (forall i j, 0 <= i < Z.of_nat (List.length bs) -> 0 <= j < Z.of_nat (List.length bs) ->
       se_get_hess s' i j =
       Ok (tensor_sum S (sizes bs) c (by2 (at_point phis xs) (at_point dphis xs) (at_point ddphis xs) i j) zero)) /\
    (forall i j, 0 <= i < Z.of_nat (List.length bs) -> 0 <= j < Z.of_nat (List.length bs) ->
       se_get_hess s' i j = se_get_hess s' j i).
Proof. exact (@hessian_ok). Qed.
Print Assumptions C33_hessian_sums.

(** Over the reals the stored gradient and Hessian are the partial derivatives of the series. *)
Theorem C33_gradient_is_partial_derivative :
  forall (bs : list (bset R R)) one (s : series RS) c, proper_basis (S := RS) bs -> series_over (S := RS) bs 0%R one s ->
  coefficients s (sizes (S := RS) bs) c ->
  forall phis dphis xs, implements (S := RS) KVal bs phis -> implements (S := RS) KGrad bs dphis ->
  derivatives phis dphis -> List.length xs = List.length bs ->
  exists s', se_eval_grad (S := RS) xs s = RRet s' tt /\
    forall i, 0 <= i < Z.of_nat (List.length bs) ->
      exists g, se_get_grad s' i = Ok g /\ partial (series_fun (sizes (S := RS) bs) c phis) i xs g.
Proof. exact real_grad. Qed.
Print Assumptions C33_gradient_is_partial_derivative.

Theorem C33_hessian_is_second_derivative :
  forall (bs : list (bset R R)) one (s : series RS) c, proper_basis (S := RS) bs -> series_over (S := RS) bs 0%R one s ->
  coefficients s (sizes (S := RS) bs) c ->
  forall phis dphis ddphis xs, implements (S := RS) KVal bs phis -> implements (S := RS) KGrad bs dphis ->
  implements (S := RS) KHess bs ddphis -> derivatives phis dphis -> derivatives dphis ddphis -> List.length xs = List.length bs ->
  exists s', se_eval_hess (S := RS) xs s = RRet s' tt /\
    forall i j, 0 <= i < Z.of_nat (List.length bs) -> 0 <= j < Z.of_nat (List.length bs) ->
      exists h, se_get_hess s' i j = Ok h /\ se_get_hess s' j i = Ok h /\
        second (series_fun (sizes (S := RS) bs) c phis) i j xs h.
Proof. exact real_hess. Qed.
Print Assumptions C33_hessian_is_second_derivative.

(** The monomials have true derivatives; with C32_case all hypotheses hold. *)
Example C33_case : implements (S := RS) KVal ex_bs ex_phis /\ implements (S := RS) KGrad ex_bs ex_dphis /\
  implements (S := RS) KHess ex_bs ex_ddphis /\ derivatives ex_phis ex_dphis /\ derivatives ex_dphis ex_ddphis.
Proof. destruct ex_implements as (A & B & C). destruct ex_derivatives as (D & E). auto. Qed.

(** C34. grad(x,i) combines the fresh derivatives of variable i with whatever values V are stored for the others, and returns at
    all only if the other coordinates, truncated to ints, are term numbers; the same for hess. *)
Theorem C34_grad_uses_stored_values :
  forall (S : SerOps) bs zero one (s : series S) c V dphis xs i, proper_basis bs -> series_over bs zero one s ->
  coefficients s (sizes bs) c -> cached s (sizes bs) KVal V -> implements KGrad bs dphis -> List.length xs = List.length bs ->
  0 <= i < Z.of_nat (List.length bs) -> readable bs (fun j => j =? i) xs ->
  exists s', se_call_grad xs i s = RRet s' (tensor_sum S (sizes bs) c (by1 V (at_point dphis xs) i) zero).
Proof. exact (@single_grad_ok). Qed.
Print Assumptions C34_grad_uses_stored_values.

Theorem C34_hess_uses_stored_values :
  forall (S : SerOps) bs zero one (s : series S) c V dphis ddphis xs i j, proper_basis bs -> series_over bs zero one s ->
  coefficients s (sizes bs) c -> cached s (sizes bs) KVal V -> implements KGrad bs dphis -> implements KHess bs ddphis ->
  List.length xs = List.length bs -> 0 <= i < Z.of_nat (List.length bs) -> 0 <= j < Z.of_nat (List.length bs) ->
  readable bs (fun k => ((k =? i) || (k =? j))%bool) xs ->
  exists s', se_call_hess xs i j s =
    RRet s' (tensor_sum S (sizes bs) c (by2 V (at_point dphis xs) (at_point ddphis xs) i j) zero).
Proof. exact (@single_hess_ok). Qed.
Print Assumptions C34_hess_uses_stored_values.

Theorem C34_other_coordinates_out_of_range :
  forall (S : SerOps) bs zero one (s : series S) dphis ddphis xs, int_conversion S -> proper_basis bs -> series_over bs zero one s ->
  implements KGrad bs dphis -> implements KHess bs ddphis -> List.length xs = List.length bs ->
  (forall i, ~ readable bs (fun k => k =? i) xs -> exists r, se_call_grad xs i s = RUB r) /\
  (forall i j, ~ readable bs (fun k => ((k =? i) || (k =? j))%bool) xs -> exists r, se_call_hess xs i j s = RUB r).
Proof. exact (@single_bad). Qed.
Print Assumptions C34_other_coordinates_out_of_range.

Theorem C34_double_converts : forall O, int_conversion (num_series O).
Proof. exact num_conversion. Qed.
Print Assumptions C34_double_converts.

(** With values stored at the point and other coordinates that are term numbers, the result is the derivative. *)
Theorem C34_grad_after_evaluation :
  forall (bs : list (bset R R)) one (s : series RS) c, proper_basis (S := RS) bs -> series_over (S := RS) bs 0%R one s ->
  coefficients s (sizes (S := RS) bs) c ->
  forall phis dphis xs i, implements (S := RS) KVal bs phis -> implements (S := RS) KGrad bs dphis ->
  derivatives phis dphis -> List.length xs = List.length bs -> 0 <= i < Z.of_nat (List.length bs) ->
  cached s (sizes (S := RS) bs) KVal (at_point phis xs) -> readable (S := RS) bs (fun k => k =? i) xs ->
  exists s' g, se_call_grad (S := RS) xs i s = RRet s' g /\ partial (series_fun (sizes (S := RS) bs) c phis) i xs g.
Proof. exact real_single_grad. Qed.
Print Assumptions C34_grad_after_evaluation.

Theorem C34_hess_after_evaluation :
  forall (bs : list (bset R R)) one (s : series RS) c, proper_basis (S := RS) bs -> series_over (S := RS) bs 0%R one s ->
  coefficients s (sizes (S := RS) bs) c ->
  forall phis dphis ddphis xs i j, implements (S := RS) KVal bs phis -> implements (S := RS) KGrad bs dphis ->
  implements (S := RS) KHess bs ddphis -> derivatives phis dphis -> derivatives dphis ddphis -> List.length xs = List.length bs ->
  0 <= i < Z.of_nat (List.length bs) -> 0 <= j < Z.of_nat (List.length bs) ->
  cached s (sizes (S := RS) bs) KVal (at_point phis xs) -> readable (S := RS) bs (fun k => ((k =? i) || (k =? j))%bool) xs ->
  exists s' h, se_call_hess (S := RS) xs i j s = RRet s' h /\ second (series_fun (sizes (S := RS) bs) c phis) i j xs h.
Proof. exact real_single_hess. Qed.
Print Assumptions C34_hess_after_evaluation.

(** The full claim is false: on 2xy over monomial sets, grad((0,1), x) is the derivative 2 right after an evaluation at (0,1)
    and something else right after construction. *)
Theorem C34_depends_only_on_point_refuted :
  exists (bs : list (bset R R)) phis dphis (s s' : series RS) c xs t t' g g',
  proper_basis (S := RS) bs /\ implements (S := RS) KVal bs phis /\ implements (S := RS) KGrad bs dphis /\ derivatives phis dphis /\
  series_over (S := RS) bs 0%R 1%R s /\ series_over (S := RS) bs 0%R 1%R s' /\
  coefficients (S := RS) s (sizes (S := RS) bs) c /\ coefficients (S := RS) s' (sizes (S := RS) bs) c /\
  se_call_grad (S := RS) xs 0 s = RRet t g /\ se_call_grad (S := RS) xs 0 s' = RRet t' g' /\
  partial (series_fun (sizes (S := RS) bs) c phis) 0 xs g /\ ~ partial (series_fun (sizes (S := RS) bs) c phis) 0 xs g'.
Proof. exact stale_refuted. Qed.
Print Assumptions C34_depends_only_on_point_refuted.

(** Evaluating at the point first is not enough: at (0,5) the stored values of the second set are read at term 5 of 2. *)
Theorem C34_safe_after_evaluation_refuted :
  exists (bs : list (bset R R)) phis dphis (s s' : series RS) xs v r,
  proper_basis (S := RS) bs /\ implements (S := RS) KVal bs phis /\ implements (S := RS) KGrad bs dphis /\ derivatives phis dphis /\
  series_over (S := RS) bs 0%R 1%R s /\ List.length xs = List.length bs /\
  se_call (S := RS) xs s = RRet s' v /\ se_call_grad (S := RS) xs 0 s' = RUB r.
Proof. exact read_refuted. Qed.
Print Assumptions C34_safe_after_evaluation_refuted.

Example C34_case : readable (S := RS) ex_bs (fun k => k =? 0) [0%R; 1%R] /\ ~ readable (S := RS) ex_bs (fun k => k =? 0) [0%R; 5%R] /\
  cached (S := RS) ex_s [3; 2] KVal [fun _ => 0%R; fun _ => 0%R].
Proof. exact (conj ex_readable (conj ex_unreadable ex_no_values)). Qed.

(** 2xy after an evaluation at (2, 1), which gives 4: the values are stored, and the coordinate 1 is a term number. *)
Example C34_case_evaluated : exists s1, se_call (S := RS) [2%R; 1%R] ex_s = RRet s1 4%R /\ series_over (S := RS) ex_bs 0%R 1%R s1 /\
  coefficients (S := RS) s1 (sizes (S := RS) ex_bs) ex_c /\ cached (S := RS) s1 (sizes (S := RS) ex_bs) KVal (at_point ex_phis [2%R; 1%R]) /\
  readable (S := RS) ex_bs (fun k => k =? 0) [2%R; 1%R].
Proof. exact ex_evaluated. Qed.

(** C35. Linear in the coefficients. *)
Theorem C35_value_linear :
  forall (bs : list (bset R R)) one1 one2 one3 (s1 s2 s3 : series RS) c1 c2 a b phis xs,
  proper_basis (S := RS) bs -> series_over (S := RS) bs 0%R one1 s1 -> series_over (S := RS) bs 0%R one2 s2 ->
  series_over (S := RS) bs 0%R one3 s3 ->
  coefficients s1 (sizes (S := RS) bs) c1 -> coefficients s2 (sizes (S := RS) bs) c2 ->
  coefficients s3 (sizes (S := RS) bs) (fun t => (a * c1 t + b * c2 t)%R) ->
  implements (S := RS) KVal bs phis -> List.length xs = List.length bs ->
  exists s1' s2' s3' v1 v2, se_call (S := RS) xs s1 = RRet s1' v1 /\ se_call (S := RS) xs s2 = RRet s2' v2 /\
    se_call (S := RS) xs s3 = RRet s3' (a * v1 + b * v2)%R.
Proof. exact linear_value. Qed.
Print Assumptions C35_value_linear.

Theorem C35_gradient_linear :
  forall (bs : list (bset R R)) one1 one2 one3 (s1 s2 s3 : series RS) c1 c2 a b phis dphis xs,
  proper_basis (S := RS) bs -> series_over (S := RS) bs 0%R one1 s1 -> series_over (S := RS) bs 0%R one2 s2 ->
  series_over (S := RS) bs 0%R one3 s3 ->
  coefficients s1 (sizes (S := RS) bs) c1 -> coefficients s2 (sizes (S := RS) bs) c2 ->
  coefficients s3 (sizes (S := RS) bs) (fun t => (a * c1 t + b * c2 t)%R) ->
  implements (S := RS) KVal bs phis -> implements (S := RS) KGrad bs dphis -> List.length xs = List.length bs ->
  exists s1' s2' s3',
    se_eval_grad (S := RS) xs s1 = RRet s1' tt /\ se_eval_grad (S := RS) xs s2 = RRet s2' tt /\
    se_eval_grad (S := RS) xs s3 = RRet s3' tt /\
    forall i, 0 <= i < Z.of_nat (List.length bs) -> exists v1 v2,
      se_get_grad s1' i = Ok v1 /\ se_get_grad s2' i = Ok v2 /\ se_get_grad s3' i = Ok (a * v1 + b * v2)%R.
Proof. exact linear_grad. Qed.
Print Assumptions C35_gradient_linear.

Theorem C35_hessian_linear :
  forall (bs : list (bset R R)) one1 one2 one3 (s1 s2 s3 : series RS) c1 c2 a b phis dphis ddphis xs,
  proper_basis (S := RS) bs -> series_over (S := RS) bs 0%R one1 s1 -> series_over (S := RS) bs 0%R one2 s2 ->
  series_over (S := RS) bs 0%R one3 s3 ->
  coefficients s1 (sizes (S := RS) bs) c1 -> coefficients s2 (sizes (S := RS) bs) c2 ->
  coefficients s3 (sizes (S := RS) bs) (fun t => (a * c1 t + b * c2 t)%R) ->
  implements (S := RS) KVal bs phis -> implements (S := RS) KGrad bs dphis -> implements (S := RS) KHess bs ddphis ->
  List.length xs = List.length bs ->
  exists s1' s2' s3',
    se_eval_hess (S := RS) xs s1 = RRet s1' tt /\ se_eval_hess (S := RS) xs s2 = RRet s2' tt /\
    se_eval_hess (S := RS) xs s3 = RRet s3' tt /\
    forall i j, 0 <= i < Z.of_nat (List.length bs) -> 0 <= j < Z.of_nat (List.length bs) -> exists v1 v2,
      se_get_hess s1' i j = Ok v1 /\ se_get_hess s2' i j = Ok v2 /\ se_get_hess s3' i j = Ok (a * v1 + b * v2)%R.
Proof. exact linear_hess. Qed.
Print Assumptions C35_hessian_linear.

(** Right after set, on a new series or on one already in use, all coefficients are zero and the series vanishes. *)
Theorem C35_fresh_series_vanishes :
  forall (bs : list (bset R R)) (s s0 : series RS) phis dphis ddphis xs,
  proper_basis (S := RS) bs -> se_zero s = 0%R -> se_set (S := RS) (map Some bs) s = RRet s0 tt ->
  implements (S := RS) KVal bs phis -> implements (S := RS) KGrad bs dphis -> implements (S := RS) KHess bs ddphis ->
  List.length xs = List.length bs ->
  (forall t, valid_index (sizes (S := RS) bs) t -> nd_at (se_coeff s0) t = Ok 0%R) /\
  (exists s', se_call (S := RS) xs s0 = RRet s' 0%R) /\
  (exists s', se_eval_grad (S := RS) xs s0 = RRet s' tt /\
     forall i, 0 <= i < Z.of_nat (List.length bs) -> se_get_grad s' i = Ok 0%R) /\
  (exists s', se_eval_hess (S := RS) xs s0 = RRet s' tt /\
     forall i j, 0 <= i < Z.of_nat (List.length bs) -> 0 <= j < Z.of_nat (List.length bs) -> se_get_hess s' i j = Ok 0%R).
Proof. exact fresh_vanishes. Qed.
Print Assumptions C35_fresh_series_vanishes.

Example C35_case : se_set (S := RS) (map Some ex_bs) (se_new0 (S := RS) 0%R 1%R) = RRet ex_fresh tt /\
  coefficients (S := RS) ex_s (sizes (S := RS) ex_bs) ex_c /\ ex_c [1; 1] = 2%R.
Proof. exact (conj ex_fresh_set (conj ex_coefficients eq_refl)). Qed.

(** C37. Through the general function interface evaluation is the series' own. *)
Theorem C37_values_reach_the_series :
  forall (S : SerOps) xs (s : series S),
  pf_call (PSeriesFunction_class S) xs s = se_call xs s /\
  pf_eval (PSeriesFunction_class S) xs s = se_eval xs s /\
  pf_eval_grad (PSeriesFunction_class S) xs s = se_eval_grad xs s /\
  pf_eval_hess (PSeriesFunction_class S) xs s = se_eval_hess xs s /\
  res_outcome (pf_get (PSeriesFunction_class S) s) = se_get s.
Proof. exact (@iface_value). Qed.
Print Assumptions C37_values_reach_the_series.

(** Its derivatives are not reachable: each of the four functions throws runtime_error on every series and argument. *)
Theorem C37_derivatives_throw :
  forall (S : SerOps) (s : series S),
  (forall xs i, pf_call_grad (PSeriesFunction_class S) xs i s = RThrow s RuntimeError) /\
  (forall xs i j, pf_call_hess (PSeriesFunction_class S) xs i j s = RThrow s RuntimeError) /\
  (forall i, pf_get_grad (PSeriesFunction_class S) i s = RThrow s RuntimeError) /\
  (forall i j, pf_get_hess (PSeriesFunction_class S) i j s = RThrow s RuntimeError).
Proof. exact (@iface_derivatives). Qed.
Print Assumptions C37_derivatives_throw.

(** The same series (C32_case): its own gradient is there after eval_grad through the interface. *)
Example C37_case : exists s' g, pf_eval_grad (PSeriesFunction_class RS) [2%R; 5%R] ex_s = RRet s' tt /\
  se_get_grad (S := RS) s' 0 = Ok g /\ pf_get_grad (PSeriesFunction_class RS) 0 s' = RThrow s' RuntimeError.
Proof. exact ex_iface. Qed.
