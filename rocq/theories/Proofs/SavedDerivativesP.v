(** Derivatives of a series that was saved with six digits and read: C63. *)
From Coq Require Import ZArith List Bool Lia ZifyBool Reals Lra.
From Flocq Require Import Core BinarySingleNaN.
From Verif Require Import Model.Outcome Model.Num Model.NumInst Model.PNDArray Model.BasisSet Model.Series Model.Stream Model.SeriesIO Model.CInterface Model.Decimal.
From Verif Require Import Spec.Tensor Spec.NDHistory Spec.Basis Spec.Series Spec.Poly Spec.SeriesIO Spec.Rounding Spec.SeriesRounding Spec.PolyRounding Spec.Decimal.
From Verif Require Import Proofs.OutcomeP Proofs.PNDArrayP Proofs.SeriesP Proofs.SeriesRP Proofs.SeriesClientP Proofs.FloatShapeP Proofs.SumRoundP Proofs.SeriesRoundP Proofs.PythonP Proofs.DecimalSeriesP Proofs.SampleRoundP Proofs.SampleSeriesRoundP Proofs.SavedSeriesP Proofs.MonomialSeriesRoundP.
Import ListNotations.
Local Open Scope R_scope.
Local Notation e6 := (5000002 / 1000000000000).

Local Lemma pairs_length (X Y : Type) (P : X -> Y -> Prop) l l' : Forall2 P l l' -> List.length l = List.length l'.
Proof. induction 1; cbn; auto. Qed.

Section Saved.
Variables (bs : list (bset (sx DS) (sa DS))) (one one' : f64) (s s' : series DS) (c : list Z -> f64) (rest : text).
Hypothesis Hb : proper_basis bs.
Hypothesis Hs : series_over (S := DS) bs (nofZ FOps 0) one s.
Hypothesis Hs' : series_over (S := DS) bs (nofZ FOps 0) one' s'.
Hypothesis Hc : coefficients s (sizes bs) c.

Lemma reread : (forall t, valid_index (sizes bs) t -> finite (c t)) ->
  exists t s2 i c', se_print_coeff (S := DS) (print_double 6) s = Ok t /\
    se_read_coeff (S := DS) double_scanner (s', is_open (Some (t ++ rest))) = RRet (s2, i) tt /\ is_fail i = false /\
    series_over (S := DS) bs (nofZ FOps 0) one' s2 /\ coefficients s2 (sizes bs) c' /\ (forall t, valid_index (sizes bs) t -> kept (c t) (c' t)).
Proof.
  intros Fc. pose proof (over_inv _ _ _ _ Hb Hs) as I. pose proof (over_inv _ _ _ _ Hb Hs') as I'.
  assert (Hd : nd_dim (se_coeff s') = nd_dim (se_coeff s)) by (rewrite (inv_dim _ _ _ _ I), (inv_dim _ _ _ _ I'); reflexivity).
  pose proof (all_finite bs one s c Hb Hs Hc Fc) as F.
  destruct (print_read_doubles 6 kept six_digits s s' rest (inv_wf _ _ _ _ I) (inv_wf _ _ _ _ I') Hd F) as (t & r & vals & E & R & K & _ & _).
  destruct (values_at bs one s one' s' c vals kept Hb Hs Hs' Hc K) as (c' & Hc' & Kc).
  assert (L : List.length vals = List.length (nd_val (se_coeff s'))).
  { destruct (wf_same _ _ _ (inv_wf _ _ _ _ I) (inv_wf _ _ _ _ I') Hd) as (_ & _ & Ev).
    apply Nat2Z.inj. rewrite (nd_wf_length _ _ (inv_wf _ _ _ _ I')), Ev, <- (nd_wf_length _ _ (inv_wf _ _ _ _ I)). f_equal. symmetry. exact (pairs_length _ _ _ _ _ K). }
  pose proof (over_values bs one' s' vals Hs' L) as H2.
  exists t, (with_values (S := DS) s' vals), (is_open (Some r)), c'. split; [exact E|]. split; [exact R|]. split; [reflexivity|]. split; [exact H2|]. split; [exact Hc'|exact Kc].
Qed.

(** The numbers: the sum with the coefficients read, computed, against the sum meant. *)
Lemma reread_sum : forall delta fs Fs Bs c', modest (sizes bs) delta -> close_to (sizes bs) delta fs Fs Bs -> well_in_scale (sizes bs) c Bs ->
  (forall t, valid_index (sizes bs) t -> kept (c t) (c' t)) ->
  in_scale (sizes bs) c' Bs /\
  forall v, Rabs (v - nested_sum (sizes bs) (fun t => value (c' t) * product (factors Fs t))) <= series_error (sizes bs) delta * size_sum (sizes bs) c' Bs ->
    Rabs (v - nested_sum (sizes bs) (fun t => value (c t) * product (factors Fs t))) <= (series_error (sizes bs) delta * (1 + e6) + e6) * size_sum (sizes bs) c Bs.
Proof.
  intros delta fs Fs Bs c' Hm Hcl Hsc Kc. split; [exact (near_scale _ _ _ _ _ _ _ Hcl Hsc Kc)|]. intros v Ea.
  pose proof (near_sum _ _ _ _ _ _ _ Hcl Hsc Kc) as N. pose proof (near_size _ _ _ _ _ _ _ Hcl Hsc Kc) as Z. pose proof (error_pos (sizes bs) delta (proj1 Hm)) as P.
  match goal with |- Rabs (?v - ?y) <= _ => match type of Ea with Rabs (_ - ?x) <= _ => replace (v - y) with ((v - x) + (x - y)) by ring end end. eapply Rle_trans; [apply Rabs_triang|].
  apply (Rmult_le_compat_l _ _ _ P) in Z. lra.
Qed.

Lemma saved_gradient : forall phis dphis Phis dPhis Bs dBs delta (xs : list f64) i, implements (S := DS) KVal bs phis -> implements (S := DS) KGrad bs dphis ->
  List.length xs = List.length bs -> derivatives Phis dPhis -> List.length Phis = List.length bs -> modest (sizes bs) delta ->
  close_to (sizes bs) delta (at_point phis xs) (at_point Phis (map value xs)) Bs -> close_to (sizes bs) delta (at_point dphis xs) (at_point dPhis (map value xs)) dBs ->
  (0 <= i < Z.of_nat (List.length bs))%Z -> well_in_scale (sizes bs) c (by1 Bs dBs i) ->
  exists t s2 st s3 a g, se_print_coeff (S := DS) (print_double 6) s = Ok t /\
    se_read_coeff (S := DS) double_scanner (s', is_open (Some (t ++ rest))) = RRet (s2, st) tt /\ is_fail st = false /\
    se_eval_grad (S := DS) xs s2 = RRet s3 tt /\ se_get_grad s3 i = Ok a /\ finite a /\
    partial (series_fun (sizes bs) (fun t => value (c t)) Phis) i (map value xs) g /\
    Rabs (value a - g) <= (series_error (sizes bs) delta * (1 + e6) + e6) * size_sum (sizes bs) c (by1 Bs dBs i).
Proof.
  intros phis dphis Phis dPhis Bs dBs delta xs i Hi Hdi Hx HD HP Hm Hcl Hdcl Hr Hsc.
  destruct (reread (fun t Ht => proj1 (proj1 Hsc t Ht))) as (t & s2 & st & c' & E & R & Nf & H2 & Hc' & Kc).
  pose proof (close_swap _ _ _ _ _ _ _ _ i (proj1 Hr) Hcl Hdcl) as Hcs.
  destruct (reread_sum _ _ _ _ c' Hm Hcs Hsc Kc) as [Sc' Q].
  destruct (gradient_ok bs (nofZ FOps 0) one' s2 c' phis dphis xs Hb H2 Hc' Hi Hdi Hx) as (s3 & E1 & _ & _ & E2). specialize (E2 i Hr).
  destruct (zprod_fits bs Hb) as [Z1 Z2]. assert (HdP : List.length Phis = List.length dPhis) by exact (Forall2_len _ _ _ _ _ HD).
  destruct (tensor_sum_error (sizes bs) delta _ _ (by1 Bs dBs i) c' Hm Z2 Z1 Hcs Sc') as [F Er].
  eexists t, s2, st, s3, _, (series_fun (sizes bs) (fun t => value (c t)) (swap Phis i dPhis) (map value xs)).
  split; [exact E|]. split; [exact R|]. split; [exact Nf|]. split; [exact E1|]. split; [exact E2|]. split; [exact F|]. split.
  - apply series_partial; [exact HD|rewrite length_sizes; exact HP|rewrite map_length, length_sizes; exact Hx|rewrite length_sizes; exact Hr].
  - unfold series_fun. rewrite at_point_swap; [exact (Q _ Er)|lia|exact HdP|rewrite map_length; congruence].
Qed.

Lemma saved_hessian : forall phis dphis ddphis Phis dPhis ddPhis Bs dBs ddBs delta (xs : list f64) i j, implements (S := DS) KVal bs phis -> implements (S := DS) KGrad bs dphis ->
  implements (S := DS) KHess bs ddphis -> List.length xs = List.length bs -> derivatives Phis dPhis -> derivatives dPhis ddPhis -> List.length Phis = List.length bs -> modest (sizes bs) delta ->
  close_to (sizes bs) delta (at_point phis xs) (at_point Phis (map value xs)) Bs -> close_to (sizes bs) delta (at_point dphis xs) (at_point dPhis (map value xs)) dBs ->
  close_to (sizes bs) delta (at_point ddphis xs) (at_point ddPhis (map value xs)) ddBs ->
  (0 <= i < Z.of_nat (List.length bs))%Z -> (0 <= j < Z.of_nat (List.length bs))%Z -> well_in_scale (sizes bs) c (by2 Bs dBs ddBs i j) ->
  exists t s2 st s3 a g, se_print_coeff (S := DS) (print_double 6) s = Ok t /\
    se_read_coeff (S := DS) double_scanner (s', is_open (Some (t ++ rest))) = RRet (s2, st) tt /\ is_fail st = false /\
    se_eval_hess (S := DS) xs s2 = RRet s3 tt /\ se_get_hess s3 i j = Ok a /\ finite a /\
    second (series_fun (sizes bs) (fun t => value (c t)) Phis) i j (map value xs) g /\
    Rabs (value a - g) <= (series_error (sizes bs) delta * (1 + e6) + e6) * size_sum (sizes bs) c (by2 Bs dBs ddBs i j).
Proof.
  intros phis dphis ddphis Phis dPhis ddPhis Bs dBs ddBs delta xs i j Hi Hdi Hddi Hx HD HDD HP Hm Hcl Hdcl Hddcl Hr Hr2 Hsc.
  destruct (reread (fun t Ht => proj1 (proj1 Hsc t Ht))) as (t & s2 & st & c' & E & R & Nf & H2 & Hc' & Kc).
  pose proof (close_by2 _ _ _ _ _ _ _ _ _ _ _ i j (proj1 Hr) (proj1 Hr2) Hcl Hdcl Hddcl) as Hcs.
  destruct (reread_sum _ _ _ _ c' Hm Hcs Hsc Kc) as [Sc' Q].
  destruct (hessian_ok bs (nofZ FOps 0) one' s2 c' phis dphis ddphis xs Hb H2 Hc' Hi Hdi Hddi Hx) as (s3 & E1 & _ & _ & E2 & _). specialize (E2 i j Hr Hr2).
  destruct (zprod_fits bs Hb) as [Z1 Z2]. assert (HdP : List.length Phis = List.length dPhis) by exact (Forall2_len _ _ _ _ _ HD).
  assert (HddP : List.length dPhis = List.length ddPhis) by exact (Forall2_len _ _ _ _ _ HDD).
  destruct (tensor_sum_error (sizes bs) delta _ _ (by2 Bs dBs ddBs i j) c' Hm Z2 Z1 Hcs Sc') as [F Er].
  eexists t, s2, st, s3, _, (series_fun (sizes bs) (fun t => value (c t)) (by2 Phis dPhis ddPhis i j) (map value xs)).
  split; [exact E|]. split; [exact R|]. split; [exact Nf|]. split; [exact E1|]. split; [exact E2|]. split; [exact F|]. split.
  - apply series_second; [exact HD|exact HDD|rewrite length_sizes; exact HP|rewrite map_length, length_sizes; exact Hx|rewrite length_sizes; exact Hr|rewrite length_sizes; exact Hr2].
  - unfold series_fun. rewrite at_point_by2; [exact (Q _ Er)|lia|lia|exact HdP|congruence|rewrite map_length; congruence].
Qed.
End Saved.

Lemma saved_chebyshev_gradient : forall pw (bs : list (bset f64 f64)) one one' (s s' : series DS) (c : list Z -> f64) (xs : list f64) rest,
  Forall (chebyshev_doubles pw) bs -> fit_sizes (sizes (S := DS) bs) -> series_over (S := DS) bs (nofZ FOps 0) one s -> series_over (S := DS) bs (nofZ FOps 0) one' s' ->
  coefficients (S := DS) s (sizes (S := DS) bs) c -> List.length xs = List.length bs -> (Z.of_nat (List.length bs) <= int_max)%Z ->
  Forall (fun x => finite x /\ Rabs (value x) <= 1) xs ->
  forall i, (0 <= i < Z.of_nat (List.length bs))%Z -> well_in_scale (sizes (S := DS) bs) c (by1 (chebyshev_sizes 0 xs) (chebyshev_sizes 1 xs) i) ->
  exists t s2 st s3 a g, se_print_coeff (S := DS) (print_double 6) s = Ok t /\
    se_read_coeff (S := DS) double_scanner (s', is_open (Some (t ++ rest))) = RRet (s2, st) tt /\ is_fail st = false /\
    se_eval_grad (S := DS) xs s2 = RRet s3 tt /\ se_get_grad s3 i = Ok a /\ finite a /\
    partial (series_fun (sizes (S := DS) bs) (fun t => value (c t)) (chebyshev_families bs)) i (map value xs) g /\
    Rabs (value a - g) <= (series_error (sizes (S := DS) bs) (41 * unit_roundoff) * (1 + 5000002 / 1000000000000) + 5000002 / 1000000000000) *
      size_sum (sizes (S := DS) bs) c (by1 (chebyshev_sizes 0 xs) (chebyshev_sizes 1 xs) i).
Proof.
  intros pw bs one one' s s' c xs rest Hb Hfit Hs Hs' Hc HL Hn Hx i Hi Hsc.
  refine (saved_gradient bs one one' s s' c rest (cheb_proper pw bs Hb Hfit) Hs Hs' Hc _ _ (chebyshev_families bs) _ _ _ _ xs i (proj2 (proj2 (sets_facts pw bs Hb)) KVal) (proj2 (proj2 (sets_facts pw bs Hb)) KGrad) HL
    (proj1 (families_derivatives bs)) _ (many_modest bs Hn) (cheb_close pw bs xs Hb HL Hx KVal) (cheb_close pw bs xs Hb HL Hx KGrad) Hi Hsc).
  unfold chebyshev_families. apply map_length.
Qed.
Lemma saved_chebyshev_hessian : forall pw (bs : list (bset f64 f64)) one one' (s s' : series DS) (c : list Z -> f64) (xs : list f64) rest,
  Forall (chebyshev_doubles pw) bs -> fit_sizes (sizes (S := DS) bs) -> series_over (S := DS) bs (nofZ FOps 0) one s -> series_over (S := DS) bs (nofZ FOps 0) one' s' ->
  coefficients (S := DS) s (sizes (S := DS) bs) c -> List.length xs = List.length bs -> (Z.of_nat (List.length bs) <= int_max)%Z ->
  Forall (fun x => finite x /\ Rabs (value x) <= 1) xs ->
  forall i j, (0 <= i < Z.of_nat (List.length bs))%Z -> (0 <= j < Z.of_nat (List.length bs))%Z ->
  well_in_scale (sizes (S := DS) bs) c (by2 (chebyshev_sizes 0 xs) (chebyshev_sizes 1 xs) (chebyshev_sizes 2 xs) i j) ->
  exists t s2 st s3 a g, se_print_coeff (S := DS) (print_double 6) s = Ok t /\
    se_read_coeff (S := DS) double_scanner (s', is_open (Some (t ++ rest))) = RRet (s2, st) tt /\ is_fail st = false /\
    se_eval_hess (S := DS) xs s2 = RRet s3 tt /\ se_get_hess s3 i j = Ok a /\ finite a /\
    second (series_fun (sizes (S := DS) bs) (fun t => value (c t)) (chebyshev_families bs)) i j (map value xs) g /\
    Rabs (value a - g) <= (series_error (sizes (S := DS) bs) (41 * unit_roundoff) * (1 + 5000002 / 1000000000000) + 5000002 / 1000000000000) *
      size_sum (sizes (S := DS) bs) c (by2 (chebyshev_sizes 0 xs) (chebyshev_sizes 1 xs) (chebyshev_sizes 2 xs) i j).
Proof.
  intros pw bs one one' s s' c xs rest Hb Hfit Hs Hs' Hc HL Hn Hx i j Hi Hj Hsc.
  refine (saved_hessian bs one one' s s' c rest (cheb_proper pw bs Hb Hfit) Hs Hs' Hc _ _ _ (chebyshev_families bs) _ _ _ _ _ _ xs i j (proj2 (proj2 (sets_facts pw bs Hb)) KVal) (proj2 (proj2 (sets_facts pw bs Hb)) KGrad) (proj2 (proj2 (sets_facts pw bs Hb)) KHess) HL
    (proj1 (families_derivatives bs)) (proj2 (families_derivatives bs)) _ (many_modest bs Hn) (cheb_close pw bs xs Hb HL Hx KVal) (cheb_close pw bs xs Hb HL Hx KGrad) (cheb_close pw bs xs Hb HL Hx KHess) Hi Hj Hsc).
  unfold chebyshev_families. apply map_length.
Qed.

Lemma saved_monomial_gradient : forall pw (bs : list (bset f64 f64)) one one' (s s' : series DS) (c : list Z -> f64) (xs : list f64) rest,
  Forall (monomial_doubles pw) bs -> fit_sizes (sizes (S := DS) bs) -> series_over (S := DS) bs (nofZ FOps 0) one s -> series_over (S := DS) bs (nofZ FOps 0) one' s' ->
  coefficients (S := DS) s (sizes (S := DS) bs) c -> List.length xs = List.length bs -> (Z.of_nat (List.length bs) <= int_max)%Z ->
  Forall (fun x => finite x /\ Rabs (value x) <= 1024) xs ->
  forall i, (0 <= i < Z.of_nat (List.length bs))%Z -> well_in_scale (sizes (S := DS) bs) c (by1 (monomial_sizes 0 xs) (monomial_sizes 1 xs) i) ->
  exists t s2 st s3 a g, se_print_coeff (S := DS) (print_double 6) s = Ok t /\
    se_read_coeff (S := DS) double_scanner (s', is_open (Some (t ++ rest))) = RRet (s2, st) tt /\ is_fail st = false /\
    se_eval_grad (S := DS) xs s2 = RRet s3 tt /\ se_get_grad s3 i = Ok a /\ finite a /\
    partial (series_fun (sizes (S := DS) bs) (fun t => value (c t)) (monomial_families bs)) i (map value xs) g /\
    Rabs (value a - g) <= (series_error (sizes (S := DS) bs) (29 * unit_roundoff) * (1 + 5000002 / 1000000000000) + 5000002 / 1000000000000) *
      size_sum (sizes (S := DS) bs) c (by1 (monomial_sizes 0 xs) (monomial_sizes 1 xs) i).
Proof.
  intros pw bs one one' s s' c xs rest Hb Hfit Hs Hs' Hc HL Hn Hx i Hi Hsc.
  refine (saved_gradient bs one one' s s' c rest (mono_proper pw bs Hb Hfit) Hs Hs' Hc _ _ (monomial_families bs) _ _ _ _ xs i (proj2 (proj2 (msets_facts pw bs Hb)) KVal) (proj2 (proj2 (msets_facts pw bs Hb)) KGrad) HL
    (proj1 (mfamilies_derivatives bs)) _ (mmany_modest bs Hn) (mono_close pw bs xs Hb HL Hx KVal) (mono_close pw bs xs Hb HL Hx KGrad) Hi Hsc).
  unfold monomial_families. apply map_length.
Qed.
Lemma saved_monomial_hessian : forall pw (bs : list (bset f64 f64)) one one' (s s' : series DS) (c : list Z -> f64) (xs : list f64) rest,
  Forall (monomial_doubles pw) bs -> fit_sizes (sizes (S := DS) bs) -> series_over (S := DS) bs (nofZ FOps 0) one s -> series_over (S := DS) bs (nofZ FOps 0) one' s' ->
  coefficients (S := DS) s (sizes (S := DS) bs) c -> List.length xs = List.length bs -> (Z.of_nat (List.length bs) <= int_max)%Z ->
  Forall (fun x => finite x /\ Rabs (value x) <= 1024) xs ->
  forall i j, (0 <= i < Z.of_nat (List.length bs))%Z -> (0 <= j < Z.of_nat (List.length bs))%Z ->
  well_in_scale (sizes (S := DS) bs) c (by2 (monomial_sizes 0 xs) (monomial_sizes 1 xs) (monomial_sizes 2 xs) i j) ->
  exists t s2 st s3 a g, se_print_coeff (S := DS) (print_double 6) s = Ok t /\
    se_read_coeff (S := DS) double_scanner (s', is_open (Some (t ++ rest))) = RRet (s2, st) tt /\ is_fail st = false /\
    se_eval_hess (S := DS) xs s2 = RRet s3 tt /\ se_get_hess s3 i j = Ok a /\ finite a /\
    second (series_fun (sizes (S := DS) bs) (fun t => value (c t)) (monomial_families bs)) i j (map value xs) g /\
    Rabs (value a - g) <= (series_error (sizes (S := DS) bs) (29 * unit_roundoff) * (1 + 5000002 / 1000000000000) + 5000002 / 1000000000000) *
      size_sum (sizes (S := DS) bs) c (by2 (monomial_sizes 0 xs) (monomial_sizes 1 xs) (monomial_sizes 2 xs) i j).
Proof.
  intros pw bs one one' s s' c xs rest Hb Hfit Hs Hs' Hc HL Hn Hx i j Hi Hj Hsc.
  refine (saved_hessian bs one one' s s' c rest (mono_proper pw bs Hb Hfit) Hs Hs' Hc _ _ _ (monomial_families bs) _ _ _ _ _ _ xs i j (proj2 (proj2 (msets_facts pw bs Hb)) KVal) (proj2 (proj2 (msets_facts pw bs Hb)) KGrad) (proj2 (proj2 (msets_facts pw bs Hb)) KHess) HL
    (proj1 (mfamilies_derivatives bs)) (proj2 (mfamilies_derivatives bs)) _ (mmany_modest bs Hn) (mono_close pw bs xs Hb HL Hx KVal) (mono_close pw bs xs Hb HL Hx KGrad) (mono_close pw bs xs Hb HL Hx KHess) Hi Hj Hsc).
  unfold monomial_families. apply map_length.
Qed.
