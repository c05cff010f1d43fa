(** Series in binary64: C59. *)
From Coq Require Import ZArith List Bool Lia ZifyBool Reals Lra.
From Flocq Require Import Core BinarySingleNaN.
From Verif Require Import Model.Outcome Model.Num Model.NumInst Model.PNDArray Model.BasisSet Model.Series.
From Verif Require Import Spec.Tensor Spec.Basis Spec.Series Spec.Rounding Spec.SeriesRounding.
From Verif Require Import Proofs.PNDArrayP Proofs.MeshRP Proofs.SeriesSumP Proofs.SeriesEvalP Proofs.SeriesRP Proofs.SeriesClientP Proofs.BinFloatP Proofs.RoundP Proofs.FloatShapeP Proofs.SumRoundP.
Import ListNotations.
Local Open Scope R_scope.

(** The factors of one index tuple, with what they stand for. *)
Definition triples (fs : list (Z -> f64)) (Fs Bs : list (Z -> R)) (t : list Z) : list (f64 * (R * R)) :=
  combine (factors fs t) (combine (factors Fs t) (factors Bs t)).

Lemma triples_ok : forall dims delta fs Fs Bs t, close_to dims delta fs Fs Bs -> valid_index dims t ->
  Forall (near_factor delta) (triples fs Fs Bs t) /\ List.length (triples fs Fs Bs t) = List.length dims /\
  map fst (triples fs Fs Bs t) = factors fs t /\ map (fun p => fst (snd p)) (triples fs Fs Bs t) = factors Fs t /\
  map (fun p => snd (snd p)) (triples fs Fs Bs t) = factors Bs t.
Proof.
  intros dims delta fs Fs Bs t H Ht. revert fs Fs Bs H. induction Ht as [|d i ds t Hi Ht IH]; intros fs Fs Bs (L1 & L2 & L3 & H).
  - destruct fs, Fs, Bs; try discriminate. repeat split; constructor.
  - destruct fs as [|f fs], Fs as [|F Fs], Bs as [|B Bs]; try discriminate. simpl in L1, L2, L3. injection L1 as L1. injection L2 as L2. injection L3 as L3.
    destruct (IH fs Fs Bs) as (A1 & A2 & A3 & A4 & A5).
    { split; [exact L1|]. split; [exact L2|]. split; [exact L3|]. intros j n f' F' B' t' E1 E2 E3 E4 Ht'.
      exact (H (S j) n f' F' B' t' E1 E2 E3 E4 Ht'). }
    unfold triples, factors in *. simpl. repeat split; try (f_equal; assumption).
    constructor; [|exact A1]. exact (H 0%nat d f F B i eq_refl eq_refl eq_refl eq_refl Hi).
Qed.

Lemma term_ok : forall dims delta fs Fs Bs (c : list Z -> f64) t, modest dims delta -> close_to dims delta fs Fs Bs -> in_scale dims c Bs -> valid_index dims t ->
  (INR (List.length dims) <= bpow radix2 32) ->
  let x := fold_left (nmul FOps) (factors fs t) (c t) in
  fin (x : f64) /\ Rabs (value (c t) * product (factors Fs t)) <= Rabs (value (c t)) * product (factors Bs t) /\
  Rabs (B2R (x : f64) - value (c t) * product (factors Fs t)) <=
    (((1 + delta) * (1 + u)) ^ List.length dims - 1) * (Rabs (value (c t)) * product (factors Bs t)).
Proof.
  intros dims delta fs Fs Bs c t (D0 & D1 & D2) Hc (Hs & _) Ht Hd x. destruct (triples_ok _ _ _ _ _ _ Hc Ht) as (T1 & T2 & T3 & T4 & T5).
  destruct (Hs t Ht) as [Fc [Zc|Hp]].
  - assert (Ff : Forall (fun f : f64 => fin f) (factors fs t)).
    { rewrite <- T3. apply Forall_map. eapply Forall_impl; [|exact T1]. intros p (F & _). exact F. }
    destruct (prod_zero (factors fs t) (c t) Fc Zc Ff) as [Fx Zx]. split; [exact Fx|]. rewrite Zc. split.
    + rewrite Rmult_0_l, Rabs_R0. lra.
    + match goal with |- Rabs (?a - _) <= _ => replace a with 0 by (symmetry; exact Zx) end. rewrite Rmult_0_l, Rminus_0_r, Rabs_R0. lra.
  - assert (M : Rabs (product (factors Fs t)) <= product (factors Bs t)).
    { rewrite <- T4, <- T5. clear - T1. induction (triples fs Fs Bs t) as [|[f [F B]] l IH]; simpl; [rewrite Rabs_R1; lra|].
      inversion T1 as [|? ? (_ & H & _) T2]; subst. cbn [fst snd] in H. rewrite Rabs_mult. apply Rmult_le_compat; auto using Rabs_pos. }
    destruct (prod_chain delta D0 (triples fs Fs Bs t) (c t) (value (c t)) (Rabs (value (c t))) 0) as [Fx Ex].
    + exact Fc.
    + lra.
    + simpl. unfold value. rewrite Rminus_diag_eq, Rabs_R0 by reflexivity. lra.
    + exact T1.
    + rewrite T2, T5. exact Hp.
    + rewrite T2. simpl. pose proof (powers_below_2 delta (List.length dims) 0 D0 D1) as P. rewrite Nat.add_0_r in P. specialize (P Hd). simpl in P. rewrite Rmult_1_r in P. exact P.
    + rewrite T2, T3, T4, T5 in *. cbn [Nat.add] in *. split; [exact Fx|]. split; [|exact Ex].
      rewrite Rabs_mult. apply Rmult_le_compat_l; [apply Rabs_pos|exact M].
Qed.

Lemma zprod_fits : forall bs : list (bset (sx DS) (sa DS)), proper_basis bs -> (zprod (sizes bs) <= int_max)%Z /\ Forall (fun d => (0 <= d)%Z) (sizes bs).
Proof.
  intros bs (_ & (_ & H1 & H2 & _) & _). split; [|exact H1]. specialize (H2 (List.length (sizes bs))). rewrite firstn_all in H2. apply H2.
Qed.

Lemma small_count : forall n, (Z.of_nat n <= 2 * int_max)%Z -> INR n <= bpow radix2 32.
Proof. intros n H. rewrite INR_IZR_INZ. change (bpow radix2 32) with (IZR 4294967296). apply IZR_le. unfold int_max in H. lia. Qed.

Lemma tensor_sum_error : forall dims delta fs Fs Bs (c : list Z -> f64), modest dims delta -> Forall (fun d => (0 <= d)%Z) dims -> (zprod dims <= int_max)%Z ->
  close_to dims delta fs Fs Bs -> in_scale dims c Bs ->
  let a := tensor_sum DS dims c fs (nofZ FOps 0) in
  finite a /\ Rabs (value a - nested_sum dims (fun t => value (c t) * product (factors Fs t))) <= series_error dims delta * size_sum dims c Bs.
Proof.
  intros dims delta fs Fs Bs c Hm Hpos Hz Hc Hs a. pose proof Hm as (D0 & D1 & D2). pose proof (length_tuples dims Hpos) as LT.
  assert (Z0 : (0 <= zprod dims)%Z) by (apply zprod_nonneg; exact Hpos).
  assert (Hd : INR (List.length dims) <= bpow radix2 32) by (apply small_count; unfold int_max in *; lia).
  assert (Hn : INR (List.length dims + List.length (tuples dims)) <= bpow radix2 32) by (apply small_count; rewrite LT; lia).
  set (rho := (1 + delta) * (1 + u)).
  assert (R1 : 1 <= rho ^ List.length dims) by (apply pow_ge1; unfold rho; pose proof u_pos; nra).
  set (l := map (fun t => (fold_left (nmul FOps) (factors fs t) (c t) : f64, (value (c t) * product (factors Fs t), Rabs (value (c t)) * product (factors Bs t)))) (tuples dims)).
  assert (E1 : map fst l = map (fun t => fold_left (nmul FOps) (factors fs t) (c t) : f64) (tuples dims)) by (unfold l; rewrite map_map; reflexivity).
  assert (E2 : fold_right Rplus 0 (map (fun p => fst (snd p)) l) = nested_sum dims (fun t => value (c t) * product (factors Fs t))).
  { unfold l. rewrite map_map. cbn [fst snd]. rewrite <- rsuml_tuples. reflexivity. }
  assert (E3 : fold_right Rplus 0 (map (fun p => snd (snd p)) l) = size_sum dims c Bs).
  { unfold l. rewrite map_map. cbn [fst snd]. unfold size_sum. rewrite <- rsuml_tuples. reflexivity. }
  assert (EL : List.length l = Z.to_nat (zprod dims)) by (unfold l; rewrite map_length; exact LT).
  destruct (sum_chain (rho ^ List.length dims) l (nofZ FOps 0) 0 0 0) as [F E].
  - exact R1.
  - reflexivity.
  - rewrite Rabs_R0. lra.
  - match goal with |- Rabs (?a - _) <= _ => replace a with 0 by reflexivity end. rewrite Rminus_0_r, Rabs_R0. lra.
  - unfold l. apply Forall_map. apply Forall_forall. intros t Ht. apply valid_in_tuples in Ht. exact (term_ok dims delta fs Fs Bs c t Hm Hc Hs Ht Hd).
  - rewrite E3, Rplus_0_l. apply Hs.
  - rewrite EL, <- LT. apply powers_below_2; assumption.
  - split.
    + change (fin (fold_left (nadd FOps) (map (fun t => fold_left (nmul FOps) (factors fs t) (c t) : f64) (tuples dims)) (nofZ FOps 0))). rewrite <- E1. exact F.
    + rewrite E2, E3, EL, !Rplus_0_l in E. cbn [Nat.add] in E. unfold series_error, unit_roundoff.
      replace ((1 + delta) ^ List.length dims * (1 + u) ^ (List.length dims + Z.to_nat (zprod dims))) with (rho ^ List.length dims * (1 + u) ^ Z.to_nat (zprod dims))
        by (unfold rho; rewrite Rpow_mult_distr, pow_add; ring).
      rewrite E1 in E. exact E.
Qed.

Lemma close_swap : forall dims delta fs dfs Fs dFs Bs dBs i, (0 <= i)%Z -> close_to dims delta fs Fs Bs -> close_to dims delta dfs dFs dBs ->
  close_to dims delta (swap fs i dfs) (swap Fs i dFs) (swap Bs i dBs).
Proof.
  intros dims delta fs dfs Fs dFs Bs dBs i Hi (A1 & A2 & A3 & A) (B1 & B2 & B3 & B). split; [rewrite length_swap; exact A1|].
  split; [rewrite length_swap; exact A2|]. split; [rewrite length_swap; exact A3|].
  intros j n f F b t En Ef EF Eb Ht. rewrite nth_error_swap in Ef, EF, Eb by (exact Hi || congruence).
  destruct (Z.of_nat j =? i)%Z; [exact (B j n f F b t En Ef EF Eb Ht)|exact (A j n f F b t En Ef EF Eb Ht)].
Qed.

Lemma close_by2 : forall dims delta fs dfs ddfs Fs dFs ddFs Bs dBs ddBs i j, (0 <= i)%Z -> (0 <= j)%Z -> close_to dims delta fs Fs Bs ->
  close_to dims delta dfs dFs dBs -> close_to dims delta ddfs ddFs ddBs ->
  close_to dims delta (by2 fs dfs ddfs i j) (by2 Fs dFs ddFs i j) (by2 Bs dBs ddBs i j).
Proof. intros. unfold by2. destruct (i =? j)%Z; repeat apply close_swap; auto. Qed.

Lemma length_sizes : forall bs : list (bset (sx DS) (sa DS)), List.length (sizes bs) = List.length bs.
Proof. intros. apply map_length. Qed.

Section Errors.
Variables (bs : list (bset (sx DS) (sa DS))) (one : f64) (s : series DS) (c : list Z -> f64).
Hypothesis Hb : proper_basis bs.
Hypothesis Hs : series_over (S := DS) bs (nofZ FOps 0) one s.
Hypothesis Hc : coefficients s (sizes bs) c.
Local Notation dims := (sizes bs).
Local Notation C := (fun t => value (c t)).

Lemma value_error59 : forall phis Phis Bs delta (xs : list f64), implements (S := DS) KVal bs phis -> List.length xs = List.length bs -> modest dims delta ->
  close_to dims delta (at_point phis xs) (at_point Phis (map value xs)) Bs -> in_scale dims c Bs ->
  exists s' a, se_call (S := DS) xs s = RRet s' a /\ se_get s' = Ok a /\ finite a /\
    Rabs (value a - series_fun dims C Phis (map value xs)) <= series_error dims delta * size_sum dims c Bs.
Proof.
  intros phis Phis Bs delta xs Hi Hx Hm Hcl Hsc. destruct (value_ok bs (nofZ FOps 0) one s c phis xs Hb Hs Hc Hi Hx) as (s' & E1 & E2 & _).
  destruct (zprod_fits bs Hb) as [Z1 Z2].
  destruct (tensor_sum_error dims delta _ _ Bs c Hm Z2 Z1 Hcl Hsc) as [F E]. eexists s', _. split; [exact E1|]. split; [exact E2|]. split; [exact F|exact E].
Qed.

Lemma gradient_error59 : forall phis dphis Phis dPhis Bs dBs delta (xs : list f64) i, implements (S := DS) KVal bs phis -> implements (S := DS) KGrad bs dphis ->
  List.length xs = List.length bs -> derivatives Phis dPhis -> List.length Phis = List.length bs -> modest dims delta ->
  close_to dims delta (at_point phis xs) (at_point Phis (map value xs)) Bs -> close_to dims delta (at_point dphis xs) (at_point dPhis (map value xs)) dBs ->
  (0 <= i < Z.of_nat (List.length bs))%Z -> in_scale dims c (by1 Bs dBs i) ->
  exists s' a g, se_eval_grad (S := DS) xs s = RRet s' tt /\ se_get_grad s' i = Ok a /\ finite a /\
    partial (series_fun dims C Phis) i (map value xs) g /\ Rabs (value a - g) <= series_error dims delta * size_sum dims c (by1 Bs dBs i).
Proof.
  intros phis dphis Phis dPhis Bs dBs delta xs i Hi Hdi Hx HD HP Hm Hcl Hdcl Hr Hsc.
  destruct (gradient_ok bs (nofZ FOps 0) one s c phis dphis xs Hb Hs Hc Hi Hdi Hx) as (s' & E1 & _ & _ & E2). specialize (E2 i Hr).
  destruct (zprod_fits bs Hb) as [Z1 Z2]. assert (HdP : List.length Phis = List.length dPhis) by exact (Forall2_len _ _ _ _ _ HD).
  destruct (tensor_sum_error dims delta _ _ (by1 Bs dBs i) c Hm Z2 Z1 (close_swap _ _ _ _ _ _ _ _ i (proj1 Hr) Hcl Hdcl) Hsc) as [F E].
  eexists s', _, (series_fun dims C (swap Phis i dPhis) (map value xs)). split; [exact E1|]. split; [exact E2|]. split; [exact F|]. split.
  - apply series_partial; [exact HD|rewrite length_sizes; exact HP|rewrite map_length, length_sizes; exact Hx|rewrite length_sizes; exact Hr].
  - unfold series_fun. rewrite at_point_swap; [exact E|lia|exact HdP|rewrite map_length; congruence].
Qed.

Lemma hessian_error59 : forall phis dphis ddphis Phis dPhis ddPhis Bs dBs ddBs delta (xs : list f64) i j, implements (S := DS) KVal bs phis -> implements (S := DS) KGrad bs dphis ->
  implements (S := DS) KHess bs ddphis -> List.length xs = List.length bs -> derivatives Phis dPhis -> derivatives dPhis ddPhis -> List.length Phis = List.length bs -> modest dims delta ->
  close_to dims delta (at_point phis xs) (at_point Phis (map value xs)) Bs -> close_to dims delta (at_point dphis xs) (at_point dPhis (map value xs)) dBs ->
  close_to dims delta (at_point ddphis xs) (at_point ddPhis (map value xs)) ddBs ->
  (0 <= i < Z.of_nat (List.length bs))%Z -> (0 <= j < Z.of_nat (List.length bs))%Z -> in_scale dims c (by2 Bs dBs ddBs i j) ->
  exists s' a g, se_eval_hess (S := DS) xs s = RRet s' tt /\ se_get_hess s' i j = Ok a /\ finite a /\
    second (series_fun dims C Phis) i j (map value xs) g /\ Rabs (value a - g) <= series_error dims delta * size_sum dims c (by2 Bs dBs ddBs i j).
Proof.
  intros phis dphis ddphis Phis dPhis ddPhis Bs dBs ddBs delta xs i j Hi Hdi Hddi Hx HD HDD HP Hm Hcl Hdcl Hddcl Hr Hr2 Hsc.
  destruct (hessian_ok bs (nofZ FOps 0) one s c phis dphis ddphis xs Hb Hs Hc Hi Hdi Hddi Hx) as (s' & E1 & _ & _ & E2 & _). specialize (E2 i j Hr Hr2).
  destruct (zprod_fits bs Hb) as [Z1 Z2]. assert (HdP : List.length Phis = List.length dPhis) by exact (Forall2_len _ _ _ _ _ HD).
  assert (HddP : List.length dPhis = List.length ddPhis) by exact (Forall2_len _ _ _ _ _ HDD).
  destruct (tensor_sum_error dims delta _ _ (by2 Bs dBs ddBs i j) c Hm Z2 Z1 (close_by2 _ _ _ _ _ _ _ _ _ _ _ i j (proj1 Hr) (proj1 Hr2) Hcl Hdcl Hddcl) Hsc) as [F E].
  eexists s', _, (series_fun dims C (by2 Phis dPhis ddPhis i j) (map value xs)). split; [exact E1|]. split; [exact E2|]. split; [exact F|]. split.
  - apply series_second; [exact HD|exact HDD|rewrite length_sizes; exact HP|rewrite map_length, length_sizes; exact Hx|rewrite length_sizes; exact Hr|rewrite length_sizes; exact Hr2].
  - unfold series_fun. rewrite at_point_by2; [exact E|lia|lia|exact HdP|congruence|rewrite map_length; congruence].
Qed.
End Errors.

Lemma series_error_linear : forall dims delta, modest dims delta -> Forall (fun d => (0 <= d)%Z) dims -> (zprod dims <= int_max)%Z ->
  series_error dims delta <= 2 * (INR (List.length dims) * delta + INR (List.length dims + Z.to_nat (zprod dims)) * unit_roundoff).
Proof.
  intros dims delta (D0 & D1 & D2) Hpos Hz. assert (Z0 : (0 <= zprod dims)%Z) by (apply zprod_nonneg; exact Hpos).
  assert (Hn : INR (List.length dims + Z.to_nat (zprod dims)) <= bpow radix2 32) by (apply small_count; lia).
  unfold series_error, unit_roundoff. set (d := List.length dims) in *. set (n := (d + Z.to_nat (zprod dims))%nat) in *.
  assert (U0 := u_pos). assert (U1 := u_small). pose proof (pow_bound u n (Rlt_le _ _ U0) ltac:(lra)) as B.
  assert (N : INR n * u <= / 1024).
  { apply Rle_trans with (bpow radix2 32 * u); [apply Rmult_le_compat_r; lra|]. rewrite <- bpow_plus. change (/ 1024) with (bpow radix2 (-10)). apply bpow_le. lia. }
  assert (A : (1 + delta) ^ d * (1 - INR d * delta) <= 1).
  { destruct d as [|d']; [simpl; lra|]. apply pow_bound; [exact D0|]. rewrite S_INR in D1. pose proof (pos_INR d'). nra. }
  assert (P1 : 1 <= (1 + u) ^ n) by (apply pow_ge1; lra). assert (P2 : 1 <= (1 + delta) ^ d) by (apply pow_ge1; lra).
  assert (a0 : 0 <= INR d * delta) by (apply Rmult_le_pos; [apply pos_INR|exact D0]). assert (b0 : 0 <= INR n * u) by (apply Rmult_le_pos; [apply pos_INR|lra]).
  set (a := INR d * delta) in *. set (b := INR n * u) in *. set (x := (1 + delta) ^ d) in *. set (y := (1 + u) ^ n) in *.
  assert (M : x * y * ((1 - a) * (1 - b)) <= 1).
  { replace (x * y * ((1 - a) * (1 - b))) with ((x * (1 - a)) * (y * (1 - b))) by ring. 
    assert (0 <= x * (1 - a)) by (apply Rmult_le_pos; lra). assert (0 <= y * (1 - b)) by (apply Rmult_le_pos; lra). nra. }
  assert (Q : 1 - a - b <= (1 - a) * (1 - b)) by nra.
  assert (X : 0 <= x * y) by (apply Rmult_le_pos; lra).
  assert (M2 : x * y * (1 - (a + b)) <= 1) by (eapply Rle_trans; [|exact M]; apply Rmult_le_compat_l; lra).
  assert (S : a + b <= / 2 /\ 0 <= a + b) by lra. set (w := a + b) in *. set (z := x * y) in *.
  assert (1 <= (1 + 2 * w) * (1 - w)) by nra. assert (z * (1 - w) <= (1 + 2 * w) * (1 - w)) by lra.
  assert (z <= 1 + 2 * w) by (apply Rmult_le_reg_r with (1 - w); lra). lra.
Qed.

Lemma error_linear : forall (bs : list (bset (sx DS) (sa DS))) delta, proper_basis bs -> modest (sizes bs) delta ->
  series_error (sizes bs) delta <= 2 * (INR (List.length bs) * delta + INR (List.length bs + Z.to_nat (zprod (sizes bs))) * unit_roundoff).
Proof.
  intros bs delta Hb Hm. destruct (zprod_fits bs Hb) as [Z1 Z2]. pose proof (series_error_linear _ _ Hm Z2 Z1) as H. rewrite length_sizes in H. exact H.
Qed.
