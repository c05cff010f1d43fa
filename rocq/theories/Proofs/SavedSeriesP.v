(** Series of doubles whose coefficients were printed and read: C63. *)
From Coq Require Import ZArith List Bool Lia ZifyBool Reals Lra.
From Flocq Require Import Core BinarySingleNaN.
From Verif Require Import Model.Outcome Model.Num Model.NumInst Model.PNDArray Model.BasisSet Model.Series Model.Stream Model.SeriesIO Model.CInterface Model.Decimal.
From Verif Require Import Spec.Tensor Spec.NDHistory Spec.Basis Spec.Series Spec.SeriesIO Spec.Rounding Spec.SeriesRounding Spec.PolyRounding Spec.Decimal.
From Verif Require Import Proofs.OutcomeP Proofs.PNDArrayP Proofs.SeriesP Proofs.SeriesRP Proofs.SeriesClientP Proofs.FloatShapeP Proofs.SumRoundP Proofs.SeriesRoundP Proofs.PythonP Proofs.DecimalSeriesP Proofs.SampleSeriesRoundP.
Import ListNotations.
Local Open Scope R_scope.

Local Lemma pairs_length (X Y : Type) (P : X -> Y -> Prop) l l' : Forall2 P l l' -> List.length l = List.length l'.
Proof. induction 1; cbn; auto. Qed.

Lemma nested_le : forall dims F G, (forall t, valid_index dims t -> F t <= G t) -> nested_sum dims F <= nested_sum dims G.
Proof.
  induction dims as [|d ds IH]; intros F G H; simpl.
  - apply H. constructor.
  - assert (Hin : forall i, In i (upto d) -> (0 <= i < d)%Z).
    { intros i Hi. unfold upto in Hi. apply in_map_iff in Hi as (m & <- & Hm). apply in_seq in Hm. lia. }
    induction (upto d) as [|i l IHl]; simpl; [lra|]. apply Rplus_le_compat.
    + apply IH. intros t Ht. apply H. constructor; auto. apply Hin. left; auto.
    + apply IHl. intros j Hj. apply Hin. right; auto.
Qed.
Lemma nested_abs : forall dims F, Rabs (nested_sum dims F) <= nested_sum dims (fun t => Rabs (F t)).
Proof.
  induction dims as [|d ds IH]; intros F; simpl; [lra|]. induction (upto d) as [|i l IHl]; simpl; [rewrite Rabs_R0; lra|].
  eapply Rle_trans; [apply Rabs_triang|]. apply Rplus_le_compat; [apply (IH (fun t => F (i :: t)))|exact IHl].
Qed.

(** What is read is a series a client may have. *)
Lemma over_values : forall (bs : list (bset (sx DS) (sa DS))) one (s : series DS) vals, series_over (S := DS) bs (nofZ FOps 0) one s -> List.length vals = List.length (nd_val (se_coeff s)) ->
  series_over (S := DS) bs (nofZ FOps 0) one (with_values (S := DS) s vals).
Proof.
  intros bs one s vals Hs HL.
  assert (G : forall todo old done s', series_over (S := DS) bs (nofZ FOps 0) one s' -> nd_val (se_coeff s') = done ++ old -> List.length todo = List.length old ->
    series_over (S := DS) bs (nofZ FOps 0) one (with_values (S := DS) s' (done ++ todo))).
  { induction todo as [|a todo IH]; intros [|x old] done s' H E L; try discriminate L.
    - rewrite <- E. replace (with_values (S := DS) s' (nd_val (se_coeff s'))) with s' by (symmetry; exact (with_values_same (O := FOps) s')). exact H.
    - injection L as L.
      assert (R' : srun (S := DS) (SSetCoeff (Z.of_nat (List.length done)) a) s' = RRet (with_values (S := DS) s' (done ++ a :: old)) tt).
      { cbn [srun]. unfold on_coeff, lift_set, nd_set. rewrite E, vset_ok by (rewrite app_length; simpl; lia). cbn [obind]. rewrite Nat2Z.id.
        replace (lset (done ++ x :: old) (List.length done) a) with (done ++ a :: old); [reflexivity|]. clear. induction done as [|y done IH]; simpl; [reflexivity|]. f_equal. exact IH. }
      assert (H2 : series_over (S := DS) bs (nofZ FOps 0) one (with_values (S := DS) s' (done ++ a :: old))) by (exact (SRet bs (nofZ FOps 0) one s' (SSetCoeff (Z.of_nat (List.length done)) a) _ H R')).
      specialize (IH old (done ++ [a]) _ H2). rewrite <- !app_assoc in IH. exact (IH eq_refl L). }
  exact (G vals (nd_val (se_coeff s)) [] s Hs eq_refl HL).
Qed.

(** The coefficients printed and read, one by one. *)
Lemma values_at : forall (bs : list (bset (sx DS) (sa DS))) one (s : series DS) one' s' c vals (rel : f64 -> f64 -> Prop), proper_basis bs ->
  series_over (S := DS) bs (nofZ FOps 0) one s -> series_over (S := DS) bs (nofZ FOps 0) one' s' -> coefficients s (sizes bs) c -> Forall2 rel (nd_val (se_coeff s)) vals ->
  exists c', coefficients (with_values (S := DS) s' vals) (sizes bs) c' /\ forall t, valid_index (sizes bs) t -> rel (c t) (c' t).
Proof.
  intros bs one s one' s' c vals rel Hb Hs Hs' Hc R. pose proof (over_inv _ _ _ _ Hb Hs) as I. pose proof (over_inv _ _ _ _ Hb Hs') as I'.
  assert (Hd : nd_dim (se_coeff s') = nd_dim (se_coeff s)) by (rewrite (inv_dim _ _ _ _ I), (inv_dim _ _ _ _ I'); reflexivity).
  destruct (wf_same _ _ _ (inv_wf _ _ _ _ I) (inv_wf _ _ _ _ I') Hd) as (_ & _ & Ev).
  assert (L : List.length vals = List.length (nd_val (se_coeff s'))).
  { apply Nat2Z.inj. rewrite (nd_wf_length _ _ (inv_wf _ _ _ _ I')), Ev, <- (nd_wf_length _ _ (inv_wf _ _ _ _ I)). f_equal. symmetry. exact (pairs_length _ _ _ _ _ R). }
  pose proof (over_values bs one' s' vals Hs' L) as H2. destruct (coefficients_exist bs _ _ _ Hb H2) as (c' & Hc'). exists c'. split; [exact Hc'|]. intros t Ht.
  pose proof (over_inv _ _ _ _ Hb H2) as I2. assert (Ne : sizes bs <> []) by apply Hb.
  assert (A : forall v (z : series DS) o, inv (S := DS) bs (nofZ FOps 0) o z -> nd_at (se_coeff z) t = Ok v -> vget (nd_val (se_coeff z)) (row_major (sizes bs) t) = Ok v).
  { intros v z o Iz E. unfold nd_at in E. destruct (linear_index_wf _ (se_coeff z) t (inv_wf _ _ _ _ Iz)) as [El _]; try rewrite (inv_dim _ _ _ _ Iz); auto. rewrite El, (inv_dim _ _ _ _ Iz) in E. exact E. }
  pose proof (A _ _ _ I (Hc t Ht)) as E1. pose proof (A _ _ _ I2 (Hc' t Ht)) as E2. apply vget_some in E1. apply vget_some in E2. destruct E1 as [_ E1], E2 as [_ E2]. cbn [with_values se_coeff nd_val] in E2.
  clear - R E1 E2. revert E1 E2. generalize (Z.to_nat (row_major (sizes bs) t)). induction R as [|a b l l' H R IH]; intros [|k] E1 E2; cbn [nth_error] in *; try discriminate; [congruence|eauto].
Qed.

(** All coefficients are finite. *)
Lemma all_finite : forall (bs : list (bset (sx DS) (sa DS))) one (s : series DS) c, proper_basis bs -> series_over (S := DS) bs (nofZ FOps 0) one s -> coefficients s (sizes bs) c ->
  (forall t, valid_index (sizes bs) t -> finite (c t)) -> Forall finite (nd_val (se_coeff s)).
Proof.
  intros bs one s c Hb Hs Hc F. pose proof (over_inv _ _ _ _ Hb Hs) as I. apply Forall_forall. intros a Ha. apply In_nth_error in Ha. destruct Ha as (k & E).
  assert (Hk : (k < List.length (nd_val (se_coeff s)))%nat) by (apply nth_error_Some; intros X; pose proof (eq_trans (eq_sym E) X) as Y; discriminate Y).
  destruct (row_major_surj _ (se_coeff s) (Z.of_nat k) (inv_wf _ _ _ _ I)) as (Ne & t & Ht & Et); [rewrite <- (nd_wf_length _ _ (inv_wf _ _ _ _ I)); lia|].
  destruct (linear_index_wf _ (se_coeff s) t (inv_wf _ _ _ _ I) Ne Ht) as [El _]. rewrite (inv_dim _ _ _ _ I) in Ht. pose proof (Hc t Ht) as Ec. unfold nd_at in Ec. rewrite El, Et in Ec. cbn [obind] in Ec.
  unfold nd_get in Ec. apply vget_some in Ec. destruct Ec as [_ Ec]. rewrite Nat2Z.id in Ec. pose proof (eq_trans (eq_sym E) Ec) as Y. injection Y as ->. apply F. exact Ht.
Qed.

Lemma bounds_product : forall dims delta fs Fs Bs t, close_to dims delta fs Fs Bs -> valid_index dims t -> Rabs (product (factors Fs t)) <= product (factors Bs t).
Proof.
  intros dims delta fs Fs Bs t Hc Ht. destruct (triples_ok _ _ _ _ _ _ Hc Ht) as (T1 & T2 & T3 & T4 & T5). rewrite <- T4, <- T5. clear - T1.
  induction (triples fs Fs Bs t) as [|[f [F B]] l IH]; simpl; [rewrite Rabs_R1; lra|].
  inversion T1 as [|? ? (_ & H & _) T2]; subst. cbn [fst snd] in H. rewrite Rabs_mult. apply Rmult_le_compat; auto using Rabs_pos.
Qed.

Local Notation e6 := (5000002 / 1000000000000).

Lemma tiny_zero : forall b : f64, finite b -> Rabs (value b) <= bpow radix2 (-1075) -> value b = 0.
Proof.
  intros b F H. destruct b as [s|s| |s m e B]; try discriminate F; [reflexivity|exfalso]. unfold value in H.
  assert (L : bpow radix2 (-1074) <= Rabs (B2R (B754_finite s m e B : f64))).
  { apply (abs_B2R_ge_emin 53 1024). reflexivity. }
  pose proof (bpow_lt radix2 (-1075) (-1074) ltac:(lia)). lra.
Qed.

(** How far the coefficients read are off, for coefficients in scale. *)
Lemma reread_coeff : forall a b : f64, finite a -> value a = 0 \/ bpow radix2 (-999) <= Rabs (value a) -> kept a b -> finite b /\ Rabs (value b - value a) <= e6 * Rabs (value a).
Proof.
  intros a b Fa Ha (Fb & _ & E & _). split; [exact Fb|]. destruct Ha as [Z|L].
  - rewrite Z, Rabs_R0, Rmult_0_r, Rplus_0_l, Rminus_0_r in E. rewrite (tiny_zero b Fb E), Z, Rabs_R0, Rminus_0_r, Rabs_R0. lra.
  - assert (T : bpow radix2 (-1075) <= 1 / 1000000000000 * Rabs (value a)).
    { replace (-1075)%Z with (-76 + -999)%Z by lia. rewrite bpow_plus. apply Rmult_le_compat; try apply bpow_ge_0; [|exact L]. simpl; lra. }
    lra.
Qed.

Section Saved.
Variables (dims : list Z) (delta : R) (fs : list (Z -> f64)) (Fs Bs : list (Z -> R)) (c c' : list Z -> f64).
Hypothesis Hcl : close_to dims delta fs Fs Bs.
Hypothesis Hsc : well_in_scale dims c Bs.
Hypothesis Hk : forall t, valid_index dims t -> kept (c t) (c' t).

Lemma near_coeff : forall t, valid_index dims t -> finite (c' t) /\ Rabs (value (c' t) - value (c t)) <= e6 * Rabs (value (c t)).
Proof.
  intros t Ht. destruct (proj1 Hsc t Ht) as [F H]. apply reread_coeff; [exact F| |exact (Hk t Ht)]. destruct H as [Z|H]; [left; exact Z|right].
  specialize (H 0%nat (Nat.le_0_l _)). cbn [firstn] in H. unfold product in H. cbn [fold_right] in H. lra.
Qed.
Lemma near_size : size_sum dims c' Bs <= (1 + e6) * size_sum dims c Bs.
Proof.
  unfold size_sum. replace ((1 + e6) * nested_sum dims (fun t => Rabs (value (c t)) * product (factors Bs t))) with
    ((1 + e6) * nested_sum dims (fun t => Rabs (value (c t)) * product (factors Bs t)) + 0 * nested_sum dims (fun _ => 0)) by ring.
  rewrite <- nested_linear. apply nested_le. intros t Ht. destruct (near_coeff t Ht) as [_ E]. pose proof (bounds_product _ _ _ _ _ _ Hcl Ht) as P. pose proof (Rabs_pos (product (factors Fs t))) as P0.
  assert (A : Rabs (value (c' t)) <= (1 + e6) * Rabs (value (c t))).
  { replace (value (c' t)) with (value (c t) + (value (c' t) - value (c t))) by ring. eapply Rle_trans; [apply Rabs_triang|]. lra. }
  apply (Rmult_le_compat_r (product (factors Bs t))) in A; lra.
Qed.
Lemma near_scale : in_scale dims c' Bs.
Proof.
  split.
  - intros t Ht. destruct (near_coeff t Ht) as [F E]. split; [exact F|]. destruct (proj1 Hsc t Ht) as [_ [Z|H]].
    + left. rewrite Z, Rabs_R0, Rmult_0_r, Rminus_0_r in E. pose proof (Rabs_pos (value (c' t))). destruct (Req_dec (value (c' t)) 0) as [|N]; [assumption|]. pose proof (Rabs_pos_lt _ N). lra.
    + right. intros k Hkk. specialize (H k Hkk). set (P := product (firstn k (factors Bs t))) in *. pose proof (bpow_gt_0 radix2 (-999)) as G.
      assert (P0 : 0 < P) by (pose proof (Rabs_pos (value (c t))); destruct (Rle_or_lt P 0); [nra|assumption]).
      assert (A : (1 - e6) * Rabs (value (c t)) <= Rabs (value (c' t)) <= (1 + e6) * Rabs (value (c t))).
      { split.
        - pose proof (Rabs_triang_inv (value (c t)) (value (c t) - value (c' t))) as T. replace (value (c t) - (value (c t) - value (c' t))) with (value (c' t)) in T by ring. rewrite (Rabs_minus_sym (value (c t))) in T. lra.
        - replace (value (c' t)) with (value (c t) + (value (c' t) - value (c t))) by ring. eapply Rle_trans; [apply Rabs_triang|]. lra. }
      replace (bpow radix2 (-1000)) with (/ 2 * bpow radix2 (-999)) by (change (/ 2) with (bpow radix2 (-1)); rewrite <- bpow_plus; reflexivity).
      replace (bpow radix2 1000) with (2 * bpow radix2 999) by (change 2 with (bpow radix2 1); rewrite <- bpow_plus; reflexivity). pose proof (bpow_gt_0 radix2 999). nra.
  - eapply Rle_trans; [apply near_size|]. replace (bpow radix2 1000) with (2 * bpow radix2 999) by (change 2 with (bpow radix2 1); rewrite <- bpow_plus; reflexivity).
    pose proof (proj2 Hsc). pose proof (bpow_gt_0 radix2 999). apply Rle_trans with ((1 + e6) * bpow radix2 999); [apply Rmult_le_compat_l; lra|apply Rmult_le_compat_r; lra].
Qed.
Lemma near_sum : Rabs (nested_sum dims (fun t => value (c' t) * product (factors Fs t)) - nested_sum dims (fun t => value (c t) * product (factors Fs t))) <= e6 * size_sum dims c Bs.
Proof.
  match goal with |- Rabs (?x - ?y) <= _ => replace (x - y) with (1 * x + (-1) * y) by ring end. rewrite <- nested_linear. eapply Rle_trans; [apply nested_abs|]. unfold size_sum.
  replace (e6 * nested_sum dims (fun t => Rabs (value (c t)) * product (factors Bs t))) with (e6 * nested_sum dims (fun t => Rabs (value (c t)) * product (factors Bs t)) + 0 * nested_sum dims (fun _ => 0)) by ring.
  rewrite <- nested_linear. apply nested_le. intros t Ht. destruct (near_coeff t Ht) as [_ E]. pose proof (bounds_product _ _ _ _ _ _ Hcl Ht) as P.
  replace (1 * (value (c' t) * product (factors Fs t)) + -1 * (value (c t) * product (factors Fs t))) with ((value (c' t) - value (c t)) * product (factors Fs t)) by ring. rewrite Rabs_mult.
  pose proof (Rmult_le_compat _ _ _ _ (Rabs_pos _) (Rabs_pos _) E P). lra.
Qed.
End Saved.

Lemma error_pos : forall dims delta, 0 <= delta -> 0 <= series_error dims delta.
Proof.
  intros dims delta D. unfold series_error. assert (U : 0 <= unit_roundoff) by (unfold unit_roundoff; apply bpow_ge_0).
  pose proof (pow_ge1 (1 + delta) (List.length dims) ltac:(lra)). pose proof (pow_ge1 (1 + unit_roundoff) (List.length dims + Z.to_nat (zprod dims)) ltac:(lra)). nra.
Qed.

(** Saved with the default precision. *)
Lemma saved_six : forall (bs : list (bset (sx DS) (sa DS))) one one' (s s' : series DS) (c : list Z -> f64) rest, proper_basis bs ->
  series_over (S := DS) bs (nofZ FOps 0) one s -> series_over (S := DS) bs (nofZ FOps 0) one' s' -> coefficients s (sizes bs) c ->
  forall phis Phis Bs delta (xs : list f64), implements (S := DS) KVal bs phis -> List.length xs = List.length bs -> modest (sizes bs) delta ->
  close_to (sizes bs) delta (at_point phis xs) (at_point Phis (map value xs)) Bs -> well_in_scale (sizes bs) c Bs ->
  exists t s2 i s3 a, se_print_coeff (S := DS) (print_double 6) s = Ok t /\
    se_read_coeff (S := DS) double_scanner (s', is_open (Some (t ++ rest))) = RRet (s2, i) tt /\ is_fail i = false /\
    se_call (S := DS) xs s2 = RRet s3 a /\ finite a /\
    Rabs (value a - series_fun (sizes bs) (fun t => value (c t)) Phis (map value xs)) <=
      (series_error (sizes bs) delta * (1 + e6) + e6) * size_sum (sizes bs) c Bs.
Proof.
  intros bs one one' s s' c rest Hb Hs Hs' Hc phis Phis Bs delta xs Hi Hx Hm Hcl Hsc.
  pose proof (over_inv _ _ _ _ Hb Hs) as I. pose proof (over_inv _ _ _ _ Hb Hs') as I'.
  assert (Hd : nd_dim (se_coeff s') = nd_dim (se_coeff s)) by (rewrite (inv_dim _ _ _ _ I), (inv_dim _ _ _ _ I'); reflexivity).
  pose proof (all_finite bs one s c Hb Hs Hc (fun t Ht => proj1 (proj1 Hsc t Ht))) as F.
  destruct (print_read_doubles 6 kept six_digits s s' rest (inv_wf _ _ _ _ I) (inv_wf _ _ _ _ I') Hd F) as (t & r & vals & E & R & K & _ & _).
  destruct (values_at bs one s one' s' c vals kept Hb Hs Hs' Hc K) as (c' & Hc' & Kc).
  assert (L : List.length vals = List.length (nd_val (se_coeff s'))).
  { destruct (wf_same _ _ _ (inv_wf _ _ _ _ I) (inv_wf _ _ _ _ I') Hd) as (_ & _ & Ev).
    apply Nat2Z.inj. rewrite (nd_wf_length _ _ (inv_wf _ _ _ _ I')), Ev, <- (nd_wf_length _ _ (inv_wf _ _ _ _ I)). f_equal. symmetry. exact (pairs_length _ _ _ _ _ K). }
  pose proof (over_values bs one' s' vals Hs' L) as H2.
  destruct (value_error59 bs one' _ c' Hb H2 Hc' phis Phis Bs delta xs Hi Hx Hm Hcl (near_scale _ _ _ _ _ _ _ Hcl Hsc Kc)) as (s3 & a & E3 & _ & Fa & Ea).
  exists t, (with_values (S := DS) s' vals), (is_open (Some r)), s3, a. split; [exact E|]. split; [exact R|]. split; [reflexivity|]. split; [exact E3|]. split; [exact Fa|].
  pose proof (near_sum _ _ _ _ _ _ _ Hcl Hsc Kc) as N. pose proof (near_size _ _ _ _ _ _ _ Hcl Hsc Kc) as Z. pose proof (error_pos (sizes bs) delta (proj1 Hm)) as P. unfold series_fun in *.
  match goal with |- Rabs (?v - ?y) <= _ => match type of Ea with Rabs (_ - ?x) <= _ => replace (v - y) with ((v - x) + (x - y)) by ring end end. eapply Rle_trans; [apply Rabs_triang|].
  apply (Rmult_le_compat_l _ _ _ P) in Z. lra.
Qed.

(** Saved with seventeen digits: as if not saved. *)
Lemma saved_seventeen : forall (bs : list (bset (sx DS) (sa DS))) one one' (s s' : series DS) (c : list Z -> f64) rest, proper_basis bs ->
  series_over (S := DS) bs (nofZ FOps 0) one s -> series_over (S := DS) bs (nofZ FOps 0) one' s' -> coefficients s (sizes bs) c ->
  (forall t, valid_index (sizes bs) t -> finite (c t)) ->
  forall phis (xs : list f64), implements (S := DS) KVal bs phis -> List.length xs = List.length bs ->
  exists t s2 i s3 s4 a, se_print_coeff (S := DS) (print_double 17) s = Ok t /\
    se_read_coeff (S := DS) double_scanner (s', is_open (Some (t ++ rest))) = RRet (s2, i) tt /\ is_fail i = false /\
    se_call (S := DS) xs s2 = RRet s3 a /\ se_call (S := DS) xs s = RRet s4 a.
Proof.
  intros bs one one' s s' c rest Hb Hs Hs' Hc Hf phis xs Hi Hx.
  pose proof (over_inv _ _ _ _ Hb Hs) as I. pose proof (over_inv _ _ _ _ Hb Hs') as I'.
  assert (Hd : nd_dim (se_coeff s') = nd_dim (se_coeff s)) by (rewrite (inv_dim _ _ _ _ I), (inv_dim _ _ _ _ I'); reflexivity).
  pose proof (all_finite bs one s c Hb Hs Hc Hf) as F.
  destruct (print_read_doubles 17 eq (fun x Fx => ex_intro _ x (conj (seventeen_digits x Fx) eq_refl)) s s' rest (inv_wf _ _ _ _ I) (inv_wf _ _ _ _ I') Hd F) as (t & r & vals & E & R & K & _ & _).
  destruct (values_at bs one s one' s' c vals eq Hb Hs Hs' Hc K) as (c' & Hc' & Kc).
  assert (L : List.length vals = List.length (nd_val (se_coeff s'))).
  { destruct (wf_same _ _ _ (inv_wf _ _ _ _ I) (inv_wf _ _ _ _ I') Hd) as (_ & _ & Ev).
    apply Nat2Z.inj. rewrite (nd_wf_length _ _ (inv_wf _ _ _ _ I')), Ev, <- (nd_wf_length _ _ (inv_wf _ _ _ _ I)). f_equal. symmetry. exact (pairs_length _ _ _ _ _ K). }
  pose proof (over_values bs one' s' vals Hs' L) as H2.
  assert (Hc2 : coefficients (with_values (S := DS) s' vals) (sizes bs) c) by (intros u Hu; rewrite (Kc u Hu); apply Hc'; exact Hu).
  destruct (value_ok bs (nofZ FOps 0) one s c phis xs Hb Hs Hc Hi Hx) as (s4 & E4 & _). destruct (value_ok bs (nofZ FOps 0) one' _ c phis xs Hb H2 Hc2 Hi Hx) as (s3 & E3 & _).
  exists t, (with_values (S := DS) s' vals), (is_open (Some r)), s3, s4, (tensor_sum DS (sizes bs) c (at_point phis xs) (nofZ FOps 0)). auto 10.
Qed.

(** Over Chebyshev polynomials. *)
Lemma saved_chebyshev : forall pw (bs : list (bset f64 f64)) one one' (s s' : series DS) (c : list Z -> f64) (xs : list f64) rest,
  Forall (chebyshev_doubles pw) bs -> fit_sizes (sizes (S := DS) bs) -> series_over (S := DS) bs (nofZ FOps 0) one s -> series_over (S := DS) bs (nofZ FOps 0) one' s' ->
  coefficients (S := DS) s (sizes (S := DS) bs) c -> List.length xs = List.length bs -> (Z.of_nat (List.length bs) <= int_max)%Z ->
  Forall (fun x => finite x /\ Rabs (value x) <= 1) xs -> well_in_scale (sizes (S := DS) bs) c (chebyshev_sizes 0 xs) ->
  exists t s2 i s3 a, se_print_coeff (S := DS) (print_double 6) s = Ok t /\
    se_read_coeff (S := DS) double_scanner (s', is_open (Some (t ++ rest))) = RRet (s2, i) tt /\ is_fail i = false /\
    se_call (S := DS) xs s2 = RRet s3 a /\ finite a /\
    Rabs (value a - series_fun (sizes (S := DS) bs) (fun t => value (c t)) (chebyshev_families bs) (map value xs)) <=
      (series_error (sizes (S := DS) bs) (41 * unit_roundoff) * (1 + e6) + e6) * size_sum (sizes (S := DS) bs) c (chebyshev_sizes 0 xs).
Proof.
  intros pw bs one one' s s' c xs rest Hb Hfit Hs Hs' Hc HL Hn Hx Hsc.
  exact (saved_six bs one one' s s' c rest (cheb_proper pw bs Hb Hfit) Hs Hs' Hc _ (chebyshev_families bs) _ _ xs (proj2 (proj2 (sets_facts pw bs Hb)) KVal) HL (many_modest bs Hn) (cheb_close pw bs xs Hb HL Hx KVal) Hsc).
Qed.
