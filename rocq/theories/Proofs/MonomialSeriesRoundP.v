(** Series of monomials in doubles: C60. *)
From Coq Require Import ZArith List Bool String Reals Lra Lia Psatz.
From Coquelicot Require Import Coquelicot.
From Flocq Require Import Core.Raux Core.Zaux Core.Defs IEEE754.BinarySingleNaN.
From Coq Require Import List.
From Verif Require Import Model.Outcome Model.Num Model.NumInst Model.BasisSet Model.Series Model.Stream Model.SeriesIO Model.Decimal Model.CExpr Model.Samples.
From Verif Require Import Spec.Tensor Spec.Basis Spec.Series Spec.Poly Spec.Rounding Spec.SeriesRounding Spec.PolyRounding.
From Verif Require Import Proofs.OutcomeP Proofs.BasisP Proofs.RoundP Proofs.SumRoundP Proofs.PolyP Proofs.SampleSetsP Proofs.PolyRoundP Proofs.SampleRoundP Proofs.SeriesRoundP Proofs.SampleSeriesRoundP Proofs.SavedSeriesP.
Import ListNotations.
Local Open Scope R_scope.

Section Monomials.
Variable pw : f64 -> f64 -> f64.
Local Notation fam := (family_of monomial_classes monomial_cases FOps pw).

Definition mphi64 (k : kind) (t : Z) (x : f64) : f64 := match fam k t x with Ok y => y | _ => nofZ FOps 0 end.
Definition mphiR (k : kind) (t : Z) (x : R) : R :=
  match k with KVal => x ^ Z.to_nat t | _ => peval (polyk k (xcoefs (Z.to_nat t))) x end.
Definition msizeR (k : kind) (t : Z) (x : R) : R := Derive_n (fun y => y ^ Z.to_nat t) (order k) x.
Lemma mphiR_ok : forall k t x, mphiR k t x = peval (polyk k (xcoefs (Z.to_nat t))) x.
Proof. intros [] t x; [symmetry; apply xcoefs_ok|reflexivity|reflexivity]. Qed.
Lemma msizeR_ok : forall k t x, msizeR k t x = peval (polyk k (xcoefs (Z.to_nat t))) x.
Proof.
  intros k t x. unfold msizeR. transitivity (Derive_n (peval (xcoefs (Z.to_nat t))) (order k) x); [apply Derive_n_ext; intros; symmetry; apply xcoefs_ok|].
  destruct k; cbn [order polyk].
  - reflexivity.
  - cbn [Derive_n]. apply is_derive_unique, pderiv_ok.
  - apply is_derive_n_unique, second_derivative.
Qed.

Lemma mphi64_ok : forall k t x, (0 <= t < 30)%Z -> fam k t x = Ok (mphi64 k t x).
Proof.
  intros k t x Ht. unfold mphi64. destruct (term_code _ _ xcoefs xcoefs 1024 28 (2 ^ 284) ltac:(lia) monomial_within2 k t Ht) as (c & Ec & n & m & s & An & _).
  destruct (analyse_total pw 1024 x c _ An) as (y & Ey).
  assert (E : fam k t x = Ok y) by (unfold family_of; destruct k; cbn [terms_of]; rewrite Ec; exact Ey). rewrite E. reflexivity.
Qed.

Lemma mset_facts : forall b, monomial_doubles pw b -> (0 <= bs_size b <= 30)%Z /\ reachable_bset (nofZ FOps 0 : f64) b /\
  forall k t x, (0 <= t < bs_size b)%Z -> terms_of (bs_fun b) (bs_dfun b) (bs_ddfun b) k t x = Ok (mphi64 k t x).
Proof.
  intros b (N & b0 & HN & Hm & Hl). destruct (later_history _ _ FOps pw _ _ N b0 b HN Hm Hl) as (_ & n & m & Hh & H30).
  destruct (stored_is_last _ _ _ _ _ Hh) as (Hs & _). pose proof (history_agrees_basis _ _ _ _ _ Hh) as (Hn & Hf & _). change (num FOps) with f64 in *.
  split; [rewrite Hs; split; [apply Hn|exact H30]|]. split; [exists fam, n, m; exact Hh|].
  intros k t x Ht. rewrite Hs in Ht. rewrite <- (mphi64_ok k t x) by lia. rewrite <- Hf. destruct k; reflexivity.
Qed.

Lemma msets_facts : forall bs : list (bset f64 f64), Forall (monomial_doubles pw) bs ->
  Forall (reachable_bset (nofZ FOps 0 : f64)) bs /\ Forall (fun n => 0 <= n <= 30)%Z (sizes (S := DS) bs) /\
  forall k, implements (S := DS) k bs (map (fun _ => mphi64 k) bs).
Proof.
  intros bs H. induction H as [|b bs Hb H (IH1 & IH2 & IH3)].
  - split; [constructor|]. split; [constructor|]. intros k. constructor.
  - destruct (mset_facts b Hb) as (A & B & C). split; [constructor; assumption|]. split; [constructor; assumption|]. intros k. constructor; [exact (C k)|exact (IH3 k)].
Qed.

Definition mfamilies (k : kind) (bs : list (bset f64 f64)) : list (Z -> R -> R) := map (fun _ => mphiR k) bs.
Definition mterm_sizes (k : kind) (xs : list f64) : list (Z -> R) := map (fun x t => 1 + msizeR k t (Rabs (value x))) xs.

Lemma monomial_close : forall k (bs : list (bset f64 f64)) (xs : list f64), List.length xs = List.length bs ->
  Forall (fun n => 0 <= n <= 30)%Z (sizes (S := DS) bs) -> Forall (fun x => finite x /\ Rabs (value x) <= 1024) xs ->
  close_to (sizes (S := DS) bs) (29 * unit_roundoff) (at_point (map (fun _ => mphi64 k) bs) xs) (at_point (mfamilies k bs) (map value xs)) (mterm_sizes k xs).
Proof.
  intros k bs xs HL Hn Hx. unfold close_to, at_point, mfamilies, mterm_sizes, sizes. rewrite !map_length, !combine_length, !map_length.
  split; [apply Nat.min_l, Nat.eq_le_incl; symmetry; exact HL|]. split; [apply Nat.min_l, Nat.eq_le_incl; symmetry; exact HL|]. split; [exact HL|].
  intros j n f F B t Ej Ef EF EB Ht.
  revert bs HL Hn j Ej Ef EF EB. induction Hx as [|x xs [Fx Bx] Hx IH]; intros [|b bs] HL Hn [|j] Ej Ef EF EB; try discriminate; cbn in HL.
  - cbn in Ej, Ef, EF, EB. injection Ej as <-. injection Ef as <-. injection EF as <-. injection EB as <-. cbn [fst snd].
    inversion Hn as [|? ? Hb _]; subst.
    destruct (term_within_ok _ _ xcoefs xcoefs 1024 28 (2 ^ 284) ltac:(lia) ltac:(lia) monomial_within2 pw k t x ltac:(lia) Fx Bx) as (y & Ey & Fy & By & E).
    assert (EE : mphi64 k t x = y) by (unfold mphi64; rewrite Ey; reflexivity). rewrite EE. rewrite <- mphiR_ok in By, E. rewrite <- msizeR_ok in By, E.
    assert (S0 : 0 <= msizeR k t (Rabs (value x))) by (pose proof (Rabs_pos (mphiR k t (value x))); lra).
    split; [exact Fy|]. split; [lra|]. eapply Rle_trans; [exact E|].
    assert (T : IZR (2 ^ 284) * tiny <= 29 * unit_roundoff).
    { change (IZR (2 ^ 284)) with (bpow radix2 284). unfold tiny, unit_roundoff. rewrite <- bpow_plus. apply Rle_trans with (bpow radix2 (-53)); [apply bpow_le; lia|].
      pose proof (bpow_gt_0 radix2 (-53)). lra. }
    replace (INR 28 + 1) with 29 by (simpl; lra). lra.
  - inversion Hn as [|? ? _ Hn']; subst. injection HL as HL. exact (IH bs HL Hn' j Ej Ef EF EB).
Qed.

Lemma mfamilies_derivatives : forall (bs : list (bset f64 f64)), derivatives (mfamilies KVal bs) (mfamilies KGrad bs) /\ derivatives (mfamilies KGrad bs) (mfamilies KHess bs).
Proof.
  induction bs as [|b bs [A B]]; [split; constructor|]. split; (constructor; [|assumption]); intros t x.
  - apply (is_derive_ext (peval (xcoefs (Z.to_nat t)))); [intros; apply xcoefs_ok|]. apply pderiv_ok.
  - apply pderiv_ok.
Qed.

Lemma mmany_modest : forall (bs : list (bset f64 f64)), (Z.of_nat (List.length bs) <= int_max)%Z -> modest (sizes (S := DS) bs) (29 * unit_roundoff).
Proof.
  intros bs H. unfold modest, sizes. rewrite map_length. pose proof u_pos as U. change (bpow radix2 (-53)) with unit_roundoff in U. split; [lra|]. split; [|exact H].
  apply Rle_trans with (bpow radix2 31 * (bpow radix2 6 * unit_roundoff)).
  - apply Rmult_le_compat; [apply pos_INR|lra| |apply Rmult_le_compat_r; [lra|simpl; lra]].
    rewrite INR_IZR_INZ. change (bpow radix2 31) with (IZR (2 ^ 31)). apply IZR_le. apply Z.le_trans with int_max; [exact H|unfold int_max; lia].
  - unfold unit_roundoff. rewrite <- !bpow_plus. apply Rle_trans with (bpow radix2 (-2)); [apply bpow_le; lia|simpl; lra].
Qed.

Section Series_.
Variables (bs : list (bset f64 f64)) (one : f64) (s : series DS) (c : list Z -> f64) (xs : list f64).
Hypothesis Hb : Forall (monomial_doubles pw) bs.
Hypothesis Hfit : fit_sizes (sizes (S := DS) bs).
Hypothesis Hs : series_over (S := DS) bs (nofZ FOps 0) one s.
Hypothesis Hc : coefficients (S := DS) s (sizes (S := DS) bs) c.
Hypothesis HL : List.length xs = List.length bs.
Hypothesis Hn : (Z.of_nat (List.length bs) <= int_max)%Z.
Hypothesis Hx : Forall (fun x => finite x /\ Rabs (value x) <= 1024) xs.

Lemma mono_proper : proper_basis (S := DS) bs.
Proof. split; [exact (proj1 (msets_facts bs Hb))|exact Hfit]. Qed.
Lemma mono_close : forall k, close_to (sizes (S := DS) bs) (29 * unit_roundoff) (at_point (map (fun _ => mphi64 k) bs) xs) (at_point (mfamilies k bs) (map value xs)) (mterm_sizes k xs).
Proof. intros k. apply monomial_close; [exact HL|exact (proj1 (proj2 (msets_facts bs Hb)))|exact Hx]. Qed.

Lemma mono_value : in_scale (sizes (S := DS) bs) c (monomial_sizes 0 xs) ->
  exists s' a, se_call (S := DS) xs s = RRet s' a /\ se_get s' = Ok a /\ finite a /\
    Rabs (value a - series_fun (sizes (S := DS) bs) (fun t => value (c t)) (monomial_families bs) (map value xs)) <=
      series_error (sizes (S := DS) bs) (29 * unit_roundoff) * size_sum (sizes (S := DS) bs) c (monomial_sizes 0 xs).
Proof.
  exact (value_error59 bs one s c mono_proper Hs Hc _ (monomial_families bs) _ _ xs (proj2 (proj2 (msets_facts bs Hb)) KVal) HL (mmany_modest bs Hn) (mono_close KVal)).
Qed.
Lemma mono_gradient : forall i, (0 <= i < Z.of_nat (List.length bs))%Z -> in_scale (sizes (S := DS) bs) c (by1 (monomial_sizes 0 xs) (monomial_sizes 1 xs) i) ->
  exists s' a g, se_eval_grad (S := DS) xs s = RRet s' tt /\ se_get_grad s' i = Ok a /\ finite a /\
    partial (series_fun (sizes (S := DS) bs) (fun t => value (c t)) (monomial_families bs)) i (map value xs) g /\
    Rabs (value a - g) <= series_error (sizes (S := DS) bs) (29 * unit_roundoff) * size_sum (sizes (S := DS) bs) c (by1 (monomial_sizes 0 xs) (monomial_sizes 1 xs) i).
Proof.
  intros i Hi Hsc. refine (gradient_error59 bs one s c mono_proper Hs Hc _ _ (monomial_families bs) _ _ _ _ xs i (proj2 (proj2 (msets_facts bs Hb)) KVal)
    (proj2 (proj2 (msets_facts bs Hb)) KGrad) HL (proj1 (mfamilies_derivatives bs)) _ (mmany_modest bs Hn) (mono_close KVal) (mono_close KGrad) Hi Hsc).
  unfold monomial_families. apply map_length.
Qed.
Lemma mono_hessian : forall i j, (0 <= i < Z.of_nat (List.length bs))%Z -> (0 <= j < Z.of_nat (List.length bs))%Z ->
  in_scale (sizes (S := DS) bs) c (by2 (monomial_sizes 0 xs) (monomial_sizes 1 xs) (monomial_sizes 2 xs) i j) ->
  exists s' a g, se_eval_hess (S := DS) xs s = RRet s' tt /\ se_get_hess s' i j = Ok a /\ finite a /\
    second (series_fun (sizes (S := DS) bs) (fun t => value (c t)) (monomial_families bs)) i j (map value xs) g /\
    Rabs (value a - g) <= series_error (sizes (S := DS) bs) (29 * unit_roundoff) *
      size_sum (sizes (S := DS) bs) c (by2 (monomial_sizes 0 xs) (monomial_sizes 1 xs) (monomial_sizes 2 xs) i j).
Proof.
  intros i j Hi Hj Hsc. refine (hessian_error59 bs one s c mono_proper Hs Hc _ _ _ (monomial_families bs) _ _ _ _ _ _ xs i j (proj2 (proj2 (msets_facts bs Hb)) KVal)
    (proj2 (proj2 (msets_facts bs Hb)) KGrad) (proj2 (proj2 (msets_facts bs Hb)) KHess) HL (proj1 (mfamilies_derivatives bs)) (proj2 (mfamilies_derivatives bs)) _
    (mmany_modest bs Hn) (mono_close KVal) (mono_close KGrad) (mono_close KHess) Hi Hj Hsc).
  unfold monomial_families. apply map_length.
Qed.
End Series_.
End Monomials.

(** Saved with the default precision and read. *)
Lemma saved_monomial : forall pw (bs : list (bset f64 f64)) one one' (s s' : series DS) (c : list Z -> f64) (xs : list f64) rest,
  Forall (monomial_doubles pw) bs -> fit_sizes (sizes (S := DS) bs) -> series_over (S := DS) bs (nofZ FOps 0) one s -> series_over (S := DS) bs (nofZ FOps 0) one' s' ->
  coefficients (S := DS) s (sizes (S := DS) bs) c -> List.length xs = List.length bs -> (Z.of_nat (List.length bs) <= int_max)%Z ->
  Forall (fun x => finite x /\ Rabs (value x) <= 1024) xs -> well_in_scale (sizes (S := DS) bs) c (monomial_sizes 0 xs) ->
  exists t s2 i s3 a, se_print_coeff (S := DS) (print_double 6) s = Ok t /\
    se_read_coeff (S := DS) double_scanner (s', is_open (Some (t ++ rest))) = RRet (s2, i) tt /\ is_fail i = false /\
    se_call (S := DS) xs s2 = RRet s3 a /\ finite a /\
    Rabs (value a - series_fun (sizes (S := DS) bs) (fun t => value (c t)) (monomial_families bs) (map value xs)) <=
      (series_error (sizes (S := DS) bs) (29 * unit_roundoff) * (1 + 5000002 / 1000000000000) + 5000002 / 1000000000000) * size_sum (sizes (S := DS) bs) c (monomial_sizes 0 xs).
Proof.
  intros pw bs one one' s s' c xs rest Hb Hfit Hs Hs' Hc HL Hn Hx Hsc.
  exact (saved_six bs one one' s s' c rest (mono_proper pw bs Hb Hfit) Hs Hs' Hc _ (monomial_families bs) _ _ xs (proj2 (proj2 (msets_facts pw bs Hb)) KVal) HL (mmany_modest bs Hn) (mono_close pw bs xs Hb HL Hx KVal) Hsc).
Qed.
