(** How many decimal digits tell doubles apart. *)
From Flocq Require Import Core IEEE754.BinarySingleNaN.
From Coq Require Import ZArith List Reals Lra Lia Ascii.
From Verif Require Import Model.Outcome Model.Num Model.NumInst Model.PNDArray Model.BasisSet Model.Series Model.Stream Model.SeriesIO
  Spec.Tensor Spec.NDHistory Spec.Python Proofs.PNDArrayP.
Import ListNotations.
Local Open Scope R_scope.

(** 1 and the double after it. *)
Definition one64 : f64 := @B754_finite 53 1024 false 4503599627370496 (-52) eq_refl.
Definition next64 : f64 := @B754_finite 53 1024 false 4503599627370497 (-52) eq_refl.
Lemma one_value : B2R one64 = 1.
Proof. unfold one64, B2R, F2R. cbn [Defs.Fnum Defs.Fexp cond_Zopp bpow]. change (Z.pow_pos radix2 52) with 4503599627370496%Z. lra. Qed.
Lemma next_value : B2R next64 = 1 + / 4503599627370496.
Proof. unfold next64, B2R, F2R. cbn [Defs.Fnum Defs.Fexp cond_Zopp bpow]. change (Z.pow_pos radix2 52) with 4503599627370496%Z. lra. Qed.

Lemma powerRZ_ten : forall n : nat, powerRZ 10 (- Z.of_nat n) = / IZR (10 ^ Z.of_nat n).
Proof. intros n. rewrite powerRZ_neg'. rewrite <- pow_powerRZ. f_equal. apply pow_IZR. Qed.

Lemma digits_tie : forall p, (1 <= p <= 16)%Z -> rounds_to p (B2R one64) (10 ^ (p - 1)) (1 - p) /\ rounds_to p (B2R next64) (10 ^ (p - 1)) (1 - p).
Proof.
  intros p Hp. assert (P : (0 < 10 ^ (p - 1))%Z) by (apply Z.pow_pos_nonneg; lia).
  assert (B : (10 ^ (p - 1) <= Z.abs (10 ^ (p - 1)) < 10 ^ p)%Z).
  { rewrite Z.abs_eq by lia. split; [lia|]. apply Z.pow_lt_mono_r; lia. }
  assert (E : powerRZ 10 (1 - p) = / IZR (10 ^ (p - 1))).
  { replace (1 - p)%Z with (- Z.of_nat (Z.to_nat (p - 1)))%Z by lia. rewrite powerRZ_ten. do 2 f_equal. f_equal. lia. }
  assert (U : (10 ^ (p - 1) <= 10 ^ 15)%Z) by (apply Z.pow_le_mono_r; lia). change (10 ^ 15)%Z with 1000000000000000%Z in U.
  apply IZR_le in U. assert (P' : 0 < IZR (10 ^ (p - 1))) by (apply IZR_lt in P; exact P).
  assert (L : / 1000000000000000 <= / IZR (10 ^ (p - 1))) by (apply Rinv_le; assumption).
  assert (E' : (IZR (10 ^ p) - / 2) * powerRZ 10 (1 - p - 1) < 1).
  { replace (1 - p - 1)%Z with (- Z.of_nat (Z.to_nat p))%Z by lia. rewrite powerRZ_ten. replace (Z.of_nat (Z.to_nat p)) with p by lia.
    assert (0 < IZR (10 ^ p)) by (apply IZR_lt, Z.pow_pos_nonneg; lia). rewrite Rmult_minus_distr_r, Rinv_r by lra.
    assert (0 < / IZR (10 ^ p)) by now apply Rinv_0_lt_compat. lra. }
  split; (split; [exact B|split]).
  - rewrite one_value, E, Rinv_r by lra. rewrite Rminus_diag_eq, Rabs_R0 by reflexivity. apply Rdiv_lt_0_compat; [apply Rinv_0_lt_compat; exact P'|lra].
  - rewrite one_value, Rabs_R1. exact E'.
  - rewrite next_value, E, Rinv_r by lra. rewrite Rabs_pos_eq; lra.
  - rewrite next_value, Rabs_pos_eq; lra.
Qed.
Lemma digits_collide : forall p (show : f64 -> text), (1 <= p <= 16)%Z -> shows_digits p B2R show -> B2R one64 <> B2R next64 /\ show one64 = show next64.
Proof.
  intros p show Hp H. split; [rewrite one_value, next_value; lra|]. destruct (digits_tie p Hp) as [A B]. exact (H _ _ _ _ A B).
Qed.

(** 17 digits are enough. *)
Local Instance digits_prec : Prec_gt_0 53 := eq_refl.
Lemma format_gap : forall x y : R, generic_format radix2 (FLT_exp (-1074) 53) x -> generic_format radix2 (FLT_exp (-1074) 53) y ->
  0 < x < y -> x * bpow radix2 (-53) <= y - x.
Proof.
  intros x y Fx Fy [Hx Hxy]. pose proof (succ_le_lt radix2 (FLT_exp (-1074) 53) x y Fx Fy Hxy) as Hs.
  rewrite succ_eq_pos in Hs by lra. assert (U : x * bpow radix2 (-53) <= ulp radix2 (FLT_exp (-1074) 53) x); [|lra].
  rewrite ulp_neq_0 by lra. unfold cexp, FLT_exp. destruct (mag radix2 x) as [e He]. cbn [mag_val]. specialize (He (Rgt_not_eq _ _ Hx)).
  rewrite Rabs_pos_eq in He by lra. apply Rle_trans with (bpow radix2 (e - 53)).
  - unfold Zminus. rewrite bpow_plus. apply Rmult_le_compat_r; [apply bpow_ge_0|lra].
  - apply bpow_le. apply Z.le_max_l.
Qed.
Lemma digits_apart_pos : forall x y m e, generic_format radix2 (FLT_exp (-1074) 53) x -> generic_format radix2 (FLT_exp (-1074) 53) y ->
  rounds_to 17 x m e -> rounds_to 17 y m e -> (0 < m)%Z -> x < y -> False.
Proof.
  intros x y m e Fx Fy (Hm & Rx & _) (_ & Ry & _) Hpos Hxy. set (t := powerRZ 10 e) in *. assert (T : 0 < t) by (apply powerRZ_lt; lra).
  change (10 ^ (17 - 1))%Z with 10000000000000000%Z in Hm. rewrite Z.abs_eq in Hm by lia. destruct Hm as [Hm _]. apply IZR_le in Hm.
  apply Rabs_def2 in Rx. apply Rabs_def2 in Ry. assert (Hmt : 10000000000000000 * t <= IZR m * t) by (apply Rmult_le_compat_r; lra).
  assert (Hx : 0 < x) by lra. pose proof (format_gap x y Fx Fy (conj Hx Hxy)) as G.
  assert (B : bpow radix2 (-53) = / 9007199254740992) by reflexivity. rewrite B in G.
  assert (x * / 9007199254740992 > (9999999999999999 * t) * / 9007199254740992) by (apply Rmult_gt_compat_r; lra). lra.
Qed.
Lemma digits_apart : forall (x y : f64) m e, rounds_to 17 (B2R x) m e -> rounds_to 17 (B2R y) m e -> B2R x = B2R y.
Proof.
  intros x y m e Hx Hy.
  assert (Fx : generic_format radix2 (FLT_exp (-1074) 53) (B2R x)) by (apply (generic_format_B2R 53 1024)).
  assert (Fy : generic_format radix2 (FLT_exp (-1074) 53) (B2R y)) by (apply (generic_format_B2R 53 1024)).
  assert (N : forall z, rounds_to 17 z m e -> rounds_to 17 (- z) (- m) e).
  { intros z (A & B & C). split; [rewrite Z.abs_opp; exact A|]. split; [|now rewrite Rabs_Ropp]. rewrite opp_IZR. replace (- z - - IZR m * powerRZ 10 e) with (- (z - IZR m * powerRZ 10 e)) by ring.
    now rewrite Rabs_Ropp. }
  assert (M : (m <> 0)%Z) by (destruct Hx as [A _]; intros ->; simpl in A; lia).
  destruct (Rtotal_order (B2R x) (B2R y)) as [H|[H|H]]; [exfalso|exact H|exfalso]; destruct (Z_lt_le_dec 0 m) as [P|P].
  - exact (digits_apart_pos _ _ _ _ Fx Fy Hx Hy P H).
  - refine (digits_apart_pos (- B2R y) (- B2R x) (- m) e _ _ (N _ Hy) (N _ Hx) _ _); [apply generic_format_opp; assumption|apply generic_format_opp; assumption|lia|lra].
  - exact (digits_apart_pos _ _ _ _ Fy Fx Hy Hx P H).
  - refine (digits_apart_pos (- B2R x) (- B2R y) (- m) e _ _ (N _ Hx) (N _ Hy) _ _); [apply generic_format_opp; assumption|apply generic_format_opp; assumption|lia|lra].
Qed.

(** The digits of a number are unique. *)
Lemma rounds_below : forall p x m e, rounds_to p x m e -> Rabs x < (IZR (10 ^ p) - / 2) * powerRZ 10 e.
Proof.
  intros p x m e ((_ & A) & B & _). assert (T : 0 < powerRZ 10 e) by (apply powerRZ_lt; lra).
  replace x with ((x - IZR m * powerRZ 10 e) + IZR m * powerRZ 10 e) by ring. eapply Rle_lt_trans; [apply Rabs_triang|].
  rewrite Rabs_mult, (Rabs_pos_eq (powerRZ 10 e)) by lra. rewrite <- abs_IZR.
  assert (IZR (Z.abs m) <= IZR (10 ^ p) - 1) by (rewrite <- minus_IZR; apply IZR_le; lia).
  assert (IZR (Z.abs m) * powerRZ 10 e <= (IZR (10 ^ p) - 1) * powerRZ 10 e) by (apply Rmult_le_compat_r; lra). lra.
Qed.
Lemma powerRZ_mono : forall a b, (a <= b)%Z -> powerRZ 10 a <= powerRZ 10 b.
Proof.
  intros a b H. replace b with (a + Z.of_nat (Z.to_nat (b - a)))%Z by lia. rewrite powerRZ_add by lra. rewrite <- pow_powerRZ.
  assert (T : 0 < powerRZ 10 a) by (apply powerRZ_lt; lra). assert (1 <= 10 ^ Z.to_nat (b - a)) by (apply pow_R1_Rle; lra).
  rewrite <- (Rmult_1_r (powerRZ 10 a)) at 1. apply Rmult_le_compat_l; lra.
Qed.
Lemma rounds_order : forall p x m e m' e', (0 <= p)%Z -> rounds_to p x m e -> rounds_to p x m' e' -> ~ (e < e')%Z.
Proof.
  intros p x m e m' e' Hp H (_ & _ & H') L. pose proof (rounds_below _ _ _ _ H) as B.
  assert (M : powerRZ 10 e <= powerRZ 10 (e' - 1)) by (apply powerRZ_mono; lia).
  assert (P : 1 <= IZR (10 ^ p)) by (apply IZR_le; assert (0 < 10 ^ p)%Z by (apply Z.pow_pos_nonneg; lia); lia).
  assert ((IZR (10 ^ p) - / 2) * powerRZ 10 e <= (IZR (10 ^ p) - / 2) * powerRZ 10 (e' - 1)) by (apply Rmult_le_compat_l; lra). lra.
Qed.
Lemma rounds_unique : forall p x m e m' e', (0 <= p)%Z -> rounds_to p x m e -> rounds_to p x m' e' -> m = m' /\ e = e'.
Proof.
  intros p x m e m' e' Hp H H'. assert (Ee : e = e') by (pose proof (rounds_order _ _ _ _ _ _ Hp H H'); pose proof (rounds_order _ _ _ _ _ _ Hp H' H); lia).
  split; [|exact Ee]. subst e'. destruct H as (_ & A & _), H' as (_ & A' & _). assert (T : 0 < powerRZ 10 e) by (apply powerRZ_lt; lra).
  apply Rabs_def2 in A. apply Rabs_def2 in A'.
  assert (D : IZR (m - m') * powerRZ 10 e < 1 * powerRZ 10 e) by (rewrite minus_IZR; lra). apply Rmult_lt_reg_r in D; [|exact T]. apply lt_IZR in D.
  assert (D' : IZR (m' - m) * powerRZ 10 e < 1 * powerRZ 10 e) by (rewrite minus_IZR; lra). apply Rmult_lt_reg_r in D'; [|exact T]. apply lt_IZR in D'. lia.
Qed.
Lemma third_digits : rounds_to 12 (1 / 3) 333333333333 (-12) /\ rounds_to 3 (999 + 4 / 10) 999 0 /\ rounds_to 3 (999 + 6 / 10) 100 1.
Proof.
  assert (A : powerRZ 10 (-12) = / 1000000000000) by exact (powerRZ_ten 12). assert (B : powerRZ 10 (-12 - 1) = / 10000000000000) by exact (powerRZ_ten 13).
  assert (C : powerRZ 10 (0 - 1) = / 10) by exact (powerRZ_ten 1).
  split; [|split]; (split; [simpl; lia|split]).
  - rewrite A. apply Rabs_def1; lra.
  - rewrite B, Rabs_pos_eq by lra. simpl. lra.
  - rewrite powerRZ_O. apply Rabs_def1; lra.
  - rewrite C, Rabs_pos_eq by lra. simpl. lra.
  - rewrite powerRZ_1. apply Rabs_def1; lra.
  - change (1 - 1)%Z with 0%Z. rewrite powerRZ_O, Rabs_pos_eq by lra. simpl. lra.
Qed.

(** Series with the coefficient [a] first and otherwise 0. *)
Definition first_coeff (a : f64) : @series (num_series FOps) :=
  let z := nofZ FOps 0 in @mkSeries (num_series FOps) (mkNd [2; 3]%Z [3; 1]%Z [a; z; z; z; z; z] 2 6) (nofZ FOps 1) z [] None [] [].
Lemma first_reachable : forall a, nd_reachable (sdflt (num_series FOps)) (se_coeff (first_coeff a)).
Proof.
  intros a. apply (NdStep _ (se_coeff (first_coeff (nofZ FOps 0))) (OpSet 0 a)); [|simpl; lia|reflexivity].
  apply (NdStep _ nd_empty (OpResize [2; 3]%Z)); [constructor| |reflexivity]. exact (proj2 usable_example).
Qed.
Lemma first_printed : forall (show : f64 -> text) a b, show a = show b ->
  se_print_coeff (S := num_series FOps) show (first_coeff a) = se_print_coeff (S := num_series FOps) show (first_coeff b).
Proof.
  intros show a b H. unfold first_coeff. generalize (nofZ FOps 0), (nofZ FOps 1). intros z o. vm_compute. rewrite H. reflexivity.
Qed.
Lemma digits_printed : forall p (show : f64 -> text), (1 <= p <= 16)%Z -> shows_digits p B2R show ->
  exists s s' : @series (num_series FOps), nd_reachable (sdflt (num_series FOps)) (se_coeff s) /\ nd_reachable (sdflt (num_series FOps)) (se_coeff s') /\
    nd_dim (se_coeff s) = nd_dim (se_coeff s') /\ nd_val (se_coeff s) <> nd_val (se_coeff s') /\
    se_print_coeff (S := num_series FOps) show s = se_print_coeff (S := num_series FOps) show s'.
Proof.
  intros p show Hp H. destruct (digits_collide p show Hp H) as [N E]. exists (first_coeff one64), (first_coeff next64).
  split; [apply first_reachable|]. split; [apply first_reachable|]. split; [reflexivity|]. split; [|apply first_printed; exact E].
  intros X. apply N. exact (f_equal (fun l : list f64 => match l with a :: _ => B2R a | [] => 0 end) X).
Qed.
