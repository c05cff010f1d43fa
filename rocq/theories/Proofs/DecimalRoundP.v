(** Rounding to decimal digits and to doubles, one after the other. *)
From Coq Require Import ZArith List Bool Ascii Reals Lia Lra Psatz.
From Flocq Require Import Core.
From Flocq Require Import IEEE754.BinarySingleNaN.
From Verif Require Import Spec.Rounding Spec.Decimal.
From Verif Require Import Proofs.DecimalP.
Local Open Scope Z_scope.

Local Instance prec53 : Prec_gt_0 53. Proof. reflexivity. Qed.
Local Instance prec6 : Prec_gt_0 6. Proof. reflexivity. Qed.

Lemma to_double_id x : generic_format radix2 (FLT_exp (-1074) 53) x -> to_double x = x.
Proof. intros H. apply round_generic; [typeclasses eauto|exact H]. Qed.

(** The error of both, for six digits. *)
Lemma six_error x : (0 < x)%R -> (Rabs (to_digits 6 x - x) <= 5 / 1000000 * x)%R.
Proof. intros H. pose proof (to_digits_error 6 ltac:(lia) x H) as E. change (bpow ten (1 - 6)) with (/ IZR (10 ^ 5))%R in E. change (10 ^ 5) with 100000 in E. lra. Qed.
Lemma pow_m53 : (0 < bpow radix2 (-53) < / 1000000000000000)%R.
Proof. split; [apply bpow_gt_0|]. change (bpow radix2 (-53)) with (/ IZR (2 ^ 53))%R. apply Rinv_lt; [lra|]. apply IZR_lt. reflexivity. Qed.

Lemma reread_error x : (0 <= x)%R -> (Rabs (to_double (to_digits 6 x) - x) <= 5000001 / 1000000000000 * x + bpow radix2 (-1075))%R.
Proof.
  intros [H| <-].
  2:{ unfold to_digits. rewrite round_0 by typeclasses eauto. unfold to_double. rewrite round_0 by typeclasses eauto. pose proof (bpow_gt_0 radix2 (-1075)). rewrite Rminus_0_r, Rabs_R0. lra. }
  pose proof (six_error x H) as E. set (y := to_digits 6 x) in *. apply Rabs_le_inv in E. assert (Py : (0 < y)%R) by lra.
  pose proof (to_double_error y Py) as D. apply Rabs_le_inv in D. pose proof pow_m53 as [P1 P2]. assert (bpow radix2 (-53) * y <= / 1000000000000000 * y)%R by (apply Rmult_le_compat_r; lra). apply Rabs_le. lra.
Qed.

(** Large enough numbers with six digits are restored. *)
Lemma six_stable y : (bpow radix2 (-1051) <= y)%R -> generic_format ten (FLX_exp 6) y -> to_digits 6 (to_double y) = y.
Proof.
  intros H F. pose proof (bpow_gt_0 radix2 (-1051)) as P0. assert (Py : (0 < y)%R) by lra. apply to_digits_close; [lia|exact Py|exact F|].
  pose proof (to_double_error y Py) as D. eapply Rle_lt_trans; [exact D|]. pose proof pow_m53 as [P1 P2].
  assert (bpow radix2 (-53) * y < / 1000000000000000 * y)%R by (apply Rmult_lt_compat_r; lra).
  replace (bpow radix2 (-1075)) with (bpow radix2 (-24) * bpow radix2 (-1051))%R by (rewrite <- bpow_plus; reflexivity).
  assert (bpow radix2 (-24) * bpow radix2 (-1051) <= bpow radix2 (-24) * y)%R by (apply Rmult_le_compat_l; [apply bpow_ge_0|exact H]).
  assert (Q : (bpow radix2 (-24) < / 10000000)%R).
  { change (bpow radix2 (-24)) with (/ IZR (2 ^ 24))%R. apply Rinv_lt; [lra|]. apply IZR_lt. reflexivity. }
  assert (bpow radix2 (-24) * y < / 10000000 * y)%R by (apply Rmult_lt_compat_r; lra).
  assert (T : bpow ten (Z.opp 6) = (/ 1000000)%R) by reflexivity. rewrite T. set (a := (bpow radix2 (-53) * y)%R) in *. set (b := (bpow radix2 (-24) * bpow radix2 (-1051))%R) in *. set (c := (bpow radix2 (-24) * y)%R) in *. clearbody a b c. lra.
Qed.
Lemma six_format x : generic_format ten (FLX_exp 6) (to_digits 6 x).
Proof. apply generic_format_round; typeclasses eauto. Qed.
Lemma reread_stable x : (bpow radix2 (-1050) <= x)%R -> to_digits 6 (to_double (to_digits 6 x)) = to_digits 6 x.
Proof.
  intros H. apply six_stable; [|apply six_format]. pose proof (bpow_gt_0 radix2 (-1051)). replace (bpow radix2 (-1050)) with (2 * bpow radix2 (-1051))%R in H by (change 2%R with (bpow radix2 1); rewrite <- bpow_plus; reflexivity).
  pose proof (six_error x ltac:(lra)) as E. apply Rabs_le_inv in E. lra.
Qed.
Lemma short_restored N k : 0 <= N < 10 ^ 6 -> N = 0 \/ (bpow radix2 (-1051) <= IZR N * bpow ten k)%R ->
  to_digits 6 (to_double (IZR N * bpow ten k)) = (IZR N * bpow ten k)%R.
Proof.
  intros HN [-> |H].
  - rewrite Rmult_0_l. unfold to_double. rewrite round_0 by typeclasses eauto. unfold to_digits. rewrite round_0 by typeclasses eauto. reflexivity.
  - apply six_stable; [exact H|]. apply generic_format_FLX. exists (Float ten N k); [reflexivity|]. cbn [Fnum]. change (radix_val ten) with 10. rewrite Z.abs_eq; lia.
Qed.

(** Seventeen digits suffice. *)
Lemma seventeen_exact x : (0 <= x)%R -> generic_format radix2 (FLT_exp (-1074) 53) x -> to_double (to_digits 17 x) = x.
Proof.
  intros [Hx| <-] Fx.
  2:{ unfold to_digits. rewrite round_0 by (apply valid_rnd_N). unfold to_double. rewrite round_0 by typeclasses eauto. reflexivity. }
  pose proof (to_digits_error 17 ltac:(lia) x Hx) as E. set (z := to_digits 17 x) in *. unfold to_double.
  set (t := bpow radix2 (-53)). assert (Ht : (0 < t)%R) by apply bpow_gt_0.
  assert (T1 : (bpow ten (1 - 17) / 2 < t / 2)%R).
  { unfold t. change (bpow ten (1 - 17)) with (/ IZR (10 ^ 16))%R. change (bpow radix2 (-53)) with (/ IZR (2 ^ 53))%R. assert (/ IZR (10 ^ 16) < / IZR (2 ^ 53))%R; [|lra]. apply Rinv_lt; [apply IZR_lt; reflexivity|apply IZR_lt; reflexivity]. }
  assert (T2 : (Rabs (z - x) < t / 2 * x)%R) by (eapply Rle_lt_trans; [exact E|]; apply Rmult_lt_compat_r; lra).
  assert (GU : forall w, (0 < w)%R -> (t * w <= ulp radix2 (FLT_exp (-1074) 53) w)%R).
  { intros w Hw. rewrite ulp_neq_0 by lra. unfold cexp, FLT_exp. destruct (mag radix2 w) as [e He]. cbn [mag_val]. specialize (He ltac:(lra)). rewrite Rabs_pos_eq in He by lra.
    apply Rle_trans with (bpow radix2 (e - 53)); [|apply bpow_le; lia]. unfold t. replace (e - 53) with (-53 + e) by lia. rewrite bpow_plus. apply Rmult_le_compat_l; [apply bpow_ge_0|lra]. }
  assert (S : (succ radix2 (FLT_exp (-1074) 53) x = x + ulp radix2 (FLT_exp (-1074) 53) x)%R) by (apply succ_eq_pos; lra).
  assert (Pd : (pred radix2 (FLT_exp (-1074) 53) x <= x - t * x)%R).
  { rewrite pred_eq_pos by lra. unfold pred_pos. case Req_bool_spec; intros EQ.
    - set (e := mag_val radix2 x (mag radix2 x)) in *. clearbody e. assert (X : x = bpow radix2 (e - 1)) by exact EQ. assert (t * x <= bpow radix2 (FLT_exp (-1074) 53 (e - 1)))%R; [|lra]. rewrite X. unfold t. rewrite <- bpow_plus. apply bpow_le. unfold FLT_exp. lia.
    - pose proof (GU x Hx). lra. }
  pose proof (GU x Hx) as U. apply Rabs_def2 in T2. destruct T2 as [Z1 Z2]. apply Rle_antisym.
  - apply round_N_le_midp; [typeclasses eauto|exact Fx|]. rewrite S. lra.
  - apply round_N_ge_midp; [typeclasses eauto|exact Fx|]. lra.
Qed.

(** Six digits do not overflow. *)
Definition max_double : R := (IZR (2 ^ 53 - 1) * bpow radix2 971)%R.
Lemma six_no_overflow x : (0 <= x <= max_double)%R -> (to_double (to_digits 6 x) < bpow radix2 1024)%R.
Proof.
  intros [H0 H]. set (u := (IZR 179769 * bpow ten 303)%R).
  assert (Fu : generic_format ten (FLX_exp 6) u).
  { apply generic_format_FLX. exists (Float ten 179769 303); [reflexivity|reflexivity]. }
  assert (Pu : (0 < u)%R) by (unfold u; apply Rmult_lt_0_compat; [lra|apply bpow_gt_0]).
  assert (B : (bpow ten 308 <= u < bpow ten 309)%R).
  { unfold u. change 308 with (5 + 303). change 309 with (6 + 303). rewrite !bpow_plus. pose proof (bpow_gt_0 ten 303). change (bpow ten 5) with 100000%R. change (bpow ten 6) with 1000000%R. split; [apply Rmult_le_compat_r; lra|apply Rmult_lt_compat_r; lra]. }
  assert (U : ulp ten (FLX_exp 6) u = bpow ten 303).
  { rewrite ulp_neq_0 by lra. unfold cexp. rewrite (mag_unique ten u 309); [reflexivity|]. rewrite Rabs_pos_eq by lra. exact B. }
  assert (Le : (to_digits 6 x <= u)%R).
  { apply round_N_le_midp; [typeclasses eauto|exact Fu|]. rewrite succ_eq_pos by lra. rewrite U. eapply Rle_lt_trans; [exact H|]. unfold u, max_double.
    rewrite <- (IZR_Zpower radix2) by lia. rewrite <- (IZR_Zpower ten) by lia. apply Rmult_lt_reg_r with 2%R; [lra|]. unfold Rdiv. rewrite Rmult_assoc with (r2 := (/ 2)%R). rewrite Rinv_l by lra. rewrite Rmult_1_r. rewrite <- !mult_IZR, <- !plus_IZR. apply IZR_lt. apply Z.ltb_lt. vm_compute. reflexivity. }
  assert (Um : (u <= max_double)%R).
  { unfold u, max_double. rewrite <- (IZR_Zpower radix2) by lia. rewrite <- (IZR_Zpower ten) by lia. rewrite <- !mult_IZR. apply IZR_le. apply Z.leb_le. vm_compute. reflexivity. }
  apply Rle_lt_trans with max_double.
  - unfold to_double. apply round_le_generic; [typeclasses eauto|typeclasses eauto| |lra]. apply generic_format_FLT. exists (Float radix2 (2 ^ 53 - 1) 971); [reflexivity|reflexivity|discriminate].
  - unfold max_double. replace (bpow radix2 1024) with (IZR (2 ^ 53) * bpow radix2 971)%R by (change (IZR (2 ^ 53)) with (bpow radix2 53); rewrite <- bpow_plus; reflexivity). apply Rmult_lt_compat_r; [apply bpow_gt_0|]. apply IZR_lt. reflexivity.
Qed.
