(** Decimal and binary rounding with integers. *)
From Coq Require Import ZArith List Bool Reals Lia Lra Psatz.
From Flocq Require Import Core.
From Flocq Require Import IEEE754.BinarySingleNaN.
From Verif Require Import Model.Outcome Model.Num Model.NumInst Model.Stream Model.Decimal.
From Verif Require Import Spec.Rounding Spec.Decimal.
Import ListNotations.
Local Open Scope Z_scope.

#[local] Instance prec53 : Prec_gt_0 53 := eq_refl.

Lemma rdiv_ok n d : 0 < d -> rdiv n d = ZnearestE (IZR n / IZR d).
Proof.
  intros Hd. assert (Rd : (0 < IZR d)%R) by (apply IZR_lt; exact Hd). unfold rdiv, Znearest. rewrite Zfloor_div by lia.
  assert (E : (IZR n / IZR d - IZR (n / d) = IZR (n mod d) / IZR d)%R).
  { rewrite (Z.div_mod n d) at 1 by lia. rewrite plus_IZR, mult_IZR. field. lra. }
  rewrite E. pose proof (Z.mod_pos_bound n d Hd) as B.
  assert (C : Zceil (IZR n / IZR d) = n / d + 1 \/ n mod d = 0).
  { destruct (Z.eq_dec (n mod d) 0) as [Z0|Z0]; [right; exact Z0|left]. apply Zceil_imp. rewrite plus_IZR. replace (n / d + 1 - 1) with (n / d) by lia.
    assert (Q : (0 < IZR (n mod d) / IZR d <= 1)%R).
    { assert ((0 < IZR (n mod d))%R) by (apply IZR_lt; lia). assert ((IZR (n mod d) < IZR d)%R) by (apply IZR_lt; lia). split; [apply Rdiv_lt_0_compat; lra|].
      apply Rmult_le_reg_r with (IZR d); [lra|]. unfold Rdiv. rewrite Rmult_assoc, Rinv_l by lra. lra. }
    split; lra. }
  destruct (Z.compare_spec (2 * (n mod d)) d) as [H|H|H].
  - rewrite Rcompare_Eq.
    + destruct (Z.even (n / d)); simpl; [reflexivity|]. destruct C as [-> | C]; [reflexivity|]. lia.
    + apply (f_equal IZR) in H. rewrite mult_IZR in H. apply Rmult_eq_reg_r with (IZR d); [|lra]. unfold Rdiv. rewrite Rmult_assoc, Rinv_l by lra. lra.
  - rewrite Rcompare_Lt; [reflexivity|]. apply IZR_lt in H. rewrite mult_IZR in H. apply Rmult_lt_reg_r with (IZR d); [lra|]. unfold Rdiv. rewrite Rmult_assoc, Rinv_l by lra. lra.
  - rewrite Rcompare_Gt; [destruct C as [-> | C]; [reflexivity|lia]|].
    apply IZR_lt in H. rewrite mult_IZR in H. apply Rmult_lt_reg_r with (IZR d); [lra|]. unfold Rdiv. rewrite Rmult_assoc, Rinv_l by lra. lra.
Qed.

Lemma ratio_ok (b : radix) m e : 0 < snd (ratio b m e) /\ (IZR (fst (ratio b m e)) / IZR (snd (ratio b m e)) = IZR m * bpow b e)%R /\
  (0 < m -> 0 < fst (ratio b m e)).
Proof.
  pose proof (radix_gt_0 b) as Hb. unfold ratio. destruct (Z.leb_spec 0 e) as [H|H]; cbn [fst snd].
  - split; [lia|]. split; [rewrite mult_IZR, IZR_Zpower by exact H; field|]. intros Hm. apply Z.mul_pos_pos; [exact Hm|]. apply Z.pow_pos_nonneg; lia.
  - split; [apply Z.pow_pos_nonneg; lia|]. split; [|auto]. rewrite IZR_Zpower by lia. rewrite bpow_opp. unfold Rdiv. rewrite Rinv_inv. reflexivity.
Qed.

Lemma rscale_ok (b : radix) n d e : 0 < d -> rscale b n d e = ZnearestE (IZR n / IZR d * bpow b (- e)).
Proof.
  intros Hd. pose proof (radix_gt_0 b) as Hb. assert (Rd : (0 < IZR d)%R) by (apply IZR_lt; exact Hd). pose proof (bpow_gt_0 b e) as P. unfold rscale. destruct (Z.leb_spec 0 e) as [H|H].
  - rewrite rdiv_ok by (apply Z.mul_pos_pos; [exact Hd|apply Z.pow_pos_nonneg; lia]). rewrite mult_IZR, IZR_Zpower by exact H. rewrite bpow_opp. f_equal. field. lra.
  - rewrite rdiv_ok by exact Hd. rewrite mult_IZR, IZR_Zpower by lia. f_equal. field. lra.
Qed.

(** ** Nearest double *)
Lemma quotient_exp_ok n d : 0 < n -> 0 < d -> quotient_exp n d = cexp radix2 (FLT_exp (-1074) 53) (IZR n / IZR d).
Proof.
  intros Hn Hd. assert (Rn : (0 < IZR n)%R) by (apply IZR_lt; exact Hn). assert (Rd : (0 < IZR d)%R) by (apply IZR_lt; exact Hd).
  assert (Px : (0 < IZR n / IZR d)%R) by (apply Rdiv_lt_0_compat; assumption).
  unfold quotient_exp, cexp, FLT_exp. f_equal. f_equal. symmetry. set (k := Z.log2 n - Z.log2 d).
  destruct (Z.log2_spec n Hn) as [N1 N2], (Z.log2_spec d Hd) as [D1 D2].
  pose proof (Z.log2_nonneg n) as LN. pose proof (Z.log2_nonneg d) as LD.
  assert (P2 : forall z, 0 <= z -> IZR (2 ^ z) = bpow radix2 z) by (intros z Hz; exact (IZR_Zpower radix2 z Hz)).
  apply IZR_le in N1, D1. apply IZR_lt in N2, D2. rewrite P2 in N1, N2, D1, D2 by lia. rewrite <- Z.add_1_r in N2, D2.
  assert (B1 : (bpow radix2 (k - 1) < IZR n / IZR d)%R).
  { unfold k. apply Rmult_lt_reg_r with (IZR d); [lra|]. unfold Rdiv. rewrite Rmult_assoc, Rinv_l, Rmult_1_r by lra.
    apply Rlt_le_trans with (bpow radix2 (Z.log2 n)); [|exact N1]. replace (Z.log2 n) with ((Z.log2 n - Z.log2 d - 1) + (Z.log2 d + 1)) at 2 by lia.
    rewrite (bpow_plus radix2 (Z.log2 n - Z.log2 d - 1)). apply Rmult_lt_compat_l; [apply bpow_gt_0|exact D2]. }
  assert (B2 : (IZR n / IZR d < bpow radix2 (k + 1))%R).
  { unfold k. apply Rmult_lt_reg_r with (IZR d); [lra|]. unfold Rdiv. rewrite Rmult_assoc, Rinv_l, Rmult_1_r by lra.
    apply Rlt_le_trans with (bpow radix2 (Z.log2 n + 1)); [exact N2|]. replace (Z.log2 n + 1) with ((Z.log2 n - Z.log2 d + 1) + Z.log2 d) at 1 by lia.
    rewrite (bpow_plus radix2 (Z.log2 n - Z.log2 d + 1)). apply Rmult_le_compat_l; [apply bpow_ge_0|exact D1]. }
  assert (T : (if 0 <=? k then d * 2 ^ k <=? n else d <=? n * 2 ^ (- k)) = Rle_bool (bpow radix2 k) (IZR n / IZR d)).
  { assert (G : (IZR d * bpow radix2 k <= IZR n)%R <-> (bpow radix2 k <= IZR n / IZR d)%R).
    { split; intros H.
      - apply Rmult_le_reg_r with (IZR d); [lra|]. unfold Rdiv. rewrite Rmult_assoc, Rinv_l, Rmult_1_r by lra. lra.
      - apply Rmult_le_compat_r with (r := IZR d) in H; [|lra]. unfold Rdiv in H. rewrite Rmult_assoc, Rinv_l, Rmult_1_r in H by lra. lra. }
    destruct (Z.leb_spec 0 k) as [K|K].
    - destruct (Z.leb_spec (d * 2 ^ k) n) as [H|H]; symmetry.
      + apply Rle_bool_true, G. rewrite <- P2 by exact K. rewrite <- mult_IZR. apply IZR_le. exact H.
      + apply Rle_bool_false. apply Rnot_le_lt. intros H'. apply G in H'. rewrite <- P2 in H' by exact K. rewrite <- mult_IZR in H'. apply le_IZR in H'. lia.
    - assert (G' : (IZR d <= IZR n * bpow radix2 (- k))%R <-> (IZR d * bpow radix2 k <= IZR n)%R).
      { rewrite bpow_opp. pose proof (bpow_gt_0 radix2 k) as P. split; intros H.
        - apply Rmult_le_compat_r with (r := bpow radix2 k) in H; [|lra]. rewrite Rmult_assoc, Rinv_l, Rmult_1_r in H by lra. exact H.
        - apply Rmult_le_reg_r with (bpow radix2 k); [exact P|]. rewrite Rmult_assoc, Rinv_l, Rmult_1_r by lra. exact H. }
      destruct (Z.leb_spec d (n * 2 ^ (- k))) as [H|H]; symmetry.
      + apply Rle_bool_true, G, G'. rewrite <- P2 by lia. rewrite <- mult_IZR. apply IZR_le. exact H.
      + apply Rle_bool_false. apply Rnot_le_lt. intros H'. apply G, G' in H'. rewrite <- P2 in H' by lia. rewrite <- mult_IZR in H'. apply le_IZR in H'. lia. }
  rewrite T. destruct (Rle_bool_spec (bpow radix2 k) (IZR n / IZR d)) as [H|H]; apply mag_unique_pos.
  - replace (k + 1 - 1) with k by lia. split; assumption.
  - split; [lra|assumption].
Qed.

Lemma nearest_quotient_ok neg n d : 0 < n -> 0 < d -> let y := to_double (IZR n / IZR d) in
  if Rlt_bool y (bpow radix2 1024)
  then finite (nearest_quotient neg n d) /\ value (nearest_quotient neg n d) = (if neg then - y else y)%R /\ Bsign (nearest_quotient neg n d) = neg
  else nearest_quotient neg n d = B754_infinity neg.
Proof.
  intros Hn Hd y. set (x := (IZR n / IZR d)%R). assert (Px : (0 < x)%R) by (apply Rdiv_lt_0_compat; apply IZR_lt; assumption).
  set (e := quotient_exp n d). set (q := rscale 2 n d e).
  assert (Eq : (IZR q * bpow radix2 e)%R = y).
  { unfold q. change 2 with (radix_val radix2). rewrite (rscale_ok radix2) by exact Hd. unfold y, to_double, round, F2R, scaled_mantissa. cbn [Fnum Fexp].
    unfold e. rewrite quotient_exp_ok by assumption. reflexivity. }
  assert (Py : (0 <= y)%R).
  { unfold y, to_double. rewrite <- (round_0 radix2 (FLT_exp (-1074) 53) ZnearestE). apply round_le; [typeclasses eauto|typeclasses eauto|]. apply Rlt_le. exact Px. }
  pose proof (binary_normalize_correct 53 1024 f64_prec f64_emax mode_NE (if neg then - q else q) e neg) as C. cbv zeta in C.
  fold (nearest_quotient neg n d) in C.
  change (binary_normalize 53 1024 f64_prec f64_emax mode_NE (if neg then - q else q) e neg) with (nearest_quotient neg n d) in C.
  assert (EF : F2R (beta := radix2) {| Fnum := if neg then - q else q; Fexp := e |} = (if neg then - y else y)%R).
  { unfold F2R. cbn [Fnum Fexp]. destruct neg; [rewrite opp_IZR, Ropp_mult_distr_l_reverse, Eq|rewrite Eq]; reflexivity. }
  rewrite EF in C. 
  assert (ER : round radix2 (SpecFloat.fexp 53 1024) (round_mode mode_NE) (if neg then - y else y) = (if neg then - y else y)%R).
  { apply round_generic; [typeclasses eauto|]. assert (G : generic_format radix2 (FLT_exp (-1074) 53) y) by (apply generic_format_round; typeclasses eauto).
    change (SpecFloat.fexp 53 1024) with (FLT_exp (-1074) 53). destruct neg; [apply generic_format_opp; exact G|exact G]. }
  rewrite ER in C. assert (EA : Rabs (if neg then - y else y) = y) by (destruct neg; [rewrite Rabs_Ropp|]; apply Rabs_pos_eq; exact Py). rewrite EA in C.
  destruct (Rlt_bool_spec y (bpow radix2 1024)) as [Small|Big].
  - destruct C as (C1 & C2 & C3). split; [exact C2|]. split; [exact C1|]. rewrite C3.
    destruct (Req_dec y 0) as [Z0|Z0].
    + rewrite Rcompare_Eq; [reflexivity|]. destruct neg; lra.
    + destruct neg; [rewrite Rcompare_Lt by lra|rewrite Rcompare_Gt by lra]; reflexivity.
  - destruct neg.
    + rewrite Rlt_bool_true in C by (pose proof (bpow_gt_0 radix2 1024); lra).
      destruct (nearest_quotient true n d); simpl in C; try discriminate C. inversion C. reflexivity.
    + rewrite Rlt_bool_false in C by exact Py. destruct (nearest_quotient false n d); simpl in C; try discriminate C. inversion C. reflexivity.
Qed.

Lemma to_double_ge0 x : (0 <= x)%R -> (0 <= to_double x)%R.
Proof. intros H. unfold to_double. rewrite <- (round_0 radix2 (FLT_exp (-1074) 53) ZnearestE). apply round_le; [typeclasses eauto|typeclasses eauto|exact H]. Qed.

Lemma nearest_decimal_ok neg m e : 0 <= m -> let y := to_double (IZR m * bpow ten e) in
  if Rlt_bool y (bpow radix2 1024)
  then finite (nearest_decimal neg m e) /\ value (nearest_decimal neg m e) = (if neg then - y else y)%R /\ Bsign (nearest_decimal neg m e) = neg
  else nearest_decimal neg m e = B754_infinity neg.
Proof.
  intros Hm y. unfold nearest_decimal. destruct (Z.eqb_spec m 0) as [Z0|Z0].
  - assert (y = 0%R) as -> by (unfold y; rewrite Z0, Rmult_0_l; unfold to_double; apply round_0; typeclasses eauto).
    rewrite Rlt_bool_true by apply bpow_gt_0. split; [reflexivity|]. split; [|reflexivity]. unfold value. simpl. destruct neg; lra.
  - destruct (ratio_ok ten m e) as (R1 & R2 & R3). change (radix_val ten) with 10 in *. specialize (R3 ltac:(lia)).
    destruct (ratio 10 m e) as [n d]. cbn [fst snd] in *. pose proof (nearest_quotient_ok neg n d R3 R1) as Q. cbv zeta in Q. rewrite R2 in Q. exact Q.
Qed.

(** ** Decimal digits *)
Lemma exp_up_ok fuel : forall k n d, 0 < d -> d <= n < d * 10 ^ (Z.of_nat fuel + 1) -> exists j, 0 <= j /\ exp_up fuel k n d = k + j /\ d * 10 ^ j <= n < d * 10 ^ (j + 1).
Proof.
  induction fuel as [|f IH]; intros k n d Hd B; cbn [exp_up].
  - exists 0. replace (10 ^ 0) with 1 by reflexivity. split; [lia|]. split; [lia|]. change (Z.of_nat 0 + 1) with 1 in B. replace (0 + 1) with 1 by lia. lia.
  - destruct (Z.leb_spec (10 * d) n) as [H|H].
    + destruct (IH (k + 1) n (10 * d)) as (j & J & E & B'); [lia| |].
      * split; [exact H|]. replace (Z.of_nat (S f) + 1) with (Z.succ (Z.of_nat f + 1)) in B by lia. rewrite Z.pow_succ_r in B by lia. lia.
      * exists (j + 1). split; [lia|]. split; [lia|]. replace (j + 1 + 1) with (Z.succ (j + 1)) by lia. rewrite (Z.pow_succ_r 10 (j + 1)) by lia.
        replace (j + 1) with (Z.succ j) in * by lia. rewrite !(Z.pow_succ_r 10 j) in * by lia. lia.
    + exists 0. replace (10 ^ 0) with 1 by reflexivity. replace (10 ^ (0 + 1)) with 10 by reflexivity. lia.
Qed.
Lemma exp_down_ok fuel : forall k n d, 0 < n -> n < d <= n * 10 ^ Z.of_nat fuel -> exists j, 0 < j /\ exp_down fuel k n d = k - j /\ d <= n * 10 ^ j < 10 * d.
Proof.
  induction fuel as [|f IH]; intros k n d Hn B; cbn [exp_down]; [simpl in B; lia|]. destruct (Z.ltb_spec n d) as [H|H]; [|lia].
  rewrite Nat2Z.inj_succ, Z.pow_succ_r in B by lia.
  destruct (Z_lt_dec (10 * n) d) as [G|G].
  - destruct (IH (k - 1) (10 * n) d) as (j & J & E & B'); [lia|lia|]. exists (j + 1). split; [lia|]. split; [lia|].
    replace (j + 1) with (Z.succ j) by lia. rewrite Z.pow_succ_r by lia. lia.
  - exists 1. split; [lia|]. split; [|lia]. destruct f as [|f]; cbn [exp_down]; [lia|]. destruct (Z.ltb_spec (10 * n) d); lia.
Qed.

Lemma dec_exp_ok n d : 0 < n -> 0 < d -> (bpow ten (-400) <= IZR n / IZR d < bpow ten 400)%R ->
  (bpow ten (dec_exp n d) <= IZR n / IZR d < bpow ten (dec_exp n d + 1))%R.
Proof.
  intros Hn Hd [B1 B2]. assert (Rn : (0 < IZR n)%R) by (apply IZR_lt; exact Hn). assert (Rd : (0 < IZR d)%R) by (apply IZR_lt; exact Hd).
  assert (M : forall y, (y <= IZR n / IZR d <-> IZR d * y <= IZR n)%R).
  { intros y. split; intros H.
    - apply Rmult_le_compat_r with (r := IZR d) in H; [|lra]. unfold Rdiv in H. rewrite Rmult_assoc, Rinv_l, Rmult_1_r in H by lra. lra.
    - apply Rmult_le_reg_r with (IZR d); [lra|]. unfold Rdiv. rewrite Rmult_assoc, Rinv_l, Rmult_1_r by lra. lra. }
  assert (M' : forall y, (IZR n / IZR d < y <-> IZR n < IZR d * y)%R).
  { intros y. split; intros H; apply Rnot_le_lt; intros H'; [|apply M in H'; lra]. apply M in H'. lra. }
  assert (P : forall j, 0 <= j -> IZR (10 ^ j) = bpow ten j) by (intros j Hj; exact (IZR_Zpower ten j Hj)).
  unfold dec_exp. destruct (Z.leb_spec d n) as [H|H].
  - destruct (exp_up_ok 400 0 n d Hd) as (j & J & -> & C1 & C2).
    + split; [exact H|]. apply M' in B2. apply lt_IZR. rewrite mult_IZR, P by lia. apply Rlt_le_trans with (1 := B2). apply Rmult_le_compat_l; [lra|]. apply bpow_le. lia.
    + rewrite Z.add_0_l. split; [apply M; rewrite <- P by exact J; rewrite <- mult_IZR; apply IZR_le; exact C1|].
      apply M'. rewrite <- P by lia. rewrite <- mult_IZR. apply IZR_lt. exact C2.
  - destruct (exp_down_ok 400 0 n d Hn) as (j & J & -> & C1 & C2).
    + split; [exact H|]. apply M in B1. apply le_IZR. rewrite mult_IZR, P by lia. apply Rmult_le_reg_r with (bpow ten (-400)); [apply bpow_gt_0|].
      rewrite Rmult_assoc, <- bpow_plus. change (bpow ten (Z.of_nat 400 + -400)) with 1%R. lra.
    + apply IZR_le in C1. apply IZR_lt in C2. rewrite !mult_IZR, P in * by lia. pose proof (bpow_gt_0 ten j) as G. split.
      * apply M. rewrite Z.sub_0_l, bpow_opp. apply Rmult_le_reg_r with (bpow ten j); [exact G|]. rewrite Rmult_assoc, Rinv_l by lra. lra.
      * apply M'. replace (0 - j + 1) with (1 + - j) by lia. rewrite bpow_plus, bpow_opp. apply Rmult_lt_reg_r with (bpow ten j); [exact G|].
        change (bpow ten 1) with 10%R. rewrite !Rmult_assoc, Rinv_l by lra. lra.
Qed.

Lemma znearest_between a b x : (IZR a <= x <= IZR b)%R -> a <= ZnearestE x <= b.
Proof.
  intros [H1 H2]. rewrite <- (Zrnd_IZR ZnearestE a), <- (Zrnd_IZR ZnearestE b). split; apply Zrnd_le; try typeclasses eauto; assumption.
Qed.

Lemma dec_digits_ok p n d : 1 <= p -> 0 < n -> 0 < d -> (bpow ten (-400) <= IZR n / IZR d < bpow ten 400)%R ->
  let (N, x) := dec_digits p n d in
  10 ^ (p - 1) <= N < 10 ^ p /\ (IZR N * bpow ten (x - (p - 1)))%R = to_digits p (IZR n / IZR d) /\ -400 <= x <= 400.
Proof.
  intros Hp Hn Hd B. pose proof (dec_exp_ok n d Hn Hd B) as E. unfold dec_digits. set (X := dec_exp n d) in *. set (x := (IZR n / IZR d)%R) in *.
  assert (P : forall j, 0 <= j -> IZR (10 ^ j) = bpow ten j) by (intros j Hj; exact (IZR_Zpower ten j Hj)).
  assert (MG : mag ten x = X + 1 :> Z) by (apply mag_unique_pos; replace (X + 1 - 1) with X by lia; exact E).
  assert (ER : rscale 10 n d (X - (p - 1)) = ZnearestE (x * bpow ten (- (X - (p - 1))))) by exact (rscale_ok ten n d _ Hd).
  rewrite ER. set (N := ZnearestE (x * bpow ten (- (X - (p - 1))))) in *.
  assert (EN : (IZR N * bpow ten (X - (p - 1)))%R = to_digits p x).
  { unfold to_digits, round, scaled_mantissa, F2R, cexp, FLX_exp. cbn [Fnum Fexp]. rewrite MG. unfold N. replace (X + 1 - p) with (X - (p - 1)) by lia. reflexivity. }
  assert (BN : 10 ^ (p - 1) <= N <= 10 ^ p).
  { apply znearest_between. rewrite !P by lia. pose proof (bpow_gt_0 ten (- (X - (p - 1)))) as G. split.
    - replace (p - 1) with (X + - (X - (p - 1))) at 1 by lia. rewrite bpow_plus. apply Rmult_le_compat_r; lra.
    - replace p with (X + 1 + - (X - (p - 1))) at 2 by lia. rewrite (bpow_plus _ (X + 1)). apply Rmult_le_compat_r; lra. }
  assert (BX : -400 <= X < 400).
  { split.
    - apply Z.lt_succ_r. rewrite <- Z.add_1_r. apply (lt_bpow ten). lra.
    - apply (lt_bpow ten). lra. }
  destruct (Z.eqb_spec N (10 ^ p)) as [EQ|NE].
  - split; [split; [lia|apply Z.pow_lt_mono_r; lia]|]. split; [|lia]. rewrite <- EN, EQ, !P, <- !bpow_plus by lia. f_equal. lia.
  - split; [lia|]. split; [exact EN|lia].
Qed.

Lemma digits_unique p N x N' x' : 1 <= p -> 10 ^ (p - 1) <= N < 10 ^ p -> 10 ^ (p - 1) <= N' < 10 ^ p ->
  (IZR N * bpow ten x = IZR N' * bpow ten x')%R -> N = N' /\ x = x'.
Proof.
  intros Hp H H' E. assert (P : forall j, 0 <= j -> IZR (10 ^ j) = bpow ten j) by (intros j Hj; exact (IZR_Zpower ten j Hj)).
  assert (G : forall N x, 10 ^ (p - 1) <= N < 10 ^ p -> mag ten (IZR N * bpow ten x) = p + x :> Z).
  { intros N0 x0 [A1 A2]. apply IZR_le in A1. apply IZR_lt in A2. rewrite P in A1, A2 by lia. apply mag_unique_pos. pose proof (bpow_gt_0 ten x0).
    replace (p + x0 - 1) with (p - 1 + x0) by lia. rewrite !bpow_plus. split; [apply Rmult_le_compat_r; lra|apply Rmult_lt_compat_r; lra]. }
  pose proof (G N x H) as M1. pose proof (G N' x' H') as M2. rewrite E, M2 in M1. assert (x = x') by lia. subst x'. split; [|reflexivity].
  apply Rmult_eq_reg_r in E; [|apply Rgt_not_eq, bpow_gt_0]. apply eq_IZR. exact E.
Qed.

(** ** The two roundings *)
Section Roundings.
Variable p : Z.
Hypothesis Hp : 1 <= p.
Instance prec10 : Prec_gt_0 p. Proof. unfold Prec_gt_0. lia. Qed.

Lemma to_digits_error x : (0 < x)%R -> (Rabs (to_digits p x - x) <= bpow ten (1 - p) / 2 * x)%R.
Proof.
  intros Hx. unfold to_digits. eapply Rle_trans; [apply error_le_half_ulp; typeclasses eauto|]. rewrite ulp_neq_0 by lra. unfold cexp, FLX_exp.
  destruct (mag ten x) as [e He]. cbn [mag_val]. specialize (He ltac:(lra)). rewrite Rabs_pos_eq in He by lra. replace (e - p) with ((1 - p) + (e - 1)) by lia. rewrite bpow_plus.
  pose proof (bpow_gt_0 ten (1 - p)). assert (bpow ten (1 - p) * bpow ten (e - 1) <= bpow ten (1 - p) * x)%R by (apply Rmult_le_compat_l; lra). lra.
Qed.

Lemma to_digits_ge0 x : (0 <= x)%R -> (0 <= to_digits p x)%R.
Proof. intros H. unfold to_digits. rewrite <- (round_0 ten (FLX_exp p) ZnearestE). apply round_le; [typeclasses eauto|typeclasses eauto|exact H]. Qed.

(** Numbers close to a number with [p] digits round to it. *)
Lemma to_digits_close y z : (0 < y)%R -> generic_format ten (FLX_exp p) y -> (Rabs (z - y) < bpow ten (- p) / 3 * y)%R -> to_digits p z = y.
Proof.
  intros Hy Fy Hz. unfold to_digits. set (t := bpow ten (- p)) in *.
  assert (Ht : (0 < t <= / 10)%R).
  { split; [apply bpow_gt_0|]. unfold t. apply Rle_trans with (bpow ten (-1)); [apply bpow_le; lia|]. simpl. lra. }
  assert (GU : forall w, (0 < w)%R -> (t * w <= ulp ten (FLX_exp p) w)%R).
  { intros w Hw. rewrite ulp_neq_0 by lra. unfold cexp, FLX_exp. destruct (mag ten w) as [e He]. cbn [mag_val]. specialize (He ltac:(lra)). rewrite Rabs_pos_eq in He by lra.
    unfold t. replace (e - p) with (- p + e) by lia. rewrite bpow_plus. apply Rmult_le_compat_l; [apply bpow_ge_0|lra]. }
  assert (U : (t * y <= ulp ten (FLX_exp p) y)%R) by (apply GU; exact Hy).
  assert (S : (succ ten (FLX_exp p) y = y + ulp ten (FLX_exp p) y)%R) by (apply succ_eq_pos; lra).
  assert (Pd : (pred ten (FLX_exp p) y <= y - t * y * (10 / 11))%R).
  { set (w := pred ten (FLX_exp p) y). destruct (Rle_or_lt w 0) as [W|W].
    - assert (t * y <= / 10 * y)%R by (apply Rmult_le_compat_r; lra). lra.
    - assert (E : (w + ulp ten (FLX_exp p) w = y)%R).
      { pose proof (succ_pred ten (FLX_exp p) y Fy) as E. fold w in E. rewrite succ_eq_pos in E by lra. exact E. }
      pose proof (GU w W) as G. set (u := ulp ten (FLX_exp p) w) in *. assert (W0 : (0 <= t * w)%R) by (apply Rmult_le_pos; lra).
      assert (W1 : (u * t <= u * / 10)%R) by (apply Rmult_le_compat_l; lra). assert (W2 : (t * w = t * y - u * t)%R) by (rewrite <- E; ring). lra. }
  apply Rabs_def2 in Hz. destruct Hz as [Z1 Z2]. apply Rle_antisym.
  - apply round_N_le_midp; [typeclasses eauto|exact Fy|]. rewrite S. lra.
  - apply round_N_ge_midp; [typeclasses eauto|exact Fy|]. lra.
Qed.
End Roundings.

Lemma to_double_error x : (0 < x)%R -> (Rabs (to_double x - x) <= bpow radix2 (-53) * x + bpow radix2 (-1075))%R.
Proof.
  intros Hx. unfold to_double. eapply Rle_trans; [apply error_le_half_ulp; typeclasses eauto|]. rewrite ulp_neq_0 by lra. unfold cexp, FLT_exp.
  destruct (mag radix2 x) as [e He]. cbn [mag_val]. specialize (He ltac:(lra)). rewrite Rabs_pos_eq in He by lra.
  pose proof (bpow_gt_0 radix2 (-1075)) as P1. pose proof (bpow_gt_0 radix2 (-53)) as P2.
  assert (H2 : forall k, (/ 2 * bpow radix2 k = bpow radix2 (k - 1))%R).
  { intros k. replace k with (1 + (k - 1)) at 1 by lia. rewrite bpow_plus. change (bpow radix2 1) with 2%R. field. }
  rewrite H2. destruct (Z.max_spec (e - 53) (-1074)) as [[M ->]|[M ->]].
  - change (-1074 - 1) with (-1075). assert (0 <= bpow radix2 (-53) * x)%R by (apply Rmult_le_pos; lra). lra.
  - replace (e - 53 - 1) with (-53 + (e - 1)) by lia. rewrite bpow_plus. assert (bpow radix2 (-53) * bpow radix2 (e - 1) <= bpow radix2 (-53) * x)%R by (apply Rmult_le_compat_l; lra). lra.
Qed.
Lemma to_double_error_normal x : (bpow radix2 (-1022) <= x)%R -> (Rabs (to_double x - x) <= bpow radix2 (-53) * x)%R.
Proof.
  intros Hx. pose proof (bpow_gt_0 radix2 (-1022)) as P0. unfold to_double. eapply Rle_trans; [apply error_le_half_ulp; typeclasses eauto|]. rewrite ulp_neq_0 by lra. unfold cexp, FLT_exp.
  destruct (mag radix2 x) as [e He]. cbn [mag_val]. specialize (He ltac:(lra)). rewrite Rabs_pos_eq in He by lra.
  assert (M : -1022 < e) by (apply (lt_bpow radix2); lra). rewrite Z.max_l by lia.
  replace (e - 53) with (1 + (-53 + (e - 1))) by lia. rewrite !bpow_plus. change (bpow radix2 1) with 2%R. pose proof (bpow_gt_0 radix2 (-53)).
  assert (bpow radix2 (-53) * bpow radix2 (e - 1) <= bpow radix2 (-53) * x)%R by (apply Rmult_le_compat_l; lra). lra.
Qed.
