(** Rounding errors of the operations used in a shape function, binary64 without overflow: C58. *)
From Coq Require Import ZArith Bool Lia Reals Lra Psatz.
From Coq Require Import Floats.SpecFloat.
From Flocq Require Import Core Relative Plus_error Sterbenz BinarySingleNaN.
From Verif Require Import Model.Num Model.NumInst Proofs.BinFloatP.
Local Open Scope R_scope.

Notation fmt := (generic_format radix2 (SpecFloat.fexp 53 1024)).
Notation u := (bpow radix2 (-53)).
Notation eta := (bpow radix2 (-1075)).

#[global] Instance fexp64 : Valid_exp (SpecFloat.fexp 53 1024) := fexp_correct 53 1024 f64_prec.
#[global] Instance fexp64_mono : Monotone_exp (SpecFloat.fexp 53 1024) := fexp_monotone 53 1024.
#[global] Instance rne_valid : Valid_rnd (round_mode mode_NE) := valid_rnd_round_mode mode_NE.

Lemma u_pos : 0 < u.
Proof. apply bpow_gt_0. Qed.
Lemma u_small : u <= / 1024.
Proof. change (/ 1024) with (bpow radix2 (-10)). apply bpow_le. lia. Qed.
Lemma eta_pos : 0 < eta.
Proof. apply bpow_gt_0. Qed.
Lemma eta_small : eta <= u * / 1024.
Proof. change (/ 1024) with (bpow radix2 (-10)). rewrite <- bpow_plus. apply bpow_le. lia. Qed.

Lemma u_ro_u : u_ro radix2 53 / (1 + u_ro radix2 53) <= u.
Proof.
  eapply Rle_trans; [apply u_rod1pu_ro_le_u_ro|]. unfold u_ro. right. change (/ 2) with (bpow radix2 (-1)). rewrite <- bpow_plus. f_equal.
Qed.

Lemma rne_err : forall x, Rabs (rne x - x) <= u * Rabs x + eta.
Proof.
  intros x. destruct (relative_error_N_FLT'_ex radix2 (-1074) 53 eq_refl (fun t => negb (Z.even t)) x) as (e & t & He & Ht & _ & E).
  change (rne x = x * (1 + e) + t) in E. rewrite E. replace (x * (1 + e) + t - x) with (x * e + t) by ring.
  eapply Rle_trans; [apply Rabs_triang|]. rewrite Rabs_mult. rewrite (Rmult_comm u). apply Rplus_le_compat.
  - apply Rmult_le_compat_l; [apply Rabs_pos|]. eapply Rle_trans; [exact He|apply u_ro_u].
  - change (/ 2) with (bpow radix2 (-1)) in Ht. rewrite <- bpow_plus in Ht. exact Ht.
Qed.

Lemma rne_add_err : forall x y, fmt x -> fmt y -> Rabs (rne (x + y) - (x + y)) <= u * Rabs (x + y).
Proof.
  intros x y Fx Fy. destruct (@FLT_plus_error_N_ex radix2 (-1074) 53 f64_prec (fun t => negb (Z.even t)) x y Fx Fy) as (e & He & E).
  change (rne (x + y) = (x + y) * (1 + e)) in E. rewrite E. replace ((x + y) * (1 + e) - (x + y)) with ((x + y) * e) by ring.
  rewrite Rabs_mult, (Rmult_comm u). apply Rmult_le_compat_l; [apply Rabs_pos|]. eapply Rle_trans; [exact He|apply u_ro_u].
Qed.

Lemma rne_sub_err : forall x y, fmt x -> fmt y -> Rabs (rne (x - y) - (x - y)) <= u * Rabs (x - y).
Proof. intros x y Fx Fy. apply rne_add_err; [exact Fx|]. apply generic_format_opp. exact Fy. Qed.

Lemma rne_fmt : forall x, fmt (rne x).
Proof. intros x. apply generic_format_round; apply _. Qed.
Lemma rne_id : forall x, fmt x -> rne x = x.
Proof. intros x H. apply round_generic; [apply _|exact H]. Qed.
Lemma fmt_bpow : forall e, (-1074 <= e)%Z -> fmt (bpow radix2 e).
Proof. intros e He. apply generic_format_bpow. unfold SpecFloat.fexp, SpecFloat.emin. lia. Qed.
Lemma fmt_1 : fmt 1.
Proof. exact (fmt_bpow 0 ltac:(lia)). Qed.
Lemma fmt_half : fmt (/ 2).
Proof. exact (fmt_bpow (-1) ltac:(lia)). Qed.
Lemma rne_0 : rne 0 = 0.
Proof. apply round_0. apply _. Qed.
Lemma rne_opp : forall x, rne (- x) = - rne x.
Proof. intros x. exact (round_NE_opp radix2 (SpecFloat.fexp 53 1024) x). Qed.
Lemma rne_le1 : forall x, x <= 1 -> rne x <= 1.
Proof. intros x H. rewrite <- (rne_id 1 fmt_1). apply rne_le. exact H. Qed.
Lemma rne_ge0 : forall x, 0 <= x -> 0 <= rne x.
Proof. intros x H. rewrite <- rne_0. apply rne_le. exact H. Qed.
Lemma rne_le_bpow : forall x e, (-1074 <= e)%Z -> Rabs x <= bpow radix2 e -> Rabs (rne x) <= bpow radix2 e.
Proof.
  intros x e He H. apply Rabs_le_inv in H. apply Rabs_le. split.
  - rewrite <- (rne_id (bpow radix2 e) (fmt_bpow e He)) at 1. rewrite <- rne_opp. apply rne_le. lra.
  - rewrite <- (rne_id (bpow radix2 e) (fmt_bpow e He)). apply rne_le. lra.
Qed.

Ltac rabs H := apply Rabs_le_inv in H.

(** ** One axis of a rectangle *)

Section Side.
Variables lo hi : R.
Hypothesis Flo : fmt lo.
Hypothesis Fhi : fmt hi.
Hypothesis Hlh : lo < hi.
Local Notation d := (hi - lo).
Local Notation W := (rne (hi - lo)).

Lemma side_near : (1 - u) * d <= W <= (1 + u) * d.
Proof.
  pose proof (rne_sub_err hi lo Fhi Flo) as E. rewrite (Rabs_pos_eq d) in E by lra. rabs E. lra.
Qed.

Lemma side_pos : 0 < W.
Proof. pose proof side_near. pose proof u_small. nra. Qed.

(** [e] is the distance from a corner, computed as [x]. *)
Definition dist (e x : R) : Prop := Rabs (x - e) <= u * Rabs e.

Lemma ratio_close : forall e x, dist e x -> - (2 * eta * d) <= e <= d + 2 * eta * d ->
  Rabs (x / W - e / d) <= (5 / 2) * u.
Proof.
  intros e x Hx He. unfold dist in Hx. pose proof side_near as HH. pose proof side_pos as HP. pose proof u_small as U. pose proof u_pos as U0.
  pose proof eta_small as T. pose proof eta_pos as T0.
  assert (Hd : 0 < d) by lra.
  set (t := e / d). assert (Et : e = t * d) by (unfold t; field; lra).
  assert (Ht : - (2 * eta) <= t <= 1 + 2 * eta).
  { unfold t. split; [apply Rmult_le_reg_r with d; [lra|]|apply Rmult_le_reg_r with d; [lra|]]; unfold Rdiv; rewrite Rmult_assoc, Rinv_l by lra; lra. }
  assert (At : Rabs t <= 1 + u) by (apply Rabs_le; lra).
  rewrite Et in Hx. rewrite Rabs_mult, (Rabs_pos_eq d) in Hx by lra.
  replace (x / W - t) with ((x - t * W) / W) by (field; lra).
  unfold Rdiv. rewrite Rabs_mult, (Rabs_pos_eq (/ W)) by (left; apply Rinv_0_lt_compat; exact HP).
  apply Rmult_le_reg_r with W; [exact HP|]. rewrite Rmult_assoc, Rinv_l by lra. rewrite Rmult_1_r.
  assert (B : Rabs (x - t * W) <= Rabs (x - t * d) + Rabs t * Rabs (d - W)).
  { replace (x - t * W) with ((x - t * d) + t * (d - W)) by ring. eapply Rle_trans; [apply Rabs_triang|]. rewrite Rabs_mult. lra. }
  assert (C : Rabs (d - W) <= u * d) by (apply Rabs_le; lra).
  pose proof (Rabs_pos t). pose proof (Rabs_pos (d - W)).
  assert (Rabs t * Rabs (d - W) <= (1 + u) * (u * d)) by (apply Rmult_le_compat; lra).
  assert (u * (Rabs t * d) <= u * ((1 + u) * d)) by (apply Rmult_le_compat_l; [lra|]; apply Rmult_le_compat_r; lra).
  assert (5 / 2 * u * ((1 - u) * d) <= 5 / 2 * u * W) by (apply Rmult_le_compat_l; lra).
  assert (0 < u * d) by (apply Rmult_lt_0_compat; lra). nra.
Qed.

Lemma offset_close : forall e x, dist e x -> - (2 * eta * d) <= e <= d + 2 * eta * d ->
  Rabs (rne (x / W) - e / d) <= 4 * u /\ Rabs (rne (x / W)) <= 1 + 5 * u.
Proof.
  intros e x Hx He. pose proof (ratio_close e x Hx He) as R. pose proof (rne_err (x / W)) as E.
  pose proof u_small as U. pose proof u_pos as U0. pose proof eta_small as T. pose proof eta_pos as T0. assert (Hd : 0 < d) by lra.
  assert (Ht : - (2 * eta) <= e / d <= 1 + 2 * eta).
  { split; [apply Rmult_le_reg_r with d; [lra|]|apply Rmult_le_reg_r with d; [lra|]]; unfold Rdiv; rewrite Rmult_assoc, Rinv_l by lra; lra. }
  set (t := e / d) in *. set (q := x / W) in *.
  assert (Aq : Rabs q <= 1 + 3 * u) by (rabs R; apply Rabs_le; lra).
  assert (u * Rabs q <= u * (1 + 3 * u)) by (apply Rmult_le_compat_l; lra).
  assert (u * u <= u * / 1024) by (apply Rmult_le_compat_l; lra).
  rabs R. assert (E' : Rabs (rne q - q) <= (11 / 10) * u) by lra. clear E. rabs E'.
  split; apply Rabs_le; lra.
Qed.

(** One factor of the shape function. *)
Lemma factor_close : forall e x, dist e x -> - (2 * eta * d) <= e <= d + 2 * eta * d ->
  Rabs (rne (1 - rne (x / W)) - (1 - e / d)) <= 6 * u /\ Rabs (1 - e / d) <= 1 + u.
Proof.
  intros e x Hx He. destruct (offset_close e x Hx He) as [R A]. 
  pose proof u_small as U. pose proof u_pos as U0. pose proof eta_small as T. pose proof eta_pos as T0. assert (Hd : 0 < d) by lra.
  assert (Ht : - (2 * eta) <= e / d <= 1 + 2 * eta).
  { split; [apply Rmult_le_reg_r with d; [lra|]|apply Rmult_le_reg_r with d; [lra|]]; unfold Rdiv; rewrite Rmult_assoc, Rinv_l by lra; lra. }
  pose proof (rne_sub_err 1 (rne (x / W)) fmt_1 (rne_fmt _)) as E. set (a := rne (x / W)) in *. set (t := e / d) in *.
  rabs R. assert (B : Rabs (1 - a) <= 1 + 5 * u) by (apply Rabs_le; lra).
  assert (u * Rabs (1 - a) <= u * (1 + 5 * u)) by (apply Rmult_le_compat_l; lra).
  assert (u * u <= u * / 1024) by (apply Rmult_le_compat_l; lra).
  assert (E' : Rabs (rne (1 - a) - (1 - a)) <= (11 / 10) * u) by lra. rabs E'.
  split; apply Rabs_le; lra.
Qed.

(** The rounded far end of the box of a corner. *)
Lemma size_bounds : (hi / 2 <= lo <= 2 * hi \/ 2 * hi <= lo <= hi / 2) \/ (Rabs hi <= 2 * d /\ Rabs lo <= 2 * d).
Proof.
  destruct (Rle_or_lt hi 0) as [Hh|Hh].
  - destruct (Rle_or_lt (2 * hi) lo) as [G|G]; [left; right; lra|]. right. rewrite !Rabs_left1 by lra. lra.
  - destruct (Rle_or_lt (hi / 2) lo) as [G|G]; [left; left; lra|]. right. rewrite (Rabs_pos_eq hi) by lra. split; [lra|]. apply Rabs_le. lra.
Qed.

Lemma exact_side : hi / 2 <= lo <= 2 * hi \/ 2 * hi <= lo <= hi / 2 -> W = d.
Proof.
  intros G. apply rne_id. destruct G as [G|G].
  - replace d with (- (lo - hi)) by ring. apply generic_format_opp. apply sterbenz; auto; try apply _. 
  - replace d with (- lo - - hi) by ring. apply sterbenz; try apply _; try (apply generic_format_opp; assumption). lra.
Qed.

Lemma top_close : Rabs (rne (lo + W) - hi) <= 4 * u * d.
Proof.
  pose proof u_small as U. pose proof u_pos as U0. assert (P : 0 < u * d) by (apply Rmult_lt_0_compat; lra).
  destruct size_bounds as [G|[G1 G2]].
  - rewrite (exact_side G). replace (lo + (hi - lo)) with hi by ring. rewrite (rne_id hi Fhi). rewrite Rminus_diag_eq by reflexivity. rewrite Rabs_R0. lra.
  - pose proof (rne_add_err lo W Flo (rne_fmt _)) as E. pose proof side_near as N.
    assert (B : Rabs (lo + W - hi) <= u * d) by (apply Rabs_le; lra).
    assert (A : Rabs (lo + W) <= 2 * d + u * d).
    { replace (lo + W) with (hi + (lo + W - hi)) by ring. eapply Rle_trans; [apply Rabs_triang|]. lra. }
    assert (u * Rabs (lo + W) <= u * (2 * d + u * d)) by (apply Rmult_le_compat_l; lra).
    assert (u * (u * d) <= / 1024 * (u * d)) by (apply Rmult_le_compat_r; lra).
    assert (E' : Rabs (rne (lo + W) - (lo + W)) <= (21 / 10) * (u * d)) by lra. rabs B. rabs E'. apply Rabs_le. lra.
Qed.

Lemma bottom_close : Rabs (rne (hi - W) - lo) <= 4 * u * d.
Proof.
  pose proof u_small as U. pose proof u_pos as U0. assert (P : 0 < u * d) by (apply Rmult_lt_0_compat; lra).
  destruct size_bounds as [G|[G1 G2]].
  - rewrite (exact_side G). replace (hi - (hi - lo)) with lo by ring. rewrite (rne_id lo Flo). rewrite Rminus_diag_eq by reflexivity. rewrite Rabs_R0. lra.
  - pose proof (rne_sub_err hi W Fhi (rne_fmt _)) as E. pose proof side_near as N.
    assert (B : Rabs (hi - W - lo) <= u * d) by (apply Rabs_le; lra).
    assert (A : Rabs (hi - W) <= 2 * d + u * d).
    { replace (hi - W) with (lo + (hi - W - lo)) by ring. eapply Rle_trans; [apply Rabs_triang|]. lra. }
    assert (u * Rabs (hi - W) <= u * (2 * d + u * d)) by (apply Rmult_le_compat_l; lra).
    assert (u * (u * d) <= / 1024 * (u * d)) by (apply Rmult_le_compat_r; lra).
    assert (E' : Rabs (rne (hi - W) - (hi - W)) <= (21 / 10) * (u * d)) by lra. rabs B. rabs E'. apply Rabs_le. lra.
Qed.

Lemma top_above : lo <= rne (lo + W).
Proof. rewrite <- (rne_id lo Flo) at 1. apply rne_le. pose proof side_pos. lra. Qed.
Lemma bottom_below : rne (hi - W) <= hi.
Proof. apply Rle_trans with (rne hi); [apply rne_le; pose proof side_pos; lra|right; apply rne_id; exact Fhi]. Qed.

(** The range test of a corner at computed distance [x]. *)
Definition claims (x : R) : Prop := 0 <= rne (x / W) < 1.

Lemma claims_far : forall e, claims (rne e) -> e < d.
Proof.
  intros e [_ C]. pose proof side_pos as P. destruct (Rlt_or_le e d) as [L|L]; [exact L|exfalso].
  apply (Rlt_not_le _ _ C). rewrite <- (rne_id 1 fmt_1) at 1. apply rne_le.
  apply Rmult_le_reg_r with W; [exact P|]. unfold Rdiv. rewrite Rmult_assoc, Rinv_l by lra. rewrite Rmult_1_r, Rmult_1_l.
  apply rne_le. exact L.
Qed.

Lemma rounds_to_zero : forall q, q < 0 -> 0 <= rne q -> - q <= eta.
Proof.
  intros q Hq Hr. destruct (Rle_or_lt (- q) eta) as [L|L]; [exact L|exfalso].
  assert (E : rne (bpow radix2 (-1074)) <= rne (- q) \/ - q < bpow radix2 (-1074)).
  { destruct (Rle_or_lt (bpow radix2 (-1074)) (- q)) as [G|G]; [left; apply rne_le; exact G|right; exact G]. }
  rewrite rne_opp in E. rewrite (rne_id _ (fmt_bpow (-1074) ltac:(lia))) in E.
  pose proof (bpow_gt_0 radix2 (-1074)) as P. destruct E as [E|E]; [lra|].
  assert (N : Rabs (rne (- q) - (- q)) <= Rabs (bpow radix2 (-1074) - (- q))).
  { apply round_N_pt; [apply _|]. apply fmt_bpow. lia. }
  assert (T : bpow radix2 (-1074) = 2 * eta).
  { change 2 with (bpow radix2 1). rewrite <- bpow_plus. reflexivity. }
  rewrite rne_opp in N. rewrite (Rabs_pos_eq (bpow radix2 (-1074) - - q)) in N by lra. rabs N.
  lra.
Qed.

Lemma claims_near : forall e x, dist e x -> claims x -> - (2 * eta * d) <= e.
Proof.
  intros e x Hx [C _]. pose proof side_pos as P. pose proof side_near as N. pose proof u_small as U. pose proof u_pos as U0.
  pose proof eta_pos as T0.
  destruct (Rle_or_lt 0 e) as [G|G]; [assert (0 < 2 * eta * d) by (apply Rmult_lt_0_compat; lra); lra|].
  unfold dist in Hx. rewrite (Rabs_left e) in Hx by exact G. rabs Hx.
  assert (Xn : x < 0) by nra.
  assert (Q : x / W < 0) by (apply Rmult_lt_reg_r with W; [exact P|]; unfold Rdiv; rewrite Rmult_assoc, Rinv_l by lra; lra).
  pose proof (rounds_to_zero _ Q C) as Z.
  assert (X2 : - x <= eta * W).
  { apply Rmult_le_reg_r with (/ W); [apply Rinv_0_lt_compat; exact P|]. rewrite Rmult_assoc, Rinv_r by lra. unfold Rdiv in Z. lra. }
  assert (eta * W <= eta * ((1 + u) * d)) by (apply Rmult_le_compat_l; lra).
  assert (0 < eta * d) by (apply Rmult_lt_0_compat; lra). nra.
Qed.

(** Every coordinate of the side is claimed from one of its ends, by a corner whose box reaches it. *)
Lemma side_claimed : forall r, fmt r -> lo <= r <= hi ->
  (r <= rne (lo + W) /\ claims (rne (r - lo))) \/ (rne (hi - W) <= r /\ claims (rne (hi - r))).
Proof.
  intros r Fr Hr. pose proof side_pos as P. pose proof side_near as N. pose proof u_small as U. pose proof u_pos as U0.
  pose proof top_close as TC. pose proof bottom_close as BC. rabs TC. rabs BC. pose proof eta_small as T. pose proof eta_pos as T0.
  assert (Hd : 0 < u * d) by (apply Rmult_lt_0_compat; lra).
  assert (UD : u * d <= / 1024 * d) by (apply Rmult_le_compat_r; lra).
  assert (NN : forall e, 0 <= e -> 0 <= rne (rne e / W)).
  { intros e He. apply rne_ge0. apply Rmult_le_pos; [apply rne_ge0; exact He|left; apply Rinv_0_lt_compat; exact P]. }
  assert (Far : hi - r <= 8 * u * d -> rne (hi - W) <= r /\ claims (rne (hi - r))).
  { intros G. split; [lra|]. split; [apply NN; lra|].
    assert (D : dist (hi - r) (rne (hi - r))) by (apply rne_sub_err; assumption).
    unfold dist in D. rewrite (Rabs_pos_eq (hi - r)) in D by lra. rabs D.
    assert (Hu : u * (hi - r) <= u * d) by (apply Rmult_le_compat_l; lra).
    apply Rle_lt_trans with (/ 2); [|lra]. rewrite <- (rne_id _ fmt_half). apply rne_le.
    apply Rmult_le_reg_r with W; [exact P|]. unfold Rdiv. rewrite Rmult_assoc, Rinv_l by lra. lra. }
  destruct (Rle_or_lt r (rne (lo + W))) as [G|G]; [|right; apply Far; lra].
  destruct (Rlt_or_le (rne (rne (r - lo) / W)) 1) as [L|L].
  - left. split; [exact G|]. split; [apply NN; lra|exact L].
  - right. apply Far. pose proof (rne_sub_err r lo Fr Flo) as D. 
    assert (E : - (2 * eta * d) <= r - lo <= d + 2 * eta * d).
    { assert (0 < 2 * eta * d) by (apply Rmult_lt_0_compat; lra). lra. }
    destruct (offset_close (r - lo) _ D E) as [A _]. rabs A.
    assert (B : 1 - 4 * u <= (r - lo) / d) by lra.
    apply Rmult_le_compat_r with (r := d) in B; [|lra]. unfold Rdiv in B. rewrite Rmult_assoc, Rinv_l in B by lra. lra.
Qed.

End Side.

(** ** Products and sums *)

Lemma product_close : forall wx wy tx ty, Rabs (wx - tx) <= 6 * u -> Rabs tx <= 1 + u -> Rabs (wy - ty) <= 6 * u -> Rabs ty <= 1 + u ->
  Rabs (rne (wx * wy) - tx * ty) <= 14 * u.
Proof.
  intros wx wy tx ty Hx Tx Hy Ty. pose proof u_small as U. pose proof u_pos as U0. pose proof eta_small as T. pose proof eta_pos as T0.
  assert (Ay : Rabs wy <= 1 + 7 * u).
  { replace wy with (ty + (wy - ty)) by ring. eapply Rle_trans; [apply Rabs_triang|]. lra. }
  assert (Ax : Rabs wx <= 1 + 7 * u).
  { replace wx with (tx + (wx - tx)) by ring. eapply Rle_trans; [apply Rabs_triang|]. lra. }
  assert (UU : u * u <= u * / 1024) by (apply Rmult_le_compat_l; lra).
  assert (P : Rabs (wx * wy - tx * ty) <= 6 * u * (1 + 7 * u) + (1 + u) * (6 * u)).
  { replace (wx * wy - tx * ty) with ((wx - tx) * wy + tx * (wy - ty)) by ring. eapply Rle_trans; [apply Rabs_triang|]. rewrite !Rabs_mult.
    apply Rplus_le_compat; apply Rmult_le_compat; try apply Rabs_pos; lra. }
  pose proof (rne_err (wx * wy)) as E. rewrite Rabs_mult in E.
  assert (Q : Rabs wx * Rabs wy <= (1 + 7 * u) * (1 + 7 * u)) by (apply Rmult_le_compat; try apply Rabs_pos; lra).
  assert (Q' : u * (Rabs wx * Rabs wy) <= u * ((1 + 7 * u) * (1 + 7 * u))) by (apply Rmult_le_compat_l; lra).
  assert (Q2 : (1 + 7 * u) * (1 + 7 * u) <= 11 / 10) by nra.
  assert (Q3 : u * ((1 + 7 * u) * (1 + 7 * u)) <= u * (11 / 10)) by (apply Rmult_le_compat_l; lra).
  replace (rne (wx * wy) - tx * ty) with ((rne (wx * wy) - wx * wy) + (wx * wy - tx * ty)) by ring.
  eapply Rle_trans; [apply Rabs_triang|]. nra.
Qed.

(** The product of a weight [w], close to [t], with a datum. *)
Lemma term_close : forall w t f c g, 0 <= c -> Rabs (w - t) <= c -> Rabs w <= g ->
  Rabs (rne (w * f) - t * f) <= (c + u * g) * Rabs f + eta /\ Rabs (rne (w * f)) <= (1 + u) * g * Rabs f + eta.
Proof.
  intros w t f c g Hc Hw Hg. pose proof u_pos as U0. pose proof (Rabs_pos f) as F. pose proof (Rabs_pos w) as W0.
  pose proof (rne_err (w * f)) as E. rewrite Rabs_mult in E.
  assert (A : Rabs w * Rabs f <= g * Rabs f) by (apply Rmult_le_compat_r; assumption).
  assert (B : u * (Rabs w * Rabs f) <= u * (g * Rabs f)) by (apply Rmult_le_compat_l; lra).
  assert (D : Rabs (w - t) * Rabs f <= c * Rabs f) by (apply Rmult_le_compat_r; assumption).
  split.
  - replace (rne (w * f) - t * f) with ((rne (w * f) - w * f) + (w - t) * f) by ring.
    eapply Rle_trans; [apply Rabs_triang|]. rewrite (Rabs_mult (w - t)). lra.
  - replace (rne (w * f)) with ((rne (w * f) - w * f) + w * f) by ring.
    eapply Rle_trans; [apply Rabs_triang|]. rewrite (Rabs_mult w). lra.
Qed.

(** Four terms added from left to right. *)
Lemma sum_close : forall t0 t1 t2 t3 v0 v1 v2 v3 b0 b1 b2 b3 c g e, fmt t0 -> fmt t1 -> fmt t2 -> fmt t3 ->
  0 <= b0 -> 0 <= b1 -> 0 <= b2 -> 0 <= b3 -> 0 <= g -> 0 <= e ->
  Rabs (t0 - v0) <= c * b0 + e -> Rabs (t1 - v1) <= c * b1 + e -> Rabs (t2 - v2) <= c * b2 + e -> Rabs (t3 - v3) <= c * b3 + e ->
  Rabs t0 <= g * b0 + e -> Rabs t1 <= g * b1 + e -> Rabs t2 <= g * b2 + e -> Rabs t3 <= g * b3 + e ->
  Rabs (rne (rne (rne (t0 + t1) + t2) + t3) - (v0 + v1 + v2 + v3)) <= (c + 4 * u * g) * (b0 + b1 + b2 + b3) + 8 * e /\
  Rabs (rne (t0 + t1)) <= 2 * (g * (b0 + b1 + b2 + b3) + 4 * e) /\
  Rabs (rne (rne (t0 + t1) + t2)) <= 2 * (g * (b0 + b1 + b2 + b3) + 4 * e).
Proof.
  intros t0 t1 t2 t3 v0 v1 v2 v3 b0 b1 b2 b3 c g e F0 F1 F2 F3 P0 P1 P2 P3 Hg He D0 D1 D2 D3 B0 B1 B2 B3.
  pose proof u_small as U. pose proof u_pos as U0.
  assert (G0 : 0 <= g * b0) by (apply Rmult_le_pos; lra). assert (G1 : 0 <= g * b1) by (apply Rmult_le_pos; lra).
  assert (G2 : 0 <= g * b2) by (apply Rmult_le_pos; lra). assert (G3 : 0 <= g * b3) by (apply Rmult_le_pos; lra).
  set (m := g * (b0 + b1 + b2 + b3) + 4 * e). assert (M0 : 0 <= m) by (unfold m; lra).
  pose proof (rne_add_err t0 t1 F0 F1) as E1. set (s1 := rne (t0 + t1)) in *.
  assert (Fs1 : fmt s1) by apply rne_fmt.
  assert (A1 : Rabs (t0 + t1) <= g * b0 + g * b1 + 2 * e) by (eapply Rle_trans; [apply Rabs_triang|]; lra).
  assert (R1 : Rabs (s1 - (t0 + t1)) <= u * m).
  { eapply Rle_trans; [exact E1|]. apply Rmult_le_compat_l; [lra|]. unfold m. lra. }
  assert (UM : 0 <= u * m) by (apply Rmult_le_pos; lra).
  assert (UM2 : u * m <= / 1024 * m) by (apply Rmult_le_compat_r; lra).
  assert (S1 : Rabs s1 <= g * b0 + g * b1 + 2 * e + u * m).
  { replace s1 with ((t0 + t1) + (s1 - (t0 + t1))) by ring. eapply Rle_trans; [apply Rabs_triang|]. lra. }
  pose proof (rne_add_err s1 t2 Fs1 F2) as E2. set (s2 := rne (s1 + t2)) in *.
  assert (Fs2 : fmt s2) by apply rne_fmt.
  assert (A2 : Rabs (s1 + t2) <= g * b0 + g * b1 + g * b2 + 3 * e + u * m) by (eapply Rle_trans; [apply Rabs_triang|]; lra).
  assert (R2 : Rabs (s2 - (s1 + t2)) <= 11 / 10 * (u * m)).
  { eapply Rle_trans; [exact E2|]. replace (11 / 10 * (u * m)) with (u * (11 / 10 * m)) by ring. apply Rmult_le_compat_l; [lra|]. unfold m in *. lra. }
  assert (S2 : Rabs s2 <= g * b0 + g * b1 + g * b2 + 3 * e + 3 * (u * m)).
  { replace s2 with ((s1 + t2) + (s2 - (s1 + t2))) by ring. eapply Rle_trans; [apply Rabs_triang|]. lra. }
  pose proof (rne_add_err s2 t3 Fs2 F3) as E3. set (s3 := rne (s2 + t3)) in *.
  assert (A3 : Rabs (s2 + t3) <= m + 3 * (u * m)) by (eapply Rle_trans; [apply Rabs_triang|]; unfold m in *; lra).
  assert (R3 : Rabs (s3 - (s2 + t3)) <= 11 / 10 * (u * m)).
  { eapply Rle_trans; [exact E3|]. replace (11 / 10 * (u * m)) with (u * (11 / 10 * m)) by ring. apply Rmult_le_compat_l; [lra|]. lra. }
  assert (TU : 4 * (u * m) <= 4 * u * g * (b0 + b1 + b2 + b3) + e).
  { unfold m. replace (4 * (u * (g * (b0 + b1 + b2 + b3) + 4 * e))) with (4 * u * g * (b0 + b1 + b2 + b3) + 16 * (u * e)) by ring.
    assert (u * e <= / 1024 * e) by (apply Rmult_le_compat_r; lra). lra. }
  split; [|split].
  - replace (s3 - (v0 + v1 + v2 + v3)) with ((s3 - (s2 + t3)) + ((s2 - (s1 + t2)) + ((s1 - (t0 + t1)) + ((t0 - v0) + ((t1 - v1) + ((t2 - v2) + (t3 - v3))))))) by ring.
    eapply Rle_trans; [apply Rabs_triang|].
    eapply Rle_trans; [apply Rplus_le_compat_l; apply Rabs_triang|].
    eapply Rle_trans; [apply Rplus_le_compat_l, Rplus_le_compat_l; apply Rabs_triang|].
    eapply Rle_trans; [apply Rplus_le_compat_l, Rplus_le_compat_l, Rplus_le_compat_l; apply Rabs_triang|].
    eapply Rle_trans; [apply Rplus_le_compat_l, Rplus_le_compat_l, Rplus_le_compat_l, Rplus_le_compat_l; apply Rabs_triang|].
    eapply Rle_trans; [apply Rplus_le_compat_l, Rplus_le_compat_l, Rplus_le_compat_l, Rplus_le_compat_l, Rplus_le_compat_l; apply Rabs_triang|].
    lra.
  - unfold m in *. lra.
  - unfold m in *. lra.
Qed.
