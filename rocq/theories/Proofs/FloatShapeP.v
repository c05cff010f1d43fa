(** The interpolators of a rectangle in binary64: C58. *)
From Coq Require Import ZArith List Bool Lia Reals Lra Psatz.
From Coq Require Import Floats.SpecFloat.
From Flocq Require Import Core BinarySingleNaN.
From Verif Require Import Model.Outcome Model.Num Model.NumInst Model.PNDArray Model.Bin Model.Interpolator Model.Quad.
From Verif Require Import Spec.Shape.
From Verif Require Import Proofs.BinFloatP Proofs.RoundP.
Import ListNotations.
Local Open Scope R_scope.

Lemma below_limit : forall x e, (-1074 <= e < 1024)%Z -> Rabs x <= bpow radix2 e -> Rabs (rne x) < bpow radix2 1024.
Proof.
  intros x e He H. eapply Rle_lt_trans; [apply rne_le_bpow; [|exact H]; lia|]. apply bpow_lt. lia.
Qed.

Lemma f64_fmt : forall x : f64, fmt (B2R x).
Proof. intros x. apply generic_format_B2R. Qed.

Lemma add64 : forall (x y : f64) e, (-1074 <= e < 1024)%Z -> fin x -> fin y -> Rabs (B2R x + B2R y) <= bpow radix2 e ->
  fin (nadd FOps x y) /\ B2R (nadd FOps x y : f64) = rne (B2R x + B2R y).
Proof.
  intros x y e He Fx Fy H. pose proof (Bplus_correct _ _ f64_prec f64_emax mode_NE x y Fx Fy) as C.
  rewrite (Rlt_bool_true _ _ (below_limit _ e He H)) in C. destruct C as (C1 & C2 & _). auto.
Qed.

Lemma sub64 : forall (x y : f64) e, (-1074 <= e < 1024)%Z -> fin x -> fin y -> Rabs (B2R x - B2R y) <= bpow radix2 e ->
  fin (nsub FOps x y) /\ B2R (nsub FOps x y : f64) = rne (B2R x - B2R y).
Proof. intros x y e He Fx Fy H. apply sub_correct; auto. exact (below_limit _ e He H). Qed.

Lemma mul64 : forall (x y : f64) e, (-1074 <= e < 1024)%Z -> fin x -> fin y -> Rabs (B2R x * B2R y) <= bpow radix2 e ->
  fin (nmul FOps x y) /\ B2R (nmul FOps x y : f64) = rne (B2R x * B2R y).
Proof.
  intros x y e He Fx Fy H. pose proof (Bmult_correct _ _ f64_prec f64_emax mode_NE x y) as C.
  rewrite (Rlt_bool_true _ _ (below_limit _ e He H)) in C. destruct C as (C1 & C2 & _).
  split; [|exact C1]. etransitivity; [exact C2|]. rewrite Fx, Fy. reflexivity.
Qed.

Lemma div64 : forall (x y : f64) e, (-1074 <= e < 1024)%Z -> fin x -> fin y -> 0 < B2R y -> Rabs (B2R x / B2R y) <= bpow radix2 e ->
  fin (ndiv FOps x y) /\ B2R (ndiv FOps x y : f64) = rne (B2R x / B2R y).
Proof. intros x y e He Fx Fy Hy H. apply div_correct; auto. exact (below_limit _ e He H). Qed.

Lemma one64 : fin (nofZ FOps 1) /\ B2R (nofZ FOps 1 : f64) = 1.
Proof. split; [reflexivity|]. cbv. lra. Qed.
Lemma mone64 : fin (nopp FOps (nofZ FOps 1)) /\ B2R (nopp FOps (nofZ FOps 1) : f64) = -1.
Proof. split; [reflexivity|]. cbv. lra. Qed.
Lemma zero64 : fin (nofZ FOps 0) /\ B2R (nofZ FOps 0 : f64) = 0.
Proof. split; reflexivity. Qed.

Lemma fmt_abs_lt : forall x : f64, fin x -> Rabs (B2R x) < bpow radix2 1024.
Proof. intros x _. apply abs_B2R_lt_emax. Qed.

(** ** One axis *)

(** Which end of the side the corner is at, and the sign used for it. *)
Inductive pole : Type := Low | High.
Definition pole_at (p : pole) (lo hi : R) : R := match p with Low => lo | High => hi end.
Definition pole_sign (p : pole) : f64 := match p with Low => nofZ FOps 1 | High => nopp FOps (nofZ FOps 1) end.
(** Distance of [r] from the corner, into the side. *)
Definition pole_dist (p : pole) (lo hi r : R) : R := match p with Low => r - lo | High => hi - r end.
(** The box of the corner along this axis. *)
Definition pole_lo (p : pole) (lo hi : R) : R := match p with Low => lo | High => rne (hi - rne (hi - lo)) end.
Definition pole_hi (p : pole) (lo hi : R) : R := match p with Low => rne (lo + rne (hi - lo)) | High => hi end.

Section Axis.
Variables lo hi : R.
Hypothesis Flo : fmt lo.
Hypothesis Fhi : fmt hi.
Hypothesis Hlh : lo < hi.
Hypothesis Hlo : Rabs lo <= bpow radix2 1000.
Hypothesis Hhi : Rabs hi <= bpow radix2 1000.

Lemma big : bpow radix2 1010 = 1024 * bpow radix2 1000.
Proof. change 1024 with (bpow radix2 10). rewrite <- bpow_plus. reflexivity. Qed.
Lemma big_pos : 0 < bpow radix2 1000.
Proof. apply bpow_gt_0. Qed.

Variables n h r : f64.
Variable p : pole.
Hypothesis Fn : fin n.
Hypothesis En : B2R n = pole_at p lo hi.
Hypothesis Fh : fin h.
Hypothesis Eh : B2R h = rne (hi - lo).
Hypothesis Fr : fin r.
Hypothesis Hr : Rabs (B2R r) <= bpow radix2 1001.

Lemma pole_small : Rabs (pole_at p lo hi) <= bpow radix2 1000.
Proof. destruct p; assumption. Qed.

Lemma big1 : bpow radix2 1001 = 2 * bpow radix2 1000.
Proof. change 2 with (bpow radix2 1). rewrite <- bpow_plus. reflexivity. Qed.

Lemma distance64 : fin (nmul FOps (pole_sign p) (nsub FOps r n)) /\
  B2R (nmul FOps (pole_sign p) (nsub FOps r n) : f64) = rne (pole_dist p lo hi (B2R r)).
Proof.
  pose proof pole_small as Hp. pose proof big_pos as P. pose proof big as B. pose proof big1 as B1.
  assert (S : Rabs (B2R r - B2R n) <= bpow radix2 1010).
  { rewrite En. unfold Rminus. eapply Rle_trans; [apply Rabs_triang|]. rewrite Rabs_Ropp. lra. }
  destruct (sub64 r n 1010 ltac:(lia) Fr Fn S) as [F1 E1].
  assert (S1 : Rabs (B2R (nsub FOps r n : f64)) <= bpow radix2 1010) by (rewrite E1; apply rne_le_bpow; [lia|exact S]).
  destruct p; cbn [pole_sign pole_at pole_dist] in *.
  - destruct one64 as [F2 E2]. destruct (mul64 (nofZ FOps 1) (nsub FOps r n) 1010 ltac:(lia) F2 F1) as [F3 E3].
    { rewrite E2, Rmult_1_l. exact S1. }
    split; [exact F3|]. rewrite E3, E2, Rmult_1_l, E1, En. apply rne_id. apply rne_fmt.
  - destruct mone64 as [F2 E2]. destruct (mul64 (nopp FOps (nofZ FOps 1)) (nsub FOps r n) 1010 ltac:(lia) F2 F1) as [F3 E3].
    { rewrite E2. replace (-1 * B2R (nsub FOps r n : f64)) with (- B2R (nsub FOps r n : f64)) by ring. rewrite Rabs_Ropp. exact S1. }
    split; [exact F3|]. rewrite E3, E2, E1, En. replace (-1 * rne (B2R r - hi)) with (rne (hi - B2R r)).
    + apply rne_id. apply rne_fmt.
    + rewrite <- (Ropp_minus_distr (B2R r) hi). rewrite rne_opp. ring.
Qed.

Lemma dist_ok : dist (pole_dist p lo hi (B2R r)) (rne (pole_dist p lo hi (B2R r))).
Proof. destruct p; cbn [pole_dist]; apply rne_sub_err; auto using f64_fmt. Qed.

Local Notation W := (rne (hi - lo)).

(** The test accepts exactly what the real test on the rounded distance accepts. *)
Lemma range64 : range1 FOps (pole_sign p) r n h = true <-> claims lo hi (rne (pole_dist p lo hi (B2R r))).
Proof.
  destruct distance64 as [F1 E1]. unfold range1. set (x := nmul FOps (pole_sign p) (nsub FOps r n)) in *.
  pose proof (side_pos lo hi Flo Fhi Hlh) as WP.
  pose proof (Bdiv_correct _ _ f64_prec f64_emax mode_NE x h ltac:(lra)) as C. rewrite E1, Eh in C.
  change (if Rlt_bool (Rabs (rne (rne (pole_dist p lo hi (B2R r)) / rne (hi - lo)))) (bpow radix2 1024)
    then B2R (ndiv FOps x h : f64) = rne (rne (pole_dist p lo hi (B2R r)) / rne (hi - lo)) /\ is_finite (ndiv FOps x h : f64) = is_finite (x : f64) /\
         (is_nan (ndiv FOps x h : f64) = false -> Bsign (ndiv FOps x h : f64) = xorb (Bsign (x : f64)) (Bsign h))
    else B2SF (ndiv FOps x h : f64) = binary_overflow 53 1024 mode_NE (xorb (Bsign (x : f64)) (Bsign h))) in C.
  set (e := ndiv FOps x h) in *. set (q := rne (pole_dist p lo hi (B2R r)) / W) in *.
  unfold claims. fold q.
  destruct one64 as [O1 O2]. destruct zero64 as [Z1 Z2].
  destruct (Rlt_bool_spec (Rabs (rne q)) (bpow radix2 1024)) as [L|L].
  - destruct C as (C1 & C2 & _). rewrite F1 in C2.
    change (nltb FOps e (nofZ FOps 0)) with (Bltb e (nofZ FOps 0 : f64)). change (nleb FOps (nofZ FOps 1) e) with (Bleb (nofZ FOps 1 : f64) e).
    rewrite (Bltb_correct _ _ e (nofZ FOps 0 : f64) C2 Z1), (Bleb_correct _ _ (nofZ FOps 1 : f64) e O1 C2).
    rewrite C1. change (B2R (nofZ FOps 0 : f64)) with 0. rewrite O2.
    destruct (Rlt_bool_spec (rne q) 0), (Rle_bool_spec 1 (rne q)); cbn [orb negb]; split; intros; try discriminate; try lra; auto.
  - split.
    + intros T. exfalso. apply negb_true_iff in T. apply orb_false_iff in T. destruct T as [T1 T2].
      clear -C T1 T2. destruct e as [s|s| |s m0 e0 b0]; simpl in C; try discriminate.
      destruct s; discriminate.
    + intros T. exfalso. apply (Rle_not_lt _ _ L). apply Rabs_def1.
      * apply Rlt_trans with 1; [lra|]. change 1 with (bpow radix2 0). apply bpow_lt. lia.
      * apply Rlt_le_trans with 0; [|lra]. assert (0 < bpow radix2 1024) by apply bpow_gt_0. lra.
Qed.

(** One factor of the shape function, for a coordinate of the side (or next to it). *)
Definition near_side (x : R) : Prop := - (2 * eta * (hi - lo)) <= pole_dist p lo hi x <= hi - lo + 2 * eta * (hi - lo).

Lemma factor64 : near_side (B2R r) ->
  fin (nsub FOps (nofZ FOps 1) (ndiv FOps (nmul FOps (pole_sign p) (nsub FOps r n)) h)) /\
  Rabs (B2R (nsub FOps (nofZ FOps 1) (ndiv FOps (nmul FOps (pole_sign p) (nsub FOps r n)) h) : f64)
        - (1 - pole_dist p lo hi (B2R r) / (hi - lo))) <= 6 * u /\
  Rabs (1 - pole_dist p lo hi (B2R r) / (hi - lo)) <= 1 + u.
Proof.
  intros N. destruct distance64 as [F1 E1]. set (x := nmul FOps (pole_sign p) (nsub FOps r n)) in *.
  pose proof (side_pos lo hi Flo Fhi Hlh) as WP. pose proof u_small as U.
  destruct (offset_close lo hi Flo Fhi Hlh _ _ dist_ok N) as [_ A].
  assert (Q : Rabs (B2R x / B2R h) <= bpow radix2 2).
  { rewrite E1, Eh. pose proof (ratio_close lo hi Flo Fhi Hlh _ _ dist_ok N) as RC. destruct (factor_close lo hi Flo Fhi Hlh _ _ dist_ok N) as [_ G].
    rabs RC. rabs G. apply Rabs_le. change (bpow radix2 2) with 4. lra. }
  destruct (div64 x h 2 ltac:(lia) F1 Fh ltac:(lra) Q) as [F2 E2]. rewrite E1, Eh in E2.
  destruct one64 as [O1 O2].
  assert (S : Rabs (B2R (nofZ FOps 1 : f64) - B2R (ndiv FOps x h : f64)) <= bpow radix2 2).
  { rewrite O2, E2. rabs A. apply Rabs_le. change (bpow radix2 2) with 4. lra. }
  destruct (sub64 _ _ 2 ltac:(lia) O1 F2 S) as [F3 E3].
  split; [exact F3|]. rewrite E3, O2, E2. apply factor_close; auto using dist_ok.
Qed.

(** The ends of the box. *)
Lemma far64 : Rabs (hi - lo) <= bpow radix2 1001.
Proof. pose proof big1. unfold Rminus. eapply Rle_trans; [apply Rabs_triang|]. rewrite Rabs_Ropp. lra. Qed.

Lemma box_lo64 : let b := (if neqb FOps (pole_sign p) (nopp FOps (nofZ FOps 1)) then nsub FOps n h else n) in
  fin b /\ B2R (b : f64) = pole_lo p lo hi.
Proof.
  pose proof big_pos as P. pose proof big as B. pose proof big1 as B1. pose proof far64 as F.
  destruct p; cbn [pole_sign pole_at pole_lo] in *.
  - change (neqb FOps (nofZ FOps 1) (nopp FOps (nofZ FOps 1))) with false. cbv iota. auto.
  - change (neqb FOps (nopp FOps (nofZ FOps 1)) (nopp FOps (nofZ FOps 1))) with true. cbv iota.
    rewrite <- Eh, <- En. apply (sub64 n h 1010); auto; [lia|]. rewrite En, Eh.
    pose proof (rne_le_bpow (hi - lo) 1001 ltac:(lia) F) as G. unfold Rminus at 1. eapply Rle_trans; [apply Rabs_triang|]. rewrite Rabs_Ropp. lra.
Qed.

Lemma box_hi64 : let b := (if neqb FOps (pole_sign p) (nofZ FOps 1) then nadd FOps n h else n) in
  fin b /\ B2R (b : f64) = pole_hi p lo hi.
Proof.
  pose proof big_pos as P. pose proof big as B. pose proof big1 as B1. pose proof far64 as F.
  destruct p; cbn [pole_sign pole_at pole_hi] in *.
  - change (neqb FOps (nofZ FOps 1) (nofZ FOps 1)) with true. cbv iota.
    rewrite <- Eh, <- En. apply (add64 n h 1010); auto; [lia|]. rewrite En, Eh.
    pose proof (rne_le_bpow (hi - lo) 1001 ltac:(lia) F) as G. eapply Rle_trans; [apply Rabs_triang|]. lra.
  - change (neqb FOps (nopp FOps (nofZ FOps 1)) (nofZ FOps 1)) with false. cbv iota. auto.
Qed.

End Axis.
