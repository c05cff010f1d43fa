(** Rounded and IEEE arithmetic: indices between indices. *)
From Coq Require Import ZArith List Bool Lia Reals Lra.
From Coq Require Import Floats.SpecFloat.
From Flocq Require Import Core.Core IEEE754.BinarySingleNaN.
From Verif Require Import Model.Outcome Model.Num Model.NumInst Model.PNDArray Model.Bin.
From Verif Require Import Spec.Tensor Spec.Grid Proofs.BinP Proofs.BinLaterP.
Import ListNotations.
Local Open Scope Z_scope.

(** ** Rounded reals *)

Lemma rnd_order_ok : forall rnd, order_ok (RndOps rnd).
Proof.
  intros rnd. split; simpl; intros x y z H1 H2.
  - destruct (Rle_bool_spec x y); [|discriminate]. destruct (Rlt_bool_spec x z); [discriminate|].
    apply Rlt_bool_false. lra.
  - destruct (Rle_bool_spec x y); [|discriminate]. destruct (Rlt_bool_spec z y); [discriminate|].
    apply Rlt_bool_false. lra.
Qed.

Lemma rnd_between_ok : forall rnd, (forall x y, (x <= y)%R -> (rnd x <= rnd y)%R) ->
  between_ok (RndOps rnd) (fun h => (0 < h)%R).
Proof.
  intros rnd Hm a h x p y i k Hh _ H1 H2 Hi Hk. simpl in *.
  destruct (Rle_bool_spec x p); [|discriminate]. destruct (Rle_bool_spec p y); [|discriminate].
  injection Hi as <-. injection Hk as <-. eexists; split; [reflexivity|].
  assert (Hinv : (0 <= / h)%R) by (left; apply Rinv_0_lt_compat; auto).
  split; apply Zfloor_le; apply Hm; apply Rmult_le_compat_r; auto; apply Hm; lra.
Qed.

(** ** binary64 *)

Notation fin x := (is_finite (prec := 53) (emax := 1024) x = true).
Notation rne := (round radix2 (SpecFloat.fexp 53 1024) (round_mode mode_NE)).

Lemma sf_floor_finite : forall x : f64, fin x -> sf_floor (B2SF x) = Some (Zfloor (B2R x)).
Proof.
  intros [s|s| |s m e He] H; try discriminate; simpl.
  - f_equal. symmetry. apply (Zfloor_IZR 0).
  - f_equal. unfold F2R. cbn [Fnum Fexp].
    replace (cond_Zopp s (Z.pos m)) with (if s then Z.neg m else Z.pos m) by (destruct s; reflexivity).
    set (z := if s then Z.neg m else Z.pos m). symmetry.
    destruct (Z.leb_spec 0 e) as [H0|H0].
    + replace (bpow radix2 e) with (IZR (2 ^ e)) by (exact (IZR_Zpower radix2 e H0)).
      rewrite <- mult_IZR. apply Zfloor_IZR.
    + replace (bpow radix2 e) with (/ IZR (2 ^ (- e)))%R.
      * rewrite <- (Zfloor_div z (2 ^ (- e))); [reflexivity|].
        apply Z.pow_nonzero; lia.
      * replace (bpow radix2 e) with (/ bpow radix2 (- e))%R.
        -- f_equal. assert (Hne : 0 <= - e) by lia. exact (IZR_Zpower radix2 (- e) Hne).
        -- rewrite <- bpow_opp. f_equal. lia.
Qed.

Lemma sf_floor_some : forall (x : f64) k, sf_floor (B2SF x) = Some k -> fin x /\ k = Zfloor (B2R x).
Proof.
  intros x k H. destruct x as [s|s| |s m e He]; try discriminate; (split; [reflexivity|]);
  rewrite sf_floor_finite in H by reflexivity; injection H as <-; reflexivity.
Qed.

Lemma bleb_finite : forall x y : f64, fin x -> fin y -> Bleb x y = true -> (B2R x <= B2R y)%R.
Proof.
  intros x y Hx Hy H. rewrite (Bleb_correct _ _ _ _ Hx Hy) in H. destruct (Rle_bool_spec (B2R x) (B2R y)); [auto|discriminate].
Qed.

Lemma between_finite : forall x p y : f64, fin x -> fin y -> Bleb x p = true -> Bleb p y = true -> fin p.
Proof.
  intros x p y Hx Hy H1 H2. destruct p as [s|s| |s m e He]; auto.
  - exfalso. destruct s.
    + destruct x as [sx|sx| |[|] mx ex Hex]; discriminate.
    + destruct y as [sy|sy| |[|] my ey Hey]; discriminate.
Qed.

Notation bsub := (@Bminus 53 1024 f64_prec f64_emax mode_NE).
Notation bdiv := (@Bdiv 53 1024 f64_prec f64_emax mode_NE).

Lemma sub_finite : forall x a : f64, fin (bsub x a) ->
  fin x /\ fin a /\ B2R (bsub x a) = rne (B2R x - B2R a) /\ (Rabs (rne (B2R x - B2R a)) < bpow radix2 1024)%R.
Proof.
  intros x a H.
  assert (Hx : fin x) by (destruct x as [s|s| |s m e He]; auto; destruct a as [t|t| |t m' e' He']; try discriminate;
     destruct s, t; discriminate).
  assert (Ha : fin a) by (destruct a as [t|t| |t m' e' He']; auto; destruct x as [s|s| |s m e He]; discriminate).
  pose proof (Bminus_correct _ _ f64_prec f64_emax mode_NE x a Hx Ha) as C.
  destruct (Rlt_bool_spec (Rabs (rne (B2R x - B2R a))) (bpow radix2 1024)) as [L|L].
  - destruct C as (C & _). auto.
  - destruct C as (C & _). destruct (bsub x a); simpl in C; discriminate.
Qed.

Lemma sub_correct : forall x a : f64, fin x -> fin a ->
  (Rabs (rne (B2R x - B2R a)) < bpow radix2 1024)%R -> fin (bsub x a) /\ B2R (bsub x a) = rne (B2R x - B2R a).
Proof.
  intros x a Hx Ha L. pose proof (Bminus_correct _ _ f64_prec f64_emax mode_NE x a Hx Ha) as C.
  rewrite (Rlt_bool_true _ _ L) in C. destruct C as (C1 & C2 & _). auto.
Qed.

Lemma div_finite : forall u h : f64, fin h -> (0 < B2R h)%R -> fin (bdiv u h) ->
  fin u /\ B2R (bdiv u h) = rne (B2R u / B2R h) /\ (Rabs (rne (B2R u / B2R h)) < bpow radix2 1024)%R.
Proof.
  intros u h Hh Hp H. 
  pose proof (Bdiv_correct _ _ f64_prec f64_emax mode_NE u h ltac:(lra)) as C.
  destruct (Rlt_bool_spec (Rabs (rne (B2R u / B2R h))) (bpow radix2 1024)) as [L|L].
  - destruct C as (C & C2 & _). rewrite <- C2. auto.
  - destruct (bdiv u h); simpl in C; discriminate.
Qed.

Lemma div_correct : forall u h : f64, fin u -> fin h -> (0 < B2R h)%R ->
  (Rabs (rne (B2R u / B2R h)) < bpow radix2 1024)%R -> fin (bdiv u h) /\ B2R (bdiv u h) = rne (B2R u / B2R h).
Proof.
  intros u h Hu Hh Hp L. pose proof (Bdiv_correct _ _ f64_prec f64_emax mode_NE u h ltac:(lra)) as C.
  rewrite (Rlt_bool_true _ _ L) in C. destruct C as (C1 & C2 & _). rewrite C2. auto.
Qed.

Lemma rne_le : forall x y, (x <= y)%R -> (rne x <= rne y)%R.
Proof. intros x y H. apply round_le; auto. exact (fexp_correct 53 1024 f64_prec). apply valid_rnd_round_mode. Qed.

Lemma positive_cases : forall h : f64, nltb FOps (nofZ FOps 0) h = true ->
  h = B754_infinity false \/ (fin h /\ (0 < B2R h)%R).
Proof.
  intros h H. destruct h as [s|s| |s m e He]; try discriminate.
  - destruct s; [discriminate|auto].
  - right. split; [reflexivity|]. change (Bltb (f64_make 0 0) (B754_finite s m e He) = true) in H.
    assert (Z0 : fin (f64_make 0 0)) by reflexivity.
    rewrite (Bltb_correct _ _ (f64_make 0 0) (B754_finite s m e He) Z0 eq_refl) in H.
    destruct (Rlt_bool_spec (B2R (f64_make 0 0)) (B2R (B754_finite s m e He : f64))); [|discriminate]. auto.
Qed.

Lemma f64_between_ok : between_ok FOps (fun h => nltb FOps (nofZ FOps 0) h = true).
Proof.
  intros a h x p y i k Hh _ H1 H2 Hi Hk.
  change (sf_floor (B2SF (bdiv (bsub x a) h)) = Some i) in Hi.
  change (sf_floor (B2SF (bdiv (bsub y a) h)) = Some k) in Hk.
  change (exists j, sf_floor (B2SF (bdiv (bsub p a) h)) = Some j /\ i <= j <= k).
  change (Bleb x p = true) in H1. change (Bleb p y = true) in H2.
  destruct (sf_floor_some _ _ Hi) as [Fi ->]. destruct (sf_floor_some _ _ Hk) as [Fk ->].
  assert (Hs : fin (bsub x a) /\ fin (bsub y a)).
  { destruct (positive_cases h Hh) as [->|[Fh Ph]].
    - split; [destruct (bsub x a)|destruct (bsub y a)]; try discriminate; auto.
    - split; [apply (div_finite _ h Fh Ph Fi)|apply (div_finite _ h Fh Ph Fk)]. }
  destruct Hs as [Sx Sy].
  destruct (sub_finite _ _ Sx) as (Fx & Fa & Ex & Lx). destruct (sub_finite _ _ Sy) as (Fy & _ & Ey & Ly).
  pose proof (between_finite _ _ _ Fx Fy H1 H2) as Fp.
  pose proof (bleb_finite _ _ Fx Fp H1) as R1. pose proof (bleb_finite _ _ Fp Fy H2) as R2.
  assert (M1 : (rne (B2R x - B2R a) <= rne (B2R p - B2R a))%R) by (apply rne_le; lra).
  assert (M2 : (rne (B2R p - B2R a) <= rne (B2R y - B2R a))%R) by (apply rne_le; lra).
  destruct (sub_correct p a Fp Fa) as [Sp Ep].
  { apply Rabs_def2 in Lx. apply Rabs_def2 in Ly. apply Rabs_def1; lra. }
  destruct (positive_cases h Hh) as [->|[Fh Ph]].
  - assert (Z : forall u : f64, fin u -> fin (bdiv u (B754_infinity false)) /\ B2R (bdiv u (B754_infinity false)) = 0%R)
      by (intros [s|s| |s m e He]; try discriminate; split; reflexivity).
    destruct (Z _ Sp) as [Z1 Z2]. destruct (Z _ Sx) as [Z3 Z4]. destruct (Z _ Sy) as [Z5 Z6].
    eexists. split; [apply sf_floor_finite; auto|]. rewrite Z2, Z4, Z6. lia.
  - destruct (div_finite _ h Fh Ph Fi) as (_ & Dx & Qx). destruct (div_finite _ h Fh Ph Fk) as (_ & Dy & Qy).
    assert (Hinv : (0 <= / B2R h)%R) by (left; apply Rinv_0_lt_compat; auto).
    assert (N1 : (rne (B2R (bsub x a) / B2R h) <= rne (B2R (bsub p a) / B2R h))%R)
      by (apply rne_le; apply Rmult_le_compat_r; auto; lra).
    assert (N2 : (rne (B2R (bsub p a) / B2R h) <= rne (B2R (bsub y a) / B2R h))%R)
      by (apply rne_le; apply Rmult_le_compat_r; auto; lra).
    destruct (div_correct (bsub p a) h Sp Fh Ph) as [Fd Dp].
    { apply Rabs_def2 in Qx. apply Rabs_def2 in Qy. apply Rabs_def1; lra. }
    eexists. split; [apply sf_floor_finite; auto|]. rewrite Dx, Dy, Dp.
    split; apply Zfloor_le; auto.
Qed.

Lemma f64_trans1 : forall x p a : f64, Bleb x p = true -> Bltb x a = false -> Bltb p a = false.
Proof.
  intros x p a H1 H2.
  destruct (is_finite x) eqn:Fx, (is_finite p) eqn:Fp, (is_finite a) eqn:Fa.
  - rewrite Bleb_correct in H1 by auto. rewrite Bltb_correct in H2 |- * by auto.
    destruct (Rle_bool_spec (B2R x) (B2R p)); [|discriminate]. destruct (Rlt_bool_spec (B2R x) (B2R a)); [discriminate|].
    apply Rlt_bool_false; lra.
  - destruct a as [s|[|]| |s m e He]; try discriminate; destruct p as [s1|[|]| |[|] m1 e1 He1]; try discriminate; auto;
    destruct x as [s2|[|]| |[|] m2 e2 He2]; try discriminate; auto.
  - destruct p as [s|[|]| |s m e He]; try discriminate;
    destruct x as [s2|[|]| |[|] m2 e2 He2]; try discriminate; auto; destruct a as [s1|[|]| |[|] m1 e1 He1]; try discriminate; auto.
  - destruct p as [s|[|]| |s m e He]; try discriminate; destruct a as [s1|[|]| |[|] m1 e1 He1]; try discriminate; auto;
    destruct x as [s2|[|]| |[|] m2 e2 He2]; try discriminate; auto.
  - destruct x as [s|[|]| |s m e He]; try discriminate; destruct a as [s1|[|]| |[|] m1 e1 He1]; try discriminate; auto;
    destruct p as [s2|[|]| |[|] m2 e2 He2]; try discriminate; auto.
  - destruct x as [s|[|]| |s m e He]; try discriminate; destruct a as [s1|[|]| |[|] m1 e1 He1]; try discriminate; auto;
    destruct p as [s2|[|]| |[|] m2 e2 He2]; try discriminate; auto.
  - destruct x as [s|[|]| |s m e He]; try discriminate; destruct p as [s2|[|]| |[|] m2 e2 He2]; try discriminate; auto;
    destruct a as [s1|[|]| |[|] m1 e1 He1]; try discriminate; auto.
  - destruct x as [s|[|]| |s m e He]; try discriminate; destruct p as [s2|[|]| |[|] m2 e2 He2]; try discriminate; auto;
    destruct a as [s1|[|]| |[|] m1 e1 He1]; try discriminate; auto.
Qed.

Lemma f64_trans2 : forall p y z : f64, Bleb p y = true -> Bltb z y = false -> Bltb z p = false.
Proof.
  intros p y z H1 H2.
  destruct (is_finite p) eqn:Fx, (is_finite y) eqn:Fp, (is_finite z) eqn:Fa.
  - rewrite Bleb_correct in H1 by auto. rewrite Bltb_correct in H2 |- * by auto.
    destruct (Rle_bool_spec (B2R p) (B2R y)); [|discriminate]. destruct (Rlt_bool_spec (B2R z) (B2R y)); [discriminate|].
    apply Rlt_bool_false; lra.
  - destruct z as [s|[|]| |s m e He]; try discriminate; destruct p as [s1|[|]| |[|] m1 e1 He1]; try discriminate; auto;
    destruct y as [s2|[|]| |[|] m2 e2 He2]; try discriminate; auto.
  - destruct y as [s|[|]| |s m e He]; try discriminate;
    destruct p as [s2|[|]| |[|] m2 e2 He2]; try discriminate; auto; destruct z as [s1|[|]| |[|] m1 e1 He1]; try discriminate; auto.
  - destruct y as [s|[|]| |s m e He]; try discriminate; destruct z as [s1|[|]| |[|] m1 e1 He1]; try discriminate; auto;
    destruct p as [s2|[|]| |[|] m2 e2 He2]; try discriminate; auto.
  - destruct p as [s|[|]| |s m e He]; try discriminate; destruct z as [s1|[|]| |[|] m1 e1 He1]; try discriminate; auto;
    destruct y as [s2|[|]| |[|] m2 e2 He2]; try discriminate; auto.
  - destruct p as [s|[|]| |s m e He]; try discriminate; destruct z as [s1|[|]| |[|] m1 e1 He1]; try discriminate; auto;
    destruct y as [s2|[|]| |[|] m2 e2 He2]; try discriminate; auto.
  - destruct p as [s|[|]| |s m e He]; try discriminate; destruct y as [s2|[|]| |[|] m2 e2 He2]; try discriminate; auto;
    destruct z as [s1|[|]| |[|] m1 e1 He1]; try discriminate; auto.
  - destruct p as [s|[|]| |s m e He]; try discriminate; destruct y as [s2|[|]| |[|] m2 e2 He2]; try discriminate; auto;
    destruct z as [s1|[|]| |[|] m1 e1 He1]; try discriminate; auto.
Qed.

Lemma f64_order_ok : order_ok FOps.
Proof. split; [exact f64_trans1|exact f64_trans2]. Qed.
