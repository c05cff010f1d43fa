(** The search grid of an axis in binary64: C58. *)
From Coq Require Import ZArith List Bool Lia Reals Lra Psatz.
From Coq Require Import Floats.SpecFloat.
From Flocq Require Import Core BinarySingleNaN.
From Verif Require Import Model.Outcome Model.Num Model.NumInst Model.PNDArray Model.Bin Model.Interpolator Model.Quad Model.Mesh.
From Verif Require Import Spec.Tensor Spec.Fields Spec.Rounding.
From Verif Require Import Proofs.BinFloatP Proofs.RoundP Proofs.FloatShapeP Proofs.AxisP.
Import ListNotations.
Local Open Scope R_scope.

(** ** Whole numbers *)

Lemma whole64 : forall z, (Z.abs z <= 2 ^ 53)%Z -> fin (nofZ FOps z) /\ B2R (nofZ FOps z : f64) = IZR z.
Proof.
  intros z Hz. pose proof (binary_normalize_correct 53 1024 f64_prec f64_emax mode_NE z 0 false) as C.
  assert (E : F2R (Float radix2 z 0) = IZR z) by (unfold F2R; simpl; ring).
  assert (F : fmt (IZR z)).
  { rewrite <- E. destruct (Z.eq_dec (Z.abs z) (2 ^ 53)) as [Q|Q].
    - destruct (Z.abs_spec z) as [[_ A]|[_ A]]; rewrite A in Q.
      + rewrite E, Q. apply (fmt_bpow 53). lia.
      + rewrite E. replace z with (- 2 ^ 53)%Z by lia. rewrite opp_IZR. apply generic_format_opp. apply (fmt_bpow 53). lia.
    - apply generic_format_FLT. exists (Float radix2 z 0); [reflexivity| |]; cbn [Fnum Fexp].
      + change (radix2 ^ 53)%Z with (2 ^ 53)%Z. lia.
      + cbv. discriminate. }
  cbv zeta in C. rewrite E in C. rewrite (rne_id _ F) in C. rewrite Rlt_bool_true in C.
  - destruct C as (C1 & C2 & _). auto.
  - rewrite <- abs_IZR. apply Rle_lt_trans with (IZR (2 ^ 53)); [apply IZR_le; exact Hz|].
    change (IZR (2 ^ 53)) with (bpow radix2 53). apply bpow_lt. lia.
Qed.

(** ** Collecting and sorting *)

Local Notation vals := (map (fun x : f64 => B2R x)).

Lemma neqb64 : forall x y : f64, fin x -> fin y -> neqb FOps x y = Req_bool (B2R x) (B2R y).
Proof. intros x y Fx Fy. exact (Beqb_correct _ _ x y Fx Fy). Qed.
Lemma nltb64 : forall x y : f64, fin x -> fin y -> nltb FOps x y = Rlt_bool (B2R x) (B2R y).
Proof. intros x y Fx Fy. exact (Bltb_correct _ _ x y Fx Fy). Qed.

Local Notation fins l := (Forall (fun x : f64 => fin x) l).

Lemma add_vals : forall (l : list f64) (v : f64), fins l -> fin v ->
  vals (axis_add (O:=FOps) l v) = axis_add (O:=ROps) (vals l) (B2R v) /\ fins (axis_add (O:=FOps) l v).
Proof.
  intros l v Hl Hv. unfold axis_add.
  assert (E : existsb (fun x : f64 => neqb FOps x v) l = existsb (fun x => neqb ROps x (B2R v)) (vals l)).
  { induction Hl as [|x l Hx Hl IH]; [reflexivity|]. cbn [existsb map]. rewrite IH, neqb64 by auto. reflexivity. }
  change (num FOps) with f64. change (num ROps) with R in *. rewrite E. destruct (existsb (fun x : R => neqb ROps x (B2R v)) (vals l)).
  - auto.
  - split; [apply map_app|]. apply Forall_app. auto.
Qed.

Lemma collect_vals : forall (vs l : list f64), fins vs -> fins l ->
  vals (fold_left (axis_add (O:=FOps)) vs l) = fold_left (axis_add (O:=ROps)) (vals vs) (vals l) /\
  fins (fold_left (axis_add (O:=FOps)) vs l) /\ (forall x, In x (fold_left (axis_add (O:=FOps)) vs l) -> In x l \/ In x vs).
Proof.
  intros vs l Hvs. revert l. induction Hvs as [|v vs Hv Hvs IH]; intros l Hl; cbn [fold_left map].
  - auto.
  - destruct (add_vals l v Hl Hv) as [E F]. destruct (IH _ F) as (I1 & I2 & I3). rewrite I1, E. split; [auto|]. split; [auto|].
    intros x Hx. destruct (I3 x Hx) as [H|H]; [|simpl; auto].
    unfold axis_add in H. match type of H with In _ (if ?b then _ else _) => destruct b end; [auto|]. apply in_app_iff in H. destruct H as [H|[->|[]]]; simpl; auto.
Qed.

Lemma insert_vals : forall (v : f64) (l : list f64), fin v -> fins l ->
  vals (axis_insert (O:=FOps) v l) = axis_insert (O:=ROps) (B2R v) (vals l) /\ fins (axis_insert (O:=FOps) v l) /\
  (forall x, In x (axis_insert (O:=FOps) v l) -> x = v \/ In x l).
Proof.
  intros v l Hv Hl. induction Hl as [|x l Hx Hl (I1 & I2 & I3)]; cbn [axis_insert map].
  - split; [reflexivity|]. split; [auto|]. intros x [<-|[]]; auto.
  - rewrite nltb64 by auto. change (nltb ROps (B2R v) (B2R x)) with (Rlt_bool (B2R v) (B2R x)).
    destruct (Rlt_bool (B2R v) (B2R x)).
    + split; [reflexivity|]. split; [auto|]. intros y [<-|H]; auto.
    + cbn [map]. rewrite I1. split; [reflexivity|]. split; [auto|]. intros y [<-|H]; [simpl; auto|]. destruct (I3 y H); simpl; auto.
Qed.

Lemma sort_vals : forall l : list f64, fins l ->
  vals (axis_sort (O:=FOps) l) = axis_sort (O:=ROps) (vals l) /\ fins (axis_sort (O:=FOps) l) /\
  (forall x, In x (axis_sort (O:=FOps) l) -> In x l).
Proof.
  intros l Hl. induction Hl as [|x l Hx Hl (I1 & I2 & I3)]; cbn [axis_sort fold_right map].
  - auto.
  - change (fold_right (axis_insert (O:=FOps)) [] l) with (axis_sort (O:=FOps) l) in *.
    destruct (insert_vals x _ Hx I2) as (J1 & J2 & J3). rewrite J1, I1. split; [reflexivity|]. split; [auto|].
    intros y Hy. destruct (J3 y Hy) as [->|H]; simpl; auto.
Qed.

Lemma last_vals : forall (l : list f64) a, B2R (last l a : f64) = last (vals l) (B2R a).
Proof. induction l as [|x [|y l] IH]; intros a; try reflexivity. exact (IH a). Qed.

Lemma last_in : forall (A : Type) (l : list A) a, In (last l a) (a :: l).
Proof.
  intros A l. induction l as [|x l IH]; intros a; [simpl; auto|]. rewrite last_cons. right. apply IH.
Qed.

(** The axis, in terms of the least and the greatest coordinate. *)
Lemma axis_grid64 : forall (vs : list f64), fins vs -> vs <> [] -> (distinct (vals vs) + 2 <= int_max)%Z ->
  exists a z : f64, In a vs /\ In z vs /\ least (B2R a) (vals vs) /\ greatest (B2R z) (vals vs) /\
    let n := distinct (vals vs) in
    let h := ndiv FOps (nsub FOps z a) (nmul FOps (nofZ FOps 1) (nofZ FOps n)) in
    axis_grid (O:=FOps) vs = Ok (@mkAxis FOps (nsub FOps a h) (n + 2) h a z).
Proof.
  intros vs Fv Hne Hmax. unfold axis_grid.
  assert (E : @existsb (num FOps) (fun v => negb (neqb FOps v v)) vs = false).
  { clear -Fv. induction Fv as [|v vs Hv Hvs IH]; [reflexivity|]. cbn [existsb]. rewrite IH, neqb64 by auto.
    rewrite Req_bool_true by reflexivity. reflexivity. }
  rewrite E. destruct (collect_vals vs [] Fv (Forall_nil _)) as (C1 & C2 & C3).
  destruct (sort_vals _ C2) as (S1 & S2 & S3). rewrite C1 in S1. cbn [map] in S1.
  set (l := axis_sort (O:=FOps) (fold_left (axis_add (O:=FOps)) vs [])) in *.
  assert (S1' : vals l = axis_sort (O:=ROps) (fold_left (axis_add (O:=ROps)) (vals vs) [])) by exact S1.
  assert (In' : forall x, In x l -> In x vs).
  { intros x Hx. destruct (C3 x (S3 x Hx)) as [[]|H]; auto. }
  assert (L : Z.of_nat (length l) = distinct (vals vs)).
  { transitivity (Z.of_nat (length (vals l))); [rewrite map_length; reflexivity|]. etransitivity; [|apply distinct_collect].
    f_equal. exact (f_equal (@length R) S1). }
  assert (Mem : forall x, In x (vals l) <-> In x (vals vs)).
  { intros x. rewrite S1'. destruct (axis_collect (vals vs) [] (NoDup_nil _)) as [_ M]. split; intros H.
    - apply (Permutation.Permutation_in x (Permutation.Permutation_sym (axis_sort_perm _))) in H. apply M in H. destruct H as [[]|H]; auto.
    - apply (Permutation.Permutation_in x (axis_sort_perm _)). apply M. auto. }
  assert (Srt : Sorted.StronglySorted Rle (vals l)) by (rewrite S1'; apply axis_sort_sorted).
  clearbody l. destruct l as [|a l].
  { exfalso. destruct vs as [|v vs]; [congruence|]. apply (Mem (B2R v)). simpl; auto. }
  pose proof (sorted_first _ _ Srt) as [A1 A2]. pose proof (sorted_last _ _ Srt) as [Z1 Z2].
  fold (vals l) in Z1, Z2. 
  exists a, (last l a). split; [apply In'; simpl; auto|]. split; [apply In', last_in|].
  split; [split; [apply Mem; simpl; auto|intros x Hx; apply A2, Mem; auto]|].
  split.
  { rewrite last_vals. split; [apply Mem; exact Z1|]. intros x Hx. apply Z2, Mem; auto. }
  cbv zeta. change (num FOps) with f64 in *. rewrite L. unfold int_max in Hmax.
  assert (P : (0 < distinct (vals vs))%Z) by (rewrite <- L; simpl; lia).
  unfold cint at 1. assert (I1 : in_int (distinct (vals vs)) = true) by (unfold in_int, INT_MIN, INT_MAX; lia).
  rewrite I1. cbn [obind]. unfold cint.
  assert (I2 : in_int (distinct (vals vs) + 2) = true) by (unfold in_int, INT_MIN, INT_MAX; lia).
  rewrite I2. reflexivity.
Qed.

(** ** How far the computed grid is from the exact one *)

Lemma u_46 : u * bpow radix2 46 = / 128.
Proof. rewrite <- bpow_plus. simpl. lra. Qed.
Lemma u_31 : u * bpow radix2 31 <= / 1000000.
Proof. rewrite <- bpow_plus. simpl. lra. Qed.

Section Grid.
Variables (a z : f64) (n : Z).
Hypothesis Fa : fin a.
Hypothesis Fz : fin z.
Hypothesis Hn : (0 < n)%Z.
Hypothesis Hn2 : (n + 2 <= int_max)%Z.
Local Notation A := (B2R a).
Local Notation Z' := (B2R z).
Local Notation N := (IZR n).
Variable g : R.
Hypothesis Eg : N * g = Z' - A.
Hypothesis Hg : bpow radix2 (-900) <= g.
Hypothesis Ha : Rabs A <= bpow radix2 46 * g.
Hypothesis Hz : Rabs Z' <= bpow radix2 46 * g.
Hypothesis La : Rabs A <= bpow radix2 900.
Hypothesis Lz : Rabs Z' <= bpow radix2 900.

Lemma g_pos : 0 < g.
Proof. eapply Rlt_le_trans; [|exact Hg]. apply bpow_gt_0. Qed.

Lemma N_bounds : 1 <= N /\ u * (N + 2) <= / 1000000.
Proof.
  split; [apply IZR_le; lia|]. eapply Rle_trans; [|exact u_31]. apply Rmult_le_compat_l; [pose proof u_pos; lra|].
  change (bpow radix2 31) with (IZR (2 ^ 31)). rewrite <- plus_IZR. apply IZR_le. unfold int_max in Hn2. lia.
Qed.

Lemma eta_g : eta <= u * g * / 4.
Proof.
  apply Rle_trans with (u * bpow radix2 (-900) * / 4).
  - change (/ 4) with (bpow radix2 (-2)). rewrite <- !bpow_plus. apply bpow_le. lia.
  - pose proof u_pos. nra.
Qed.

Lemma whole_n : fin (nmul FOps (nofZ FOps 1) (nofZ FOps n)) /\ B2R (nmul FOps (nofZ FOps 1) (nofZ FOps n) : f64) = N.
Proof.
  unfold int_max in Hn2. destruct (whole64 n ltac:(lia)) as [F1 E1]. destruct one64 as [F2 E2].
  destruct (mul64 (nofZ FOps 1) (nofZ FOps n) 53 ltac:(lia) F2 F1) as [F3 E3].
  - rewrite E2, E1, Rmult_1_l. change (bpow radix2 53) with (IZR (2 ^ 53)). rewrite <- abs_IZR. apply IZR_le. lia.
  - split; [exact F3|]. rewrite E3, E2, E1, Rmult_1_l. rewrite <- E1. apply rne_id. apply f64_fmt.
Qed.

Local Notation h := (ndiv FOps (nsub FOps z a) (nmul FOps (nofZ FOps 1) (nofZ FOps n)) : f64).
Local Notation mn := (nsub FOps a h : f64).
Local Notation mx := (nadd FOps mn (nmul FOps h (nofZ FOps (n + 2))) : f64).

Lemma g_top : g <= 2 * bpow radix2 900.
Proof.
  pose proof g_pos. destruct N_bounds as [N1 _]. rabs La. rabs Lz. nra.
Qed.

Lemma top900 : bpow radix2 910 = 1024 * bpow radix2 900.
Proof. change 1024 with (bpow radix2 10). rewrite <- bpow_plus. reflexivity. Qed.
Lemma pos900 : 0 < bpow radix2 900.
Proof. apply bpow_gt_0. Qed.

Lemma incr64 : fin h /\ Rabs (B2R h - g) <= 3 * u * g.
Proof.
  pose proof g_pos as G. destruct N_bounds as [N1 N2]. pose proof u_pos as U0. pose proof u_small as U. pose proof top900 as T. pose proof pos900 as T0.
  pose proof g_top as GT. pose proof eta_g as EG. destruct whole_n as [Fn En].
  destruct (sub64 z a 910 ltac:(lia) Fz Fa) as [F1 E1].
  { rabs La. rabs Lz. apply Rabs_le. lra. }
  pose proof (rne_sub_err Z' A (f64_fmt z) (f64_fmt a)) as S. rewrite <- E1, <- Eg in S.
  rewrite (Rabs_pos_eq (N * g)) in S by nra.
  set (s := B2R (nsub FOps z a : f64)) in *.
  assert (Q : Rabs (s / N - g) <= u * g).
  { replace (s / N - g) with ((s - N * g) / N) by (field; lra). unfold Rdiv. rewrite Rabs_mult, (Rabs_pos_eq (/ N)) by (left; apply Rinv_0_lt_compat; lra).
    apply Rmult_le_reg_r with N; [lra|]. rewrite Rmult_assoc, Rinv_l, Rmult_1_r by lra. lra. }
  destruct (div64 (nsub FOps z a) (nmul FOps (nofZ FOps 1) (nofZ FOps n)) 910 ltac:(lia) F1 Fn ltac:(lra)) as [F2 E2].
  { rewrite En. fold s. rabs Q. apply Rabs_le. assert (u * g <= g) by nra. lra. }
  split; [exact F2|]. rewrite E2, En. fold s. pose proof (rne_err (s / N)) as R1.
  assert (B : Rabs (s / N) <= (1 + u) * g) by (rabs Q; apply Rabs_le; nra).
  assert (C : u * Rabs (s / N) <= (1 + u) * (u * g)) by nra.
  assert (C2 : u * (u * g) <= / 1024 * (u * g)) by (apply Rmult_le_compat_r; [nra|lra]).
  rabs Q. rabs R1. apply Rabs_le. lra.
Qed.

Lemma ug_small : u * g <= / 1000000 * g.
Proof. destruct N_bounds as [N1 N2]. pose proof g_pos. pose proof u_pos. apply Rmult_le_compat_r; [lra|]. nra. Qed.

Lemma u46g : u * (bpow radix2 46 * g) = / 128 * g.
Proof. rewrite <- Rmult_assoc, u_46. reflexivity. Qed.

Lemma min64 : fin mn /\ Rabs (B2R mn - (A - g)) <= g / 100.
Proof.
  pose proof g_pos as G. pose proof u_pos as U0. pose proof top900 as T. pose proof pos900 as T0. pose proof g_top as GT. pose proof ug_small as UG.
  destruct incr64 as [Fh Hh]. pose proof u46g as U46.
  destruct (sub64 a h 910 ltac:(lia) Fa Fh) as [F1 E1].
  { rabs La. rabs Hh. apply Rabs_le. lra. }
  split; [exact F1|]. rewrite E1. pose proof (rne_sub_err A (B2R h) (f64_fmt a) (f64_fmt _)) as S.
  assert (B : Rabs (A - B2R h) <= bpow radix2 46 * g + 2 * g) by (rabs Ha; rabs Hh; apply Rabs_le; lra).
  assert (C : u * Rabs (A - B2R h) <= u * (bpow radix2 46 * g + 2 * g)) by (apply Rmult_le_compat_l; lra).
  rewrite Rmult_plus_distr_l, U46 in C. rabs Hh. rabs S. apply Rabs_le. lra.
Qed.

Lemma max64 : fin mx /\ Rabs (B2R mx - (Z' + g)) <= g / 40.
Proof.
  pose proof g_pos as G. pose proof u_pos as U0. pose proof top900 as T. pose proof pos900 as T0. pose proof g_top as GT. pose proof ug_small as UG.
  destruct N_bounds as [N1 N2]. destruct incr64 as [Fh Hh]. destruct min64 as [Fm Hm]. pose proof u46g as U46. pose proof eta_g as EG.
  unfold int_max in Hn2. destruct (whole64 (n + 2) ltac:(lia)) as [F2 E2]. rewrite plus_IZR in E2.
  assert (D : (N + 2) * g <= 6 * bpow radix2 900) by (rabs La; rabs Lz; nra).
  assert (V : u * ((N + 2) * g) <= / 1000000 * g) by (rewrite <- Rmult_assoc; apply Rmult_le_compat_r; lra).
  assert (P : Rabs (B2R h * (N + 2) - (N + 2) * g) <= 3 * (u * ((N + 2) * g))).
  { replace (B2R h * (N + 2) - (N + 2) * g) with ((N + 2) * (B2R h - g)) by ring. rewrite Rabs_mult, (Rabs_pos_eq (N + 2)) by lra.
    replace (3 * (u * ((N + 2) * g))) with ((N + 2) * (3 * u * g)) by ring. apply Rmult_le_compat_l; lra. }
  destruct (mul64 h (nofZ FOps (n + 2)) 910 ltac:(lia) Fh F2) as [F3 E3].
  { rewrite E2. rabs P. rabs La. rabs Lz. apply Rabs_le. lra. }
  rewrite E2 in E3. set (p := nmul FOps h (nofZ FOps (n + 2)) : f64) in *.
  pose proof (rne_err (B2R h * (N + 2))) as R1. rewrite <- E3 in R1.
  assert (B : Rabs (B2R h * (N + 2)) <= 2 * ((N + 2) * g)) by (rabs P; apply Rabs_le; nra).
  assert (C : u * Rabs (B2R h * (N + 2)) <= u * (2 * ((N + 2) * g))) by (apply Rmult_le_compat_l; lra).
  assert (Pp : Rabs (B2R p - (N + 2) * g) <= g / 10000) by (rabs P; rabs R1; apply Rabs_le; lra).
  destruct (add64 mn p 910 ltac:(lia) Fm F3) as [F4 E4].
  { rabs Hm. rabs Pp. rabs La. rabs Lz. apply Rabs_le. lra. }
  split; [exact F4|]. rewrite E4. pose proof (rne_add_err (B2R mn) (B2R p) (f64_fmt _) (f64_fmt _)) as S.
  assert (B2 : Rabs (B2R mn + B2R p) <= bpow radix2 46 * g + 2 * g).
  { rabs Hm. rabs Pp. rabs Ha. rabs Hz. apply Rabs_le. lra. }
  assert (C2 : u * Rabs (B2R mn + B2R p) <= u * (bpow radix2 46 * g + 2 * g)) by (apply Rmult_le_compat_l; lra).
  rewrite Rmult_plus_distr_l, U46 in C2. rabs Hm. rabs Pp. rabs S. apply Rabs_le. lra.
Qed.

(** Every coordinate between the extremes, or next to them, has a bin. *)
Lemma index64 : forall x : f64, fin x -> A - g / 4 <= B2R x <= Z' + g / 4 ->
  nltb FOps x mn = false /\ nltb FOps mx x = false /\
  let k := Zfloor (rne (rne (B2R x - B2R mn) / B2R h)) in
  nfloor FOps (ndiv FOps (nsub FOps x mn) h) = Some k /\ (0 <= k < n + 2)%Z.
Proof.
  intros x Fx Hx. pose proof g_pos as G. pose proof u_pos as U0. pose proof u_small as U. pose proof top900 as T. pose proof pos900 as T0. pose proof g_top as GT. pose proof ug_small as UG.
  destruct N_bounds as [N1 N2]. destruct incr64 as [Fh Hh]. destruct min64 as [Fm Hm]. destruct max64 as [FM HM].
  assert (V : u * ((N + 2) * g) <= / 1000000 * g) by (rewrite <- Rmult_assoc; apply Rmult_le_compat_r; lra).
  pose proof eta_small as ES. 
  split; [|split].
  - rewrite nltb64 by auto. apply Rlt_bool_false. rabs Hm. lra.
  - rewrite nltb64 by auto. apply Rlt_bool_false. rabs HM. lra.
  - destruct (sub64 x mn 910 ltac:(lia) Fx Fm) as [F1 E1].
    { rabs Hm. rabs La. rabs Lz. apply Rabs_le. lra. }
    pose proof (rne_sub_err (B2R x) (B2R mn) (f64_fmt _) (f64_fmt _)) as S. rewrite <- E1 in S.
    set (d := nsub FOps x mn : f64) in *.
    assert (I : 7 / 10 * g <= B2R x - B2R mn <= (N + 127 / 100) * g).
    { rabs Hm. split; [lra|]. replace ((N + 127 / 100) * g) with (N * g + 127 / 100 * g) by ring. lra. }
    assert (C : u * Rabs (B2R x - B2R mn) <= / 1000000 * g).
    { eapply Rle_trans; [|exact V]. apply Rmult_le_compat_l; [lra|]. rewrite Rabs_pos_eq by lra. nra. }
    assert (J : / 2 * g <= B2R d <= (N + 128 / 100) * g).
    { rabs S. split; [lra|]. replace ((N + 128 / 100) * g) with ((N + 127 / 100) * g + / 100 * g) by field. lra. }
    assert (H1 : (1 - 3 * u) * g <= B2R h) by (rabs Hh; lra).
    assert (H0 : 0 < B2R h) by (assert (0 < (1 - 3 * u) * g) by (apply Rmult_lt_0_compat; lra); lra).
    assert (Q : 0 <= B2R d / B2R h <= N + 129 / 100).
    { split; [left; apply Rdiv_lt_0_compat; lra|]. apply Rmult_le_reg_r with (B2R h); [exact H0|].
      unfold Rdiv at 1. rewrite Rmult_assoc, Rinv_l, Rmult_1_r by lra.
      apply Rle_trans with ((N + 129 / 100) * ((1 - 3 * u) * g)); [|apply Rmult_le_compat_l; lra].
      replace ((N + 129 / 100) * ((1 - 3 * u) * g)) with ((N + 129 / 100) * g - 3 * (u * ((N + 129/100) * g))) by ring.
      assert (W : u * ((N + 129 / 100) * g) <= / 1000000 * g).
      { eapply Rle_trans; [|exact V]. apply Rmult_le_compat_l; [lra|]. apply Rmult_le_compat_r; lra. }
      replace ((N + 129 / 100) * g) with ((N + 128 / 100) * g + / 100 * g) in * by field. lra. }
    assert (NB : N + 2 <= bpow radix2 31).
    { change (bpow radix2 31) with (IZR (2 ^ 31)). rewrite <- plus_IZR. apply IZR_le. unfold int_max in Hn2. lia. }
    destruct (div64 d h 31 ltac:(lia) F1 Fh H0) as [F2 E2].
    { rewrite Rabs_pos_eq by lra. lra. }
    cbv zeta. rewrite <- E1, <- E2. split; [exact (sf_floor_finite _ F2)|]. rewrite E2.
    pose proof (rne_err (B2R d / B2R h)) as R1. rewrite (Rabs_pos_eq (B2R d / B2R h)) in R1 by lra.
    assert (UQ : u * (B2R d / B2R h) <= / 1000000) by (eapply Rle_trans; [|exact N2]; apply Rmult_le_compat_l; lra).
    assert (P0 : 0 <= rne (B2R d / B2R h)) by (apply rne_ge0; lra).
    rabs R1. split.
    + apply (Zfloor_lub 0). exact P0.
    + apply lt_IZR. rewrite plus_IZR. eapply Rle_lt_trans; [apply Zfloor_lb|]. lra.
Qed.

End Grid.
