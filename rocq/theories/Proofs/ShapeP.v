(** Element shape functions over the reals. *)
From Coq Require Import ZArith List Bool Lia Reals Lra.
From Coquelicot Require Import Coquelicot.
From Flocq Require Import Core.Raux.
From Verif Require Import Model.Outcome Model.Num Model.NumInst Model.PSimple Model.FuncObj Model.Interpolator
  Model.Quad Model.Hexahedron Spec.Funcs Spec.Shape Proofs.OutcomeP Proofs.FuncObjP.
Import ListNotations.
Local Open Scope Z_scope.

Lemma in_corners2 : forall k, In k corners2 <-> 0 <= k < 4.
Proof. intros k; unfold corners2; simpl; lia. Qed.
Lemma in_corners3 : forall k, In k corners3 <-> 0 <= k < 8.
Proof. intros k; unfold corners3; simpl; lia. Qed.

Ltac cases2 H := apply in_corners2 in H; match type of H with 0 <= ?k < _ =>
  assert (k = 0 \/ k = 1 \/ k = 2 \/ k = 3) as [-> | [-> | [-> | ->]]] by lia end.
Ltac cases3 H := apply in_corners3 in H; match type of H with 0 <= ?k < _ =>
  assert (k = 0 \/ k = 1 \/ k = 2 \/ k = 3 \/ k = 4 \/ k = 5 \/ k = 6 \/ k = 7)
    as [-> | [-> | [-> | [-> | [-> | [-> | [-> | ->]]]]]]] by lia end.

(** The corner functions in closed form: products of t or 1 - t per axis. *)
Definition side (b t : R) : R := (if Req_bool b 0 then 1 - t else t)%R.

Lemma side0 : forall t, side 0 t = (1 - t)%R.
Proof. intros t; unfold side. rewrite Req_bool_true; auto. Qed.
Lemma side1 : forall t, side 1 t = t.
Proof. intros t; unfold side. rewrite Req_bool_false; auto with real. Qed.

Lemma shape2_form : forall nd el (lo h : point2) k r, proper2 h -> In k corners2 ->
  it_val (quad_values ROps nd el (corner2 lo h k) h k) r =
  (side (fst (unit2 k)) ((fst r - fst lo) / fst h) * side (snd (unit2 k)) ((snd r - snd lo) / snd h))%R.
Proof.
  intros nd el [l0 l1] [h0 h1] k [r0 r1] [H0 H1] Hk. simpl in H0, H1.
  cases2 Hk; unfold quad_values, quad_value, quad_f; simpl; rewrite ?side0, ?side1; field; auto.
Qed.

Lemma shape3_form : forall nd el (lo h : point3) k r, proper3 h -> In k corners3 ->
  it_val (hex_values ROps nd el (corner3 lo h k) h k) r =
  (side (fst (fst (unit3 k))) ((cx r - cx lo) / cx h) * side (snd (fst (unit3 k))) ((cy r - cy lo) / cy h) *
   side (snd (unit3 k)) ((cz r - cz lo) / cz h))%R.
Proof.
  intros nd el [l0 l1 l2] [h0 h1 h2] k [r0 r1 r2] (H0 & H1 & H2) Hk. simpl in H0, H1, H2.
  cases3 Hk; unfold hex_values, hex_value, hex_f, hexf; simpl; rewrite ?side0, ?side1; field; auto.
Qed.

Lemma rsum_ext : forall (A : Type) (f g : A -> R) l, (forall x, In x l -> f x = g x) -> rsum f l = rsum g l.
Proof.
  intros A f g l. induction l as [|x l IH]; intros H; simpl; auto.
  rewrite (H x (or_introl eq_refl)), IH; auto. intros y Hy. apply H. now right.
Qed.

Lemma quad_partition : forall (nd : Z -> Z) el (lo h r : point2), proper2 h ->
  rsum (fun k => it_val (quad_values ROps (nd k) el (corner2 lo h k) h k) r) corners2 = 1%R.
Proof.
  intros nd el lo h r H. erewrite rsum_ext; [|intros k Hk; apply shape2_form; auto].
  simpl. rewrite ?side0, ?side1. ring.
Qed.

Lemma hex_partition : forall (nd : Z -> Z) el (lo h r : point3), proper3 h ->
  rsum (fun k => it_val (hex_values ROps (nd k) el (corner3 lo h k) h k) r) corners3 = 1%R.
Proof.
  intros nd el lo h r H. erewrite rsum_ext; [|intros k Hk; apply shape3_form; auto].
  simpl. rewrite ?side0, ?side1. ring.
Qed.

Lemma quad_nodal : forall nd el (lo h : point2) k k', proper2 h -> In k corners2 -> In k' corners2 ->
  it_val (quad_values ROps nd el (corner2 lo h k) h k) (corner2 lo h k') = if k =? k' then 1%R else 0%R.
Proof.
  intros nd el [l0 l1] [h0 h1] k k' H Hk Hk'. rewrite shape2_form; auto. destruct H as [H0 H1]; simpl in H0, H1.
  cases2 Hk; cases2 Hk'; simpl; rewrite ?side0, ?side1; field; auto.
Qed.

Lemma hex_nodal : forall nd el (lo h : point3) k k', proper3 h -> In k corners3 -> In k' corners3 ->
  it_val (hex_values ROps nd el (corner3 lo h k) h k) (corner3 lo h k') = if k =? k' then 1%R else 0%R.
Proof.
  intros nd el [l0 l1 l2] [h0 h1 h2] k k' H Hk Hk'. rewrite shape3_form; auto. destruct H as (H0 & H1 & H2); simpl in H0, H1, H2.
  cases3 Hk; cases3 Hk'; simpl; rewrite ?side0, ?side1; field; auto.
Qed.

Lemma side_bounds : forall b t, (0 <= t <= 1)%R -> (0 <= side b t <= 1)%R.
Proof. intros b t H; unfold side. destruct (Req_bool b 0); lra. Qed.

Lemma between1_ratio : forall a h x, h <> 0%R -> between1 a h x <-> (0 <= (x - a) / h <= 1)%R.
Proof.
  intros a h x Hh; split.
  - intros (t & Ht & ->). replace ((a + t * h - a) / h)%R with t by (field; auto). exact Ht.
  - intros H. exists ((x - a) / h)%R. split; auto. field; auto.
Qed.

Lemma mul01 : forall a b, (0 <= a <= 1)%R -> (0 <= b <= 1)%R -> (0 <= a * b <= 1)%R.
Proof. intros a b Ha Hb. nra. Qed.

Lemma quad_bounds : forall nd el (lo h r : point2) k, proper2 h -> In k corners2 -> in_rect lo h r ->
  (0 <= it_val (quad_values ROps nd el (corner2 lo h k) h k) r <= 1)%R.
Proof.
  intros nd el lo h r k H Hk [Hx Hy]. rewrite shape2_form; auto. destruct H as [H0 H1].
  apply mul01; apply side_bounds; apply between1_ratio; auto.
Qed.

Lemma hex_bounds : forall nd el (lo h r : point3) k, proper3 h -> In k corners3 -> in_box lo h r ->
  (0 <= it_val (hex_values ROps nd el (corner3 lo h k) h k) r <= 1)%R.
Proof.
  intros nd el lo h r k H Hk (Hx & Hy & Hz). rewrite shape3_form; auto. destruct H as (H0 & H1 & H2).
  apply mul01; [apply mul01|]; apply side_bounds; apply between1_ratio; auto.
Qed.

(** ** Derivatives *)

Lemma quad_grad_ok : forall nd el (n h : point2) k r i, proper2 h -> 0 <= i < 2 ->
  exists g, it_grad (quad_values ROps nd el n h k) r i = Ok g /\ partial2 (it_val (quad_values ROps nd el n h k)) i r g.
Proof.
  intros nd el [n0 n1] [h0 h1] k [r0 r1] i [H0 H1] Hi. simpl in H0, H1.
  assert (i = 0 \/ i = 1) as [-> | ->] by lia; eexists; (split; [reflexivity|]);
    unfold partial2, quad_values, quad_value, quad_f, quad_grad_0, quad_grad_1; simpl;
    destruct (quad_sign ROps k) as [s0 s1]; simpl; auto_derive; auto; field; auto.
Qed.

Lemma quad_hess_ok : forall nd el (n h : point2) k r i j, proper2 h -> 0 <= i < 2 -> 0 <= j < 2 ->
  exists w, it_hess (quad_values ROps nd el n h k) r i j = Ok w /\
    second2 (it_val (quad_values ROps nd el n h k)) i j r w.
Proof.
  intros nd el [n0 n1] [h0 h1] k r i j H Hi Hj.
  assert (G : exists D, (forall p, it_grad (quad_values ROps nd el (n0, n1) (h0, h1) k) p i = Ok (D p)) /\
              forall p, partial2 (it_val (quad_values ROps nd el (n0, n1) (h0, h1) k)) i p (D p)).
  { exists (fun p => match it_grad (quad_values ROps nd el (n0, n1) (h0, h1) k) p i with Ok g => g | _ => 0%R end).
    split; intros p; destruct (quad_grad_ok nd el (n0, n1) (h0, h1) k p i H Hi) as (g & -> & Hg); auto. }
  destruct G as (D & HD & GD). destruct r as [r0 r1]. destruct H as [H0 H1]. simpl in H0, H1.
  assert (i = 0 \/ i = 1) as [-> | ->] by lia; assert (j = 0 \/ j = 1) as [-> | ->] by lia; eexists;
    (split; [reflexivity|]); exists D; (split; [exact GD|]); unfold partial2; simpl;
    match goal with |- is_derive (fun t => D (@?p t)) _ _ => 
      apply is_derive_ext with (fun t => match it_grad (quad_values ROps nd el (n0, n1) (h0, h1) k) (p t) (ltac:(match type of HD with (forall q, it_grad _ q ?i = _) => exact i end)) with Ok g => g | _ => 0%R end);
        [intros t; rewrite HD; reflexivity|] end;
    unfold quad_values; simpl; unfold quad_grad_0, quad_grad_1, quad_hess_0_0, quad_hess_0_1, quad_hess_1_0, quad_hess_1_1; simpl;
    destruct (quad_sign ROps k) as [s0 s1]; simpl; auto_derive; auto; field; auto.
Qed.

Lemma quad_hess_symmetric : forall nd el (n h : point2) k r i j, proper2 h -> 0 <= i < 2 -> 0 <= j < 2 ->
  it_hess (quad_values ROps nd el n h k) r i j = it_hess (quad_values ROps nd el n h k) r j i.
Proof.
  intros nd el n h k r i j H Hi Hj.
  assert (i = 0 \/ i = 1) as [-> | ->] by lia; assert (j = 0 \/ j = 1) as [-> | ->] by lia; reflexivity.
Qed.

Lemma hex_grad_ok : forall nd el (n h : point3) k r i, proper3 h -> 0 <= i < 3 ->
  exists g, it_grad (hex_values ROps nd el n h k) r i = Ok g /\ partial3 (it_val (hex_values ROps nd el n h k)) i r g.
Proof.
  intros nd el [n0 n1 n2] [h0 h1 h2] k [r0 r1 r2] i (H0 & H1 & H2) Hi. simpl in H0, H1, H2.
  assert (i = 0 \/ i = 1 \/ i = 2) as [-> | [-> | ->]] by lia; eexists; (split; [reflexivity|]);
    unfold partial3, hex_values, hex_value, hex_f, hex_grad_0, hex_grad_1, hex_grad_2, hexf; simpl;
    destruct (hex_sign ROps k) as [s0 s1 s2]; simpl; auto_derive; auto; field; auto.
Qed.

Lemma partial3_unique : forall f i r v w, partial3 f i r v -> partial3 f i r w -> v = w.
Proof.
  intros f i r v w Hv Hw. apply is_derive_unique in Hv. apply is_derive_unique in Hw. congruence.
Qed.

Lemma second3_iff : forall f D i j r v, (forall p, partial3 f i p (D p)) -> second3 f i j r v <-> partial3 D j r v.
Proof.
  intros f D i j r v HD. split.
  - intros (D' & HD' & H). unfold partial3. eapply is_derive_ext; [|exact H].
    intros t. simpl. eapply partial3_unique; [apply HD'|apply HD].
  - intros H. exists D. auto.
Qed.

(** The factor of axis [m] in a corner function of a box. *)
Definition axis_factor (n h : point3) (k : Z) (r : point3) (m : Z) : R :=
  (1 - nth3 (hex_sign ROps k) m * (nth3 r m - nth3 n m) / nth3 h m)%R.

(** The true second derivative is the code's value times the factor of the third axis (1 on the diagonal). *)
Lemma hex_second_true : forall nd el (n h : point3) k r i j, proper3 h -> 0 <= i < 3 -> 0 <= j < 3 ->
  exists w, it_hess (hex_values ROps nd el n h k) r i j = Ok w /\
    second3 (it_val (hex_values ROps nd el n h k)) i j r
      (if i =? j then w else w * axis_factor n h k r (3 - i - j))%R.
Proof.
  intros nd el [n0 n1 n2] [h0 h1 h2] k r i j H Hi Hj.
  set (I := hex_values ROps nd el (@mkC3 ROps n0 n1 n2) (@mkC3 ROps h0 h1 h2) k).
  assert (G : exists D, (forall p, it_grad I p i = Ok (D p)) /\ forall p, partial3 (it_val I) i p (D p)).
  { exists (fun p => match it_grad I p i with Ok g => g | _ => 0%R end).
    split; intros p; destruct (hex_grad_ok nd el (@mkC3 ROps n0 n1 n2) (@mkC3 ROps h0 h1 h2) k p i H Hi) as (g & Eg & Hg);
      fold I in Eg, Hg; rewrite Eg; auto. }
  destruct G as (D & HD & GD). destruct r as [r0 r1 r2]. destruct H as (H0 & H1 & H2). simpl in H0, H1, H2.
  assert (i = 0 \/ i = 1 \/ i = 2) as [-> | [-> | ->]] by lia; assert (j = 0 \/ j = 1 \/ j = 2) as [-> | [-> | ->]] by lia;
    eexists; (split; [reflexivity|]); exists D; (split; [exact GD|]); unfold partial3; simpl;
    match goal with |- is_derive (fun t => D (@?p t)) _ _ => 
      apply is_derive_ext with (fun t => match it_grad I (p t) (ltac:(match type of HD with (forall q, it_grad _ q ?i = _) => exact i end)) with Ok g => g | _ => 0%R end);
        [intros t; rewrite HD; reflexivity|] end;
    unfold I, hex_values, axis_factor, hexf; simpl;
    unfold hex_grad_0, hex_grad_1, hex_grad_2, hexf, hex_hess_0_0, hex_hess_0_1, hex_hess_0_2, hex_hess_1_0, hex_hess_1_1,
           hex_hess_1_2, hex_hess_2_0, hex_hess_2_1, hex_hess_2_2; simpl;
    destruct (hex_sign ROps k) as [s0 s1 s2]; simpl; auto_derive; auto; field; auto.
Qed.

Lemma hex_hess_symmetric : forall nd el (n h : point3) k r i j, proper3 h -> 0 <= i < 3 -> 0 <= j < 3 ->
  it_hess (hex_values ROps nd el n h k) r i j = it_hess (hex_values ROps nd el n h k) r j i.
Proof.
  intros nd el [n0 n1 n2] [h0 h1 h2] k r i j (H0 & H1 & H2) Hi Hj. simpl in H0, H1, H2.
  assert (i = 0 \/ i = 1 \/ i = 2) as [-> | [-> | ->]] by lia; assert (j = 0 \/ j = 1 \/ j = 2) as [-> | [-> | ->]] by lia;
    try reflexivity; simpl; unfold hex_ddvalue; simpl; f_equal;
    unfold hex_hess_0_1, hex_hess_0_2, hex_hess_1_0, hex_hess_1_2, hex_hess_2_0, hex_hess_2_1; simpl; field; auto.
Qed.

Lemma hex_sign_nonzero : forall k m, In k corners3 -> nth3 (hex_sign ROps k) m <> 0%R.
Proof. intros k m Hk. cases3 Hk; destruct m as [|[]|]; simpl; lra. Qed.

Lemma hess_offdiag_nonzero : forall nd el (n h : point3) k r i j w, proper3 h -> In k corners3 ->
  0 <= i < 3 -> 0 <= j < 3 -> i <> j -> it_hess (hex_values ROps nd el n h k) r i j = Ok w -> w <> 0%R.
Proof.
  intros nd el [n0 n1 n2] [h0 h1 h2] k r i j w (H0 & H1 & H2) Hk Hi Hj Hn Hw. simpl in H0, H1, H2.
  assert (S : forall m, nth3 (hex_sign ROps k) m <> 0%R) by (intros; now apply hex_sign_nonzero).
  pose proof (S 0) as S0; pose proof (S 1) as S1; pose proof (S 2) as S2. simpl in S0, S1, S2.
  assert (i = 0 \/ i = 1 \/ i = 2) as [-> | [-> | ->]] by lia; assert (j = 0 \/ j = 1 \/ j = 2) as [-> | [-> | ->]] by lia;
    try lia; simpl in Hw; unfold hex_ddvalue in Hw; simpl in Hw; injection Hw as <-;
    unfold hex_hess_0_1, hex_hess_0_2, hex_hess_1_0, hex_hess_1_2, hex_hess_2_0, hex_hess_2_1; simpl;
    unfold Rdiv; repeat apply Rmult_integral_contrapositive_currified; auto; now apply Rinv_neq_0_compat.
Qed.

Lemma axis_factor_one : forall (n h : point3) k r m, proper3 h -> In k corners3 -> 0 <= m < 3 ->
  axis_factor n h k r m = 1%R <-> nth3 r m = nth3 n m.
Proof.
  intros n h k r m H Hk Hm. unfold axis_factor.
  assert (Hh : nth3 h m <> 0%R).
  { destruct H as (H0 & H1 & H2). assert (m = 0 \/ m = 1 \/ m = 2) as [-> | [-> | ->]] by lia; auto. }
  pose proof (hex_sign_nonzero k m Hk) as Hs. split.
  - intros E. assert (E0 : (nth3 (hex_sign ROps k) m * (nth3 r m - nth3 n m) / nth3 h m = 0)%R) by lra.
    unfold Rdiv in E0. apply Rmult_integral in E0. destruct E0 as [E0|E0].
    + apply Rmult_integral in E0. destruct E0; [contradiction|lra].
    + exfalso. revert E0. now apply Rinv_neq_0_compat.
  - intros ->. field; auto.
Qed.

Lemma second3_unique : forall f i j r v w, second3 f i j r v -> second3 f i j r w -> v = w.
Proof.
  intros f i j r v w (D & HD & H) Hw. apply (second3_iff _ _ _ _ _ _ HD) in Hw.
  eapply partial3_unique; eauto.
Qed.

Lemma hex_hess_right_iff : forall nd el (n h : point3) k r i j, proper3 h -> In k corners3 ->
  0 <= i < 3 -> 0 <= j < 3 ->
  exists w, it_hess (hex_values ROps nd el n h k) r i j = Ok w /\
    (second3 (it_val (hex_values ROps nd el n h k)) i j r w <-> i = j \/ nth3 r (3 - i - j) = nth3 n (3 - i - j)).
Proof.
  intros nd el n h k r i j H Hk Hi Hj. destruct (hex_second_true nd el n h k r i j H Hi Hj) as (w & Ew & Hs).
  exists w. split; auto. destruct (Z.eqb_spec i j) as [E|N].
  - split; auto.
  - assert (Hm : 0 <= 3 - i - j < 3) by lia. rewrite <- (axis_factor_one n h k r _ H Hk Hm).
    pose proof (hess_offdiag_nonzero _ _ _ _ _ _ _ _ _ H Hk Hi Hj N Ew) as Hw. split.
    + intros Hs2. right. pose proof (second3_unique _ _ _ _ _ _ Hs Hs2) as E.
      apply (Rmult_eq_reg_l w); auto. lra.
    + intros [E|E]; [contradiction|]. rewrite E, Rmult_1_r in Hs. exact Hs.
Qed.

(** ** is_in_range, min and max *)

Lemma range1_iff : forall s r n h : R, range1 ROps s r n h = true <-> (0 <= s * (r - n) / h < 1)%R.
Proof.
  intros s r n h. unfold range1. simpl. rewrite negb_true_iff, orb_false_iff. split.
  - intros [H1 H2]. split.
    + destruct (Rlt_bool_spec (s * (r - n) / h) 0); [discriminate|lra].
    + destruct (Rle_bool_spec 1 (s * (r - n) / h)); [discriminate|lra].
  - intros H. split; [apply Rlt_bool_false|apply Rle_bool_false]; lra.
Qed.

(** The test of an axis, at the low end (b = 0) or the high end (b = 1) of the edge. *)
Lemma range_low : forall a h x, (0 < h)%R -> range1 ROps 1%R x (a + 0 * h)%R h = true <-> (0 <= (x - a) / h < 1)%R.
Proof.
  intros a h x H. rewrite range1_iff. replace (1 * (x - (a + 0 * h)) / h)%R with ((x - a) / h)%R by (field; lra). tauto.
Qed.
Lemma range_high : forall a h x, (0 < h)%R -> range1 ROps (-1)%R x (a + 1 * h)%R h = true <-> (0 < (x - a) / h <= 1)%R.
Proof.
  intros a h x H. rewrite range1_iff. replace (-1 * (x - (a + 1 * h)) / h)%R with (1 - (x - a) / h)%R by (field; lra). lra.
Qed.

Lemma exists_corner2 : forall P : Z -> Prop, (exists k, In k corners2 /\ P k) <-> P 0 \/ P 1 \/ P 2 \/ P 3.
Proof.
  intros P. split.
  - intros (k & Hk & H). cases2 Hk; auto.
  - intros [H|[H|[H|H]]]; [exists 0|exists 1|exists 2|exists 3]; (split; [simpl; tauto|exact H]).
Qed.
Lemma exists_corner3 : forall P : Z -> Prop,
  (exists k, In k corners3 /\ P k) <-> P 0 \/ P 1 \/ P 2 \/ P 3 \/ P 4 \/ P 5 \/ P 6 \/ P 7.
Proof.
  intros P. split.
  - intros (k & Hk & H). cases3 Hk; auto 10.
  - intros [H|[H|[H|[H|[H|[H|[H|H]]]]]]]; [exists 0|exists 1|exists 2|exists 3|exists 4|exists 5|exists 6|exists 7];
      (split; [simpl; tauto|exact H]).
Qed.

Lemma quad_range_iff : forall (nd : Z -> Z) el (lo h r : point2), positive2 h ->
  (exists k, In k corners2 /\ it_range (quad_values ROps (nd k) el (corner2 lo h k) h k) r = true) <-> in_rect lo h r.
Proof.
  intros nd el [l0 l1] [h0 h1] [r0 r1] [H0 H1]. simpl in H0, H1. rewrite exists_corner2.
  unfold in_rect. rewrite !between1_ratio by (simpl; lra). simpl. unfold quad_in_range. simpl.
  rewrite !andb_true_iff, !range_low, !range_high by assumption. lra.
Qed.

Lemma hex_range_iff : forall (nd : Z -> Z) el (lo h r : point3), positive3 h ->
  (exists k, In k corners3 /\ it_range (hex_values ROps (nd k) el (corner3 lo h k) h k) r = true) <->
  between1 (cx lo) (cx h) (cx r) /\ between1 (cy lo) (cy h) (cy r).
Proof.
  intros nd el [l0 l1 l2] [h0 h1 h2] [r0 r1 r2] (H0 & H1 & H2). simpl in H0, H1, H2. rewrite exists_corner3.
  rewrite !between1_ratio by (simpl; lra). simpl. unfold hex_in_range. simpl.
  rewrite !andb_true_iff, !range_low, !range_high by assumption. lra.
Qed.

Lemma quad_box : forall nd el (lo h : point2) k, In k corners2 ->
  it_min (quad_values ROps nd el (corner2 lo h k) h k) = lo /\
  it_max (quad_values ROps nd el (corner2 lo h k) h k) = (fst lo + fst h, snd lo + snd h)%R.
Proof.
  intros nd el [l0 l1] [h0 h1] k Hk.
  assert (E1 : Req_bool 1 (Ropp 1) = false) by (apply Req_bool_false; lra).
  assert (E2 : Req_bool (Ropp 1) (Ropp 1) = true) by (apply Req_bool_true; lra).
  assert (E3 : Req_bool 1 1 = true) by (apply Req_bool_true; lra).
  assert (E4 : Req_bool (Ropp 1) 1 = false) by (apply Req_bool_false; lra).
  cases2 Hk; simpl; unfold quad_min, quad_max; simpl;
    rewrite ?E1, ?E2, ?E3, ?E4; split; f_equal; ring.
Qed.

Lemma hex_box : forall nd el (lo h : point3) k, In k corners3 ->
  it_min (hex_values ROps nd el (corner3 lo h k) h k) = lo /\
  it_max (hex_values ROps nd el (corner3 lo h k) h k) = @mkC3 ROps (cx lo + cx h)%R (cy lo + cy h)%R (cz lo + cz h)%R.
Proof.
  intros nd el [l0 l1 l2] [h0 h1 h2] k Hk.
  assert (E1 : Req_bool 1 (Ropp 1) = false) by (apply Req_bool_false; lra).
  assert (E2 : Req_bool (Ropp 1) (Ropp 1) = true) by (apply Req_bool_true; lra).
  assert (E3 : Req_bool 1 1 = true) by (apply Req_bool_true; lra).
  assert (E4 : Req_bool (Ropp 1) 1 = false) by (apply Req_bool_false; lra).
  cases3 Hk; simpl; unfold hex_min, hex_max; simpl; rewrite ?E1, ?E2, ?E3, ?E4; split; f_equal; ring.
Qed.
