(** From the decimal numbers of a file to the answers of a field on boxes in doubles. *)
From Coq Require Import ZArith List Bool Ascii String Reals Lra Lia.
From Flocq Require Import Core IEEE754.BinarySingleNaN.
From Verif Require Import Model.Outcome Model.Num Model.NumInst Model.PNDArray Model.Interpolator Model.Hexahedron Model.Mesh Model.PField Model.Stream Model.Vtk Model.Decimal.
From Verif Require Import Spec.Tensor Spec.Funcs Spec.Shape Spec.Fields Spec.Vtk Spec.Rounding Spec.Rounding3 Spec.Decimal Spec.FileRounding Spec.FileRounding3.
From Verif Require Import Proofs.OutcomeP Proofs.VtkP Proofs.VtkSpecP Proofs.VtkLoopP Proofs.VtkExamples Proofs.FloatEval3P Proofs.DecimalP Proofs.DecimalTextP Proofs.DecimalRoundP Proofs.DecimalSeriesP
  Proofs.FileRoundP.
Import ListNotations.
Local Open Scope R_scope.

(** ** Texts *)
Definition point_reads3 (p : point3) (q : c3 FOps) : Prop := small_reads (cx p) (cx q) /\ small_reads (cy p) (cy q) /\ small_reads (cz p) (cz q).

Lemma coords_double3 : forall (pts : list point3) xs, Forall2 (coords3 (O := ROps)) pts xs -> forall ds, Forall2 small_reads (List.concat xs) ds ->
  exists (qs : list (c3 FOps)) ys, Forall2 (coords3 (O := FOps)) qs ys /\ List.concat ys = ds /\ Forall2 point_reads3 pts qs.
Proof.
  induction 1 as [|p x pts xs Hx H IH]; cbn [List.concat app]; intros ds F.
  - inversion F; subst. exists [], []. repeat split; constructor.
  - unfold coords3 in Hx. subst x. cbn [app] in F.
    inversion F as [|? a ? d1 Fa F1]; subst. inversion F1 as [|? b ? d2 Fb F2]; subst. inversion F2 as [|? c ? d3 Fc F3]; subst.
    destruct (IH d3 F3) as (qs & ys & C & E & P). exists (@mkC3 FOps a b c :: qs), ([a; b; c] :: ys). split; [apply Forall2_cons; [reflexivity|exact C]|].
    split; [exact (f_equal (fun l => a :: b :: c :: l) E)|]. apply Forall2_cons; [split; [|split]; assumption|exact P].
Qed.

Lemma vtk_double3 : forall pts cells fields t, vtk_text (O := ROps) small_numeral coords3 pts cells fields t ->
  exists qs gs, vtk_text (O := FOps) denotes coords3 qs cells gs t /\ Forall2 point_reads3 pts qs /\ Forall2 field_reads fields gs.
Proof.
  intros pts cells fields t H. destruct H as [pre ph xs pt mid ch ct mid' th types tt rest H1 H2 H3 H4 H5 H6 H7 H8 H9 H10 H11 H12 H13 H14 H15 H16 H17 H18 H19].
  destruct (tokens_double _ _ H4) as (ds & T & Fd). destruct (coords_double3 _ _ H3 ds Fd) as (qs & ys & C & <- & P). destruct (data_double _ _ _ H15) as (gs & D & F).
  pose proof (F2_length _ _ _ _ _ P) as L. exists qs, gs. split; [|split; assumption].
  apply VtkText with (xs := ys) (types := types); try assumption.
  - rewrite <- L. exact H2.
  - exact (separated_same _ _ _ _ _ L H6).
  - rewrite <- L. exact H16.
Qed.

(** ** Meshes *)
Local Notation RLO := rounded_point3.
Local Notation RH := rounded_edges3.

Lemma c3_eq (a b c a' b' c' : R) : a = a' -> b = b' -> c = c' -> @mkC3 ROps a b c = @mkC3 ROps a' b' c'.
Proof. intros -> -> ->. reflexivity. Qed.

Lemma rounded_box pts cell lo h : apart3 pts -> cell_box pts cell lo h -> cell_box (map rounded_point3 pts) cell (RLO lo) (RH lo h).
Proof.
  intros (Ax & Ay & Az) [(Px & Py & Pz) C].
  assert (G : forall k, In k corners3 -> In (corner3 lo h k) pts) by (intros k Hk; destruct (C k Hk) as (n & _ & E); exact (vget_member _ _ _ _ E)).
  pose proof (G 0%Z ltac:(simpl; auto)) as G0. pose proof (G 6%Z ltac:(simpl; auto 10)) as G6. unfold corner3 in G0, G6. cbn [unit3 cx cy cz] in G0, G6.
  destruct lo as [x y z], h as [dx dy dz]. cbn [cx cy cz] in *. change (num ROps) with R in *.
  assert (G0' : In (@mkC3 ROps x y z) pts) by (rewrite (c3_eq x y z (x + 0 * dx) (y + 0 * dy) (z + 0 * dz)) by ring; exact G0).
  assert (G6' : In (@mkC3 ROps (x + dx) (y + dy) (z + dz)) pts) by (rewrite (c3_eq (x + dx) (y + dy) (z + dz) (x + 1 * dx) (y + 1 * dy) (z + 1 * dz)) by ring; exact G6).
  split.
  - unfold positive3, rounded_edges3. cbn [cx cy cz]. split; [|split]; apply Rlt_Rminus.
    + apply Ax; [exact (in_map cx _ _ G0')|exact (in_map cx _ _ G6')|lra].
    + apply Ay; [exact (in_map cy _ _ G0')|exact (in_map cy _ _ G6')|lra].
    + apply Az; [exact (in_map cz _ _ G0')|exact (in_map cz _ _ G6')|lra].
  - intros k Hk. destruct (C k Hk) as (n & E1 & E2). exists n. split; [exact E1|]. rewrite (vget_image _ _ rounded_point3 _ _ _ E2). f_equal.
    assert (S : forall a d c : R, c = 0 \/ c = 1 -> to_double (a + c * d) = to_double a + c * (to_double (a + d) - to_double a)).
    { intros a d c [-> | ->]; [rewrite !Rmult_0_l, !Rplus_0_r; reflexivity|rewrite !Rmult_1_l; ring]. }
    unfold rounded_point3, corner3, rounded_edges3. cbn [cx cy cz].
    simpl in Hk. destruct Hk as [<-|[<-|[<-|[<-|[<-|[<-|[<-|[<-|[]]]]]]]]]; cbn [unit3 cx cy cz]; apply c3_eq; apply S; auto.
Qed.

Lemma rounded_box_mesh : forall pts cells, box_mesh pts cells -> apart3 pts -> box_mesh (map rounded_point3 pts) cells.
Proof.
  intros pts cells (H1 & H2 & H3 & H4) A. split; [exact H1|]. split; [|split; [|exact H4]].
  - eapply Forall_impl; [|exact H2]. intros cell (lo & h & Hc). exists (RLO lo), (RH lo h). exact (rounded_box _ _ _ _ A Hc).
  - eapply Z.le_trans; [|exact H3].
    assert (E1 : map cx (map rounded_point3 pts) = map to_double (map cx pts)) by (rewrite !map_map; apply map_ext; reflexivity).
    assert (E2 : map cy (map rounded_point3 pts) = map to_double (map cy pts)) by (rewrite !map_map; apply map_ext; reflexivity).
    assert (E3 : map cz (map rounded_point3 pts) = map to_double (map cz pts)) by (rewrite !map_map; apply map_ext; reflexivity).
    rewrite E1, E2, E3. pose proof (distinct_map to_double (map cx pts)). pose proof (distinct_map to_double (map cy pts)). pose proof (distinct_map to_double (map cz pts)).
    assert (N : forall l, (0 <= distinct l)%Z) by (intros; apply Nat2Z.is_nonneg).
    pose proof (N (map to_double (map cx pts))). pose proof (N (map to_double (map cy pts))). pose proof (N (map to_double (map cz pts))).
    apply Z.mul_le_mono_nonneg; [lia|lia|apply Z.mul_nonneg_nonneg; lia|]. apply Z.mul_le_mono_nonneg; lia.
Qed.

Lemma box_unique pts cell lo h lo' h' : cell_box pts cell lo h -> cell_box pts cell lo' h' -> lo' = lo /\ h' = h.
Proof.
  intros [_ C] [_ C'].
  assert (G : forall k, In k corners3 -> corner3 lo h k = corner3 lo' h' k).
  { intros k Hk. destruct (C k Hk) as (n & E1 & E2). destruct (C' k Hk) as (n' & E1' & E2'). congruence. }
  pose proof (G 0%Z ltac:(simpl; auto)) as G0. pose proof (G 6%Z ltac:(simpl; auto 10)) as G6. unfold corner3 in G0, G6. cbn [unit3 cx cy cz] in G0, G6.
  injection G0 as G0 G0' G0''. injection G6 as G6 G6' G6''. destruct lo as [a1 a2 a3], h as [b1 b2 b3], lo' as [c1 c2 c3], h' as [d1 d2 d3]. cbn [cx cy cz] in *. split; apply c3_eq; lra.
Qed.

Lemma rounded_layer pts cells : box_mesh pts cells -> apart3 pts -> one_layer pts cells -> one_layer (map rounded_point3 pts) cells.
Proof.
  intros (_ & H & _) A (z & dz & L). exists (to_double z), (to_double (z + dz) - to_double z). intros cell lo' h' Hc Hb.
  rewrite Forall_forall in H. destruct (H cell Hc) as (lo & h & E). destruct (L cell lo h Hc E) as [E1 E2].
  destruct (box_unique _ _ _ _ _ _ (rounded_box _ _ _ _ A E) Hb) as [-> ->]. cbn [rounded_point3 rounded_edges3 cz]. rewrite E1, E2. auto.
Qed.

Lemma between_rounded a d (z : f64) : 0 < d -> 0 < to_double (a + d) - to_double a -> between1 a d (value z) -> between1 (to_double a) (to_double (a + d) - to_double a) (value z).
Proof.
  intros Hd Hd' (t & Ht & E). rewrite <- (to_double_value z). set (w := to_double (a + d) - to_double a) in *. exists ((to_double (value z) - to_double a) / w).
  assert (to_double a <= to_double (value z)) by (apply to_double_mono; rewrite E; pose proof (Rmult_le_pos t d); lra).
  assert (to_double (value z) <= to_double (a + d)) by (apply to_double_mono; rewrite E; pose proof (Rmult_le_compat_r d t 1); lra).
  split; [split|].
  - apply Rmult_le_pos; [lra|]. apply Rlt_le, Rinv_0_lt_compat. exact Hd'.
  - apply (Rmult_le_reg_r w); [exact Hd'|]. unfold Rdiv. rewrite Rmult_assoc, Rinv_l by lra. unfold w. lra.
  - field. lra.
Qed.
Lemma rounded_in3 pts cells (r : c3 FOps) : apart3 pts -> in_mesh3 pts cells (point_value3 r) -> in_mesh3 (map rounded_point3 pts) cells (point_value3 r).
Proof.
  intros A (cell & lo & h & Hin & Hc & Hr). exists cell, (RLO lo), (RH lo h). split; [exact Hin|]. pose proof (rounded_box _ _ _ _ A Hc) as Hc'. split; [exact Hc'|].
  destruct Hc as [(Px & Py & Pz) _]. destruct Hc' as [(Px' & Py' & Pz') _]. destruct Hr as (Hx & Hy & Hz).
  unfold in_box, rounded_point3, rounded_edges3, point_value3 in *. cbn [cx cy cz] in *. split; [|split]; apply between_rounded; assumption.
Qed.

(** ** The interpolant *)
Definition upper (v : Z -> R) : Z -> R := fun j => v (4 + j)%Z.
Definition blend3 (v : Z -> R) (s t u : R) : R := (1 - u) * blend v s t + u * blend (upper v) s t.
Lemma trilinear_blend lo h v r : trilinear lo h v r = blend3 v ((cx r - cx lo) / cx h) ((cy r - cy lo) / cy h) ((cz r - cz lo) / cz h).
Proof. reflexivity. Qed.
Definition total3 (v : Z -> R) : R := rsum (fun k => Rabs (v k)) corners3.
Lemma total3_eq v : total3 v = total v + total (upper v).
Proof. unfold total3, total, upper, rsum, corners3, corners2. cbn [fold_right Z.add Pos.add Pos.succ]. ring. Qed.
Lemma total_pos v : 0 <= total v.
Proof. rewrite total_eq. pose proof (Rabs_pos (v 0%Z)). pose proof (Rabs_pos (v 1%Z)). pose proof (Rabs_pos (v 2%Z)). pose proof (Rabs_pos (v 3%Z)). lra. Qed.

Lemma blend3_bound v s t u : -1/8 <= s <= 9/8 -> -1/8 <= t <= 9/8 -> -1/8 <= u <= 9/8 -> Rabs (blend3 v s t u) <= 729/512 * total3 v.
Proof.
  intros Hs Ht Hu. rewrite total3_eq. unfold blend3. eapply Rle_trans; [apply Rabs_triang|].
  assert (B : forall w, Rabs (blend w s t) <= 81/64 * total w).
  { intros w. replace (81/64) with (9/8 * (9/8)) by lra. apply blend_bound; apply Rabs_le; lra. }
  assert (Rabs ((1 - u) * blend v s t) <= 9/8 * (81/64 * total v)) by (apply Rabs_prod_le; [apply Rabs_le; lra|apply B]).
  assert (Rabs (u * blend (upper v) s t) <= 9/8 * (81/64 * total (upper v))) by (apply Rabs_prod_le; [apply Rabs_le; lra|apply B]).
  lra.
Qed.

Lemma blend3_moved v s t u s' t' u' dx dy dz : Rabs (s - s') <= 9/8 * dx -> Rabs (t - t') <= 9/8 * dy -> Rabs (u - u') <= 9/8 * dz ->
  0 <= dx -> 0 <= dy -> 0 <= dz -> -1/8 <= s' <= 9/8 -> -1/8 <= t' <= 9/8 -> -1/8 <= u' <= 9/8 ->
  Rabs (blend3 v s t u - blend3 v s' t' u') <= 2 * ((1 + dx) * (1 + dy) * (1 + dz) - 1) * total3 v.
Proof.
  intros H1 H2 H3 P1 P2 P3 Hs Ht Hu. rewrite total3_eq.
  set (D := dx + dy + dx * dy).
  assert (PD : 0 <= D) by (unfold D; pose proof (Rmult_le_pos _ _ P1 P2); lra).
  assert (M : forall w, Rabs (blend w s t - blend w s' t') <= 81/64 * D * total w).
  { intros w. eapply Rle_trans; [exact (blend_moved w _ _ _ _ _ _ H1 H2 Hs Ht)|]. apply Rmult_le_compat_r; [apply total_pos|]. unfold D. lra. }
  assert (B : forall w, Rabs (blend w s' t') <= 81/64 * total w).
  { intros w. replace (81/64) with (9/8 * (9/8)) by lra. apply blend_bound; apply Rabs_le; lra. }
  assert (S : forall a b, Rabs (a - b) <= Rabs a + Rabs b) by (intros a b; unfold Rminus; eapply Rle_trans; [apply Rabs_triang|rewrite Rabs_Ropp; apply Rle_refl]).
  set (F0 := blend v s' t') in *. set (F4 := blend (upper v) s' t') in *.
  assert (E : blend3 v s t u - blend3 v s' t' u' = (u - u') * (F4 - F0) + (1 - u') * (blend v s t - F0) + u' * (blend (upper v) s t - F4) +
    (u - u') * ((blend (upper v) s t - F4) - (blend v s t - F0))) by (unfold blend3, F0, F4; ring).
  rewrite E. pose proof (M v) as M0. pose proof (M (upper v)) as M4. pose proof (B v) as B0. pose proof (B (upper v)) as B4. fold F0 in M0, B0. fold F4 in M4, B4.
  set (A0 := blend v s t - F0) in *. set (A4 := blend (upper v) s t - F4) in *. set (T := total v + total (upper v)).
  assert (PT : 0 <= T) by (unfold T; pose proof (total_pos v); pose proof (total_pos (upper v)); lra).
  assert (Q1 : Rabs ((u - u') * (F4 - F0)) <= 9/8 * dz * (81/64 * T)) by (apply Rabs_prod_le; [exact H3|eapply Rle_trans; [apply S|]; unfold T; lra]).
  assert (Q2 : Rabs ((1 - u') * A0) <= 9/8 * (81/64 * D * total v)) by (apply Rabs_prod_le; [apply Rabs_le; lra|exact M0]).
  assert (Q3 : Rabs (u' * A4) <= 9/8 * (81/64 * D * total (upper v))) by (apply Rabs_prod_le; [apply Rabs_le; lra|exact M4]).
  assert (Q4 : Rabs ((u - u') * (A4 - A0)) <= 9/8 * dz * (81/64 * D * T)) by (apply Rabs_prod_le; [exact H3|eapply Rle_trans; [apply S|]; unfold T; lra]).
  eapply Rle_trans; [apply Rabs_triang|]. eapply Rle_trans; [apply Rplus_le_compat_r, Rabs_triang|]. eapply Rle_trans; [apply Rplus_le_compat_r, Rplus_le_compat_r, Rabs_triang|].
  assert (X : 729/512 * (dz + D + dz * D) * T <= 2 * ((1 + dx) * (1 + dy) * (1 + dz) - 1) * T).
  { apply Rmult_le_compat_r; [exact PT|]. replace ((1 + dx) * (1 + dy) * (1 + dz) - 1) with (dz + D + dz * D) by (unfold D; ring). pose proof (Rmult_le_pos _ _ P3 PD). lra. }
  eapply Rle_trans; [|exact X].
  replace (729/512 * (dz + D + dz * D) * T) with (9/8 * dz * (81/64 * T) + 9/8 * (81/64 * D * total v) + 9/8 * (81/64 * D * total (upper v)) + 9/8 * dz * (81/64 * D * T)) by (unfold T; field).
  lra.
Qed.

Lemma box_moved v lo h r : positive3 h -> positive3 (RH lo h) -> near_box (RLO lo) (RH lo h) r ->
  Rabs (trilinear lo h v r - trilinear (RLO lo) (RH lo h) v r) <= 2 * displacement3 lo h * total3 v /\
  ((-1/8 <= (cx r - cx (RLO lo)) / cx (RH lo h) <= 9/8) /\ (-1/8 <= (cy r - cy (RLO lo)) / cy (RH lo h) <= 9/8) /\ (-1/8 <= (cz r - cz (RLO lo)) / cz (RH lo h) <= 9/8)).
Proof.
  intros (Hx & Hy & Hz) (Hx' & Hy' & Hz') (Nx & Ny & Nz).
  destruct (position_moved _ _ _ Hx Hx' Nx) as [Dx Sx]. destruct (position_moved _ _ _ Hy Hy' Ny) as [Dy Sy]. destruct (position_moved _ _ _ Hz Hz' Nz) as [Dz Sz].
  split; [|split; [|split]; assumption]. rewrite !trilinear_blend.
  exact (blend3_moved v _ _ _ _ _ _ _ _ _ Dx Dy Dz (displacement_pos _ _ Hx) (displacement_pos _ _ Hy) (displacement_pos _ _ Hz) Sx Sy Sz).
Qed.

(** ** From the file to the answers *)
Local Notation HV := (hex_vkind FOps).

Lemma points_read3 pts qs : Forall2 point_reads3 pts qs -> Forall finite_point3 qs /\ map point_value3 qs = map rounded_point3 pts.
Proof.
  induction 1 as [|p q pts qs ([[F1 V1] _] & [[F2 V2] _] & [[F3 V3] _]) H [IH1 IH2]]; [split; [constructor|reflexivity]|].
  split; [apply Forall_cons; [split; [|split]; assumption|exact IH1]|].
  cbn [map]. f_equal; [|exact IH2]. unfold point_value3, rounded_point3. apply c3_eq; assumption.
Qed.

(** The corner values. *)
Lemma corner_values xs ds cell v' : Forall2 small_reads xs ds -> cell_data (map value ds) cell corners3 v' ->
  exists v, cell_data xs cell corners3 v /\ forall k, In k corners3 -> v' k = to_double (v k).
Proof.
  intros H Hv. destruct (data_read _ _ H) as (_ & E & _).
  assert (C : forall k, exists x, In k corners3 -> exists n, vget cell k = Ok n /\ vget xs n = Ok x /\ v' k = to_double x).
  { intros k. destruct (in_dec Z.eq_dec k corners3) as [Hk|Hk]; [|exists 0; intros; contradiction].
    destruct (Hv k Hk) as (n & E1 & E2). rewrite E in E2. unfold vget in E2. destruct (0 <=? n)%Z eqn:En; [|discriminate]. rewrite nth_error_map in E2.
    destruct (nth_error xs (Z.to_nat n)) as [x|] eqn:Ex; [|discriminate]. injection E2 as E2. exists x. intros _. exists n. split; [exact E1|]. split; [|symmetry; exact E2]. unfold vget. rewrite En, Ex. reflexivity. }
  destruct (C 0%Z) as (x0 & H0). destruct (C 1%Z) as (x1 & H1). destruct (C 2%Z) as (x2 & H2). destruct (C 3%Z) as (x3 & H3).
  destruct (C 4%Z) as (x4 & H4). destruct (C 5%Z) as (x5 & H5). destruct (C 6%Z) as (x6 & H6). destruct (C 7%Z) as (x7 & H7).
  exists (fun k => if Z.eqb k 0 then x0 else if Z.eqb k 1 then x1 else if Z.eqb k 2 then x2 else if Z.eqb k 3 then x3 else
                   if Z.eqb k 4 then x4 else if Z.eqb k 5 then x5 else if Z.eqb k 6 then x6 else x7).
  assert (G : forall k, In k corners3 -> exists n, vget cell k = Ok n /\ vget xs n = Ok (if Z.eqb k 0 then x0 else if Z.eqb k 1 then x1 else if Z.eqb k 2 then x2 else if Z.eqb k 3 then x3 else
                   if Z.eqb k 4 then x4 else if Z.eqb k 5 then x5 else if Z.eqb k 6 then x6 else x7) /\ v' k = to_double (if Z.eqb k 0 then x0 else if Z.eqb k 1 then x1 else if Z.eqb k 2 then x2 else if Z.eqb k 3 then x3 else
                   if Z.eqb k 4 then x4 else if Z.eqb k 5 then x5 else if Z.eqb k 6 then x6 else x7)).
  { intros k Hk. pose proof Hk as Hk'. simpl in Hk'. destruct Hk' as [<-|[<-|[<-|[<-|[<-|[<-|[<-|[<-|[]]]]]]]]]; cbn [Z.eqb Pos.eqb]; auto. }
  split; intros k Hk; destruct (G k Hk) as (n & A & B & D); [exists n; split; assumption|exact D].
Qed.

Lemma totals_moved v v' : (forall k, In k corners3 -> v' k = to_double (v k)) -> total3 (fun k => v' k - v k) <= unit_roundoff * total3 v + 8 * tiny /\
  total3 v' <= (1 + unit_roundoff) * total3 v + 8 * tiny.
Proof.
  intros H.
  assert (D : forall k, In k corners3 -> Rabs (v' k - v k) <= unit_roundoff * Rabs (v k) + tiny) by (intros k Hk; rewrite (H k Hk); apply to_double_abs_error).
  assert (D' : forall k, In k corners3 -> Rabs (v' k) <= Rabs (v k) + (unit_roundoff * Rabs (v k) + tiny)).
  { intros k Hk. replace (v' k) with (v k + (v' k - v k)) by ring. eapply Rle_trans; [apply Rabs_triang|]. apply Rplus_le_compat_l. exact (D k Hk). }
  rewrite !total3_eq, !total_eq. unfold upper. cbn [Z.add Pos.add Pos.succ].
  pose proof (D 0%Z ltac:(simpl; auto)). pose proof (D 1%Z ltac:(simpl; auto)). pose proof (D 2%Z ltac:(simpl; auto)). pose proof (D 3%Z ltac:(simpl; auto)).
  pose proof (D 4%Z ltac:(simpl; auto 10)). pose proof (D 5%Z ltac:(simpl; auto 10)). pose proof (D 6%Z ltac:(simpl; auto 10)). pose proof (D 7%Z ltac:(simpl; auto 10)).
  pose proof (D' 0%Z ltac:(simpl; auto)). pose proof (D' 1%Z ltac:(simpl; auto)). pose proof (D' 2%Z ltac:(simpl; auto)). pose proof (D' 3%Z ltac:(simpl; auto)).
  pose proof (D' 4%Z ltac:(simpl; auto 10)). pose proof (D' 5%Z ltac:(simpl; auto 10)). pose proof (D' 6%Z ltac:(simpl; auto 10)). pose proof (D' 7%Z ltac:(simpl; auto 10)).
  split; lra.
Qed.

Lemma file_value3 : forall pts cells fields t fuel name,
  vtk_text (O := ROps) small_numeral coords3 pts cells fields t -> box_mesh pts cells -> one_layer pts cells -> apart3 pts ->
  resolved3 (map rounded_point3 pts) ->
  In name (map fst fields) -> Forall (fun f => (List.length pts <= List.length (snd f))%nat) fields -> (List.length t < fuel)%nat ->
  exists bo k p data, body_read_vtk HV double_scanner fuel (Some t) (body_new HV) = RRet bo tt /\
    find_scalar_field HV bo (string_of_list_ascii name) = Ok k /\ nth_error (bo_fields HV bo) k = Some p /\
    nth_error fields k = Some (name, data) /\ (forall k' f, (k' < k)%nat -> nth_error fields k' = Some f -> fst f <> name) /\
    forall r, finite_point3 r -> in_mesh3 pts cells (point_value3 r) ->
    exists a cell lo h v, answers3 (bo_mesh HV bo) p QVal r a /\ finite a /\ In cell cells /\ cell_box pts cell lo h /\ cell_data data cell corners3 v /\
      near_box (rounded_point3 lo) (rounded_edges3 lo h) (point_value3 r) /\
      Rabs (value a - trilinear lo h v (point_value3 r)) <= (35 * unit_roundoff + 2 * displacement3 lo h) * rsum (fun k => Rabs (v k)) corners3 + 21 * tiny.
Proof.
  intros pts cells fields t fuel name Ht Hr Hl A Rs Hin Hlen Hf. destruct (vtk_double3 _ _ _ _ Ht) as (qs & gs & Ht' & Pp & Pf).
  destruct (points_read3 _ _ Pp) as [Fq Vq]. pose proof (rounded_box_mesh _ _ Hr A) as Hr'. pose proof (rounded_layer _ _ Hr A Hl) as Hl'.
  destruct (reads64_3 qs cells) as (m & Hm & Hnew); [exact Fq|rewrite Vq; exact Hr'|rewrite Vq; exact Rs|].
  destruct (read3_ok FOps denotes double_scanner qs cells gs t m fuel double_reader Ht' Hm Hf) as (ps & E & Hps & Hnm & _).
  assert (Hin' : In name (map fst gs)).
  { assert (Eg : map fst gs = map fst fields) by (clear - Pf; induction Pf as [|f g l l' [X _] H IH]; [reflexivity|cbn [map]; f_equal; [symmetry; exact X|exact IH]]). rewrite Eg. exact Hin. }
  assert (Hk : exists k, find_scalar_field HV (mkBody HV m ps) (string_of_list_ascii name) = Ok k).
  { unfold find_scalar_field. destruct (find_from_spec ps 0 (string_of_list_ascii name)) as [(k & _ & _ & _ & _ & H)|[H _]].
    - exists (0 + k)%nat. exact H.
    - exfalso. apply in_map_iff in Hin'. destruct Hin' as (f & Ef & Hi). apply In_nth_error in Hi. destruct Hi as (k & Hk).
      destruct (Forall2_nth' _ _ _ _ _ Hnm k f Hk) as (p & Hp' & Hname & _). rewrite Forall_forall in H.
      apply (H p (nth_error_In _ _ Hp')). rewrite Hname, Ef. reflexivity. }
  destruct Hk as (k & Hk). destruct (proj1 (find_ok HV _ _ _) Hk) as [(p & Hp' & Hname) Hfirst]. cbn [bo_fields] in *.
  destruct (Forall2_nth _ _ _ _ _ Hps k p Hp') as ((name' & ds) & Hfd & Hn). cbn [fst snd] in Hn.
  destruct (Forall2_nth _ _ _ _ _ Hnm k p Hp') as (f' & Hfd' & Hname' & _).
  assert (name' = name). { assert (Ef := eq_trans (eq_sym Hfd) Hfd'). injection Ef as <-. apply string_inj. cbn [fst] in Hname'. congruence. } subst name'.
  destruct (Forall2_nth _ _ _ _ _ Pf k _ Hfd) as ((name' & data) & Hdd & [En Pd]). cbn [fst snd] in En, Pd. subst name'.
  exists (mkBody HV m ps), k, p, data. split; [exact E|]. split; [exact Hk|]. split; [exact Hp'|]. split; [exact Hdd|]. split.
  - intros k' f Hlt Hf' Ef. destruct (Forall2_nth' _ _ _ _ _ Pf k' f Hf') as (g & Hg & [Eg _]). destruct (Forall2_nth' _ _ _ _ _ Hnm k' g Hg) as (p' & Hpp & Hn' & _).
    apply (Hfirst k' p' Hlt Hpp). transitivity (string_of_list_ascii (fst g)); [exact Hn'|]. f_equal. transitivity (fst f); [symmetry; exact Eg|exact Ef].
  - intros r Fr Hi. cbn [bo_mesh]. destruct (data_read _ _ Pd) as (Fd & Vd & Bd).
    assert (Ld : (List.length qs <= List.length ds)%nat).
    { rewrite Forall_forall in Hlen. specialize (Hlen _ (nth_error_In _ _ Hdd)). cbn [snd] in Hlen. pose proof (F2_length _ _ _ _ _ Pp) as L1. pose proof (F2_length _ _ _ _ _ Pd) as L2. exact (eq_ind _ (fun n => (n <= List.length ds)%nat) (eq_ind _ (fun n => (List.length pts <= n)%nat) Hlen _ L2) _ L1). }
    destruct (Hnew ds (string_of_list_ascii name) Ld) as (p0 & Ep & Hon). assert (p0 = p) by congruence. subst p0.
    assert (H64 : field64_3 qs cells ds m p) by (unfold field64_3; rewrite Vq; repeat (split; [assumption|]); assumption).
    destruct (value_error3 qs cells ds m p r H64) as (a & cell & lo' & h' & v' & Ha & Fa & (Hc & Hbox & Hnear & Hv) & He).
    { rewrite Vq. exact Hl'. }
    { exact Fr. }
    { rewrite Vq. exact (rounded_in3 _ _ _ A Hi). }
    { exact Bd. }
    rewrite Vq in Hbox. destruct Hr as (_ & Hcells & _). rewrite Forall_forall in Hcells. destruct (Hcells cell Hc) as (lo & h & Hex).
    destruct (box_unique _ _ _ _ _ _ (rounded_box _ _ _ _ A Hex) Hbox) as [-> ->].
    destruct Hbox as [Hpos' _]. pose proof Hex as [Hpos _].
    destruct (corner_values data ds cell v' Pd Hv) as (v & Hv1 & Hv2). destruct (totals_moved v v' Hv2) as [Ht0 Ht1].
    destruct (box_moved v lo h (point_value3 r) Hpos Hpos' Hnear) as [Hm1 (S1 & S2 & S3)].
    exists a, cell, lo, h, v. split; [exact Ha|]. split; [exact Fa|]. split; [exact Hc|]. split; [exact Hex|]. split; [exact Hv1|]. split; [exact Hnear|].
    change (rsum (fun k => Rabs (v k)) corners3) with (total3 v). change (rsum (fun k => Rabs (v' k)) corners3) with (total3 v') in He.
    assert (U : 0 < unit_roundoff <= 1/10000) by (split; [apply bpow_gt_0|]; apply Rle_trans with (bpow radix2 (-20)); [apply bpow_le; discriminate|cbn; lra]).
    assert (T : 0 < tiny) by apply bpow_gt_0.
    assert (Tv : 0 <= total3 v) by (rewrite total3_eq; pose proof (total_pos v); pose proof (total_pos (upper v)); lra).
    set (B := trilinear lo h v (point_value3 r)) in *. set (B1 := trilinear (RLO lo) (RH lo h) v (point_value3 r)) in *. set (B2 := trilinear (RLO lo) (RH lo h) v' (point_value3 r)) in *.
    assert (Hb1 : Rabs (B2 - B1) <= 729/512 * (unit_roundoff * total3 v + 8 * tiny)).
    { unfold B1, B2. rewrite !trilinear_blend. revert S1 S2 S3. generalize ((cx (point_value3 r) - cx (RLO lo)) / cx (RH lo h)) ((cy (point_value3 r) - cy (RLO lo)) / cy (RH lo h)) ((cz (point_value3 r) - cz (RLO lo)) / cz (RH lo h)).
      intros s w u S1 S2 S3. replace (blend3 v' s w u - blend3 v s w u) with (blend3 (fun k => v' k - v k) s w u) by (unfold blend3, blend, upper; ring).
      eapply Rle_trans; [exact (blend3_bound _ _ _ _ S1 S2 S3)|]. apply Rmult_le_compat_l; [lra|exact Ht0]. }
    replace (value a - B) with ((value a - B2) + (B2 - B1) + - (B - B1)) by ring.
    eapply Rle_trans; [apply Rabs_triang|]. rewrite Rabs_Ropp. eapply Rle_trans; [apply Rplus_le_compat_r, Rabs_triang|].
    assert (33 * unit_roundoff * total3 v' <= 33 * unit_roundoff * ((1 + unit_roundoff) * total3 v + 8 * tiny)) by (apply Rmult_le_compat_l; [lra|exact Ht1]).
    assert (P1 : unit_roundoff * unit_roundoff * total3 v <= 1/10000 * (unit_roundoff * total3 v)).
    { replace (1/10000 * (unit_roundoff * total3 v)) with (1/10000 * unit_roundoff * total3 v) by ring. apply Rmult_le_compat_r; [exact Tv|]. apply Rmult_le_compat_r; lra. }
    assert (P2 : unit_roundoff * tiny <= 1/10000 * tiny) by (apply Rmult_le_compat_r; lra).
    assert (P3 : 0 <= unit_roundoff * total3 v) by (apply Rmult_le_pos; lra).
    replace (33 * unit_roundoff * ((1 + unit_roundoff) * total3 v + 8 * tiny)) with (33 * (unit_roundoff * total3 v) + 33 * (unit_roundoff * unit_roundoff * total3 v) + 264 * (unit_roundoff * tiny)) in * by ring.
    replace ((35 * unit_roundoff + 2 * displacement3 lo h) * total3 v + 21 * tiny) with (35 * (unit_roundoff * total3 v) + 2 * displacement3 lo h * total3 v + 21 * tiny) by ring.
    lra.
Qed.
