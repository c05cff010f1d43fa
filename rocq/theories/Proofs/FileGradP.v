(** Derivatives of a field read from a file of decimal numbers. *)
From Coq Require Import ZArith List Bool Ascii String Reals Lra Lia.
From Flocq Require Import Core IEEE754.BinarySingleNaN.
From Verif Require Import Model.Outcome Model.Num Model.NumInst Model.PNDArray Model.Interpolator Model.Quad Model.Mesh Model.PField Model.Stream Model.Vtk Model.Decimal.
From Verif Require Import Spec.Tensor Spec.Funcs Spec.Shape Spec.Fields Spec.Vtk Spec.Rounding Spec.Decimal Spec.FileRounding.
From Verif Require Import Proofs.OutcomeP Proofs.RectP Proofs.SlopeP Proofs.VtkP Proofs.VtkSpecP Proofs.VtkLoopP Proofs.VtkExamples Proofs.FloatEvalP Proofs.DecimalP Proofs.DecimalTextP Proofs.DecimalRoundP Proofs.DecimalSeriesP Proofs.FileRoundP.
Import ListNotations.
Local Open Scope R_scope.
Local Notation QV := (quad_vkind FOps).

(** ** Quotients *)
Lemma edge_moved a h : 0 < h -> Rabs (to_double (a + h) - to_double a - h) <= displacement a h * h.
Proof.
  intros H. unfold displacement, Rdiv. rewrite Rmult_assoc, Rinv_l, Rmult_1_r by lra.
  pose proof (to_double_abs_error a) as A. pose proof (to_double_abs_error (a + h)) as B.
  replace (to_double (a + h) - to_double a - h) with ((to_double (a + h) - (a + h)) + - (to_double a - a)) by ring.
  eapply Rle_trans; [apply Rabs_triang|]. rewrite Rabs_Ropp. lra.
Qed.

Lemma quotient_moved G G' h h' d B e : 0 < h -> 0 < h' -> Rabs (h' - h) <= d * h -> Rabs G <= B -> Rabs (G - G') <= e ->
  Rabs (G / h - G' / h') <= (B * d + e) / h'.
Proof.
  intros Hh Hh' Hd HB He. assert (Pi : 0 < / h') by (apply Rinv_0_lt_compat; exact Hh').
  replace (G / h - G' / h') with ((G * ((h' - h) * / h) + (G - G')) * / h') by (field; split; lra).
  unfold Rdiv. rewrite Rabs_mult, (Rabs_pos_eq (/ h')) by lra. apply Rmult_le_compat_r; [lra|].
  eapply Rle_trans; [apply Rabs_triang|]. apply Rplus_le_compat; [|exact He]. apply Rabs_prod_le; [exact HB|].
  rewrite Rabs_mult, (Rabs_pos_eq (/ h)) by (apply Rlt_le, Rinv_0_lt_compat, Hh).
  apply Rle_trans with (d * h * / h); [apply Rmult_le_compat_r; [apply Rlt_le, Rinv_0_lt_compat, Hh|exact Hd]|].
  rewrite Rmult_assoc, Rinv_r by lra. lra.
Qed.

Lemma line_moved a b a' b' t t' h h' dh dt T E : 0 < h -> 0 < h' -> 0 <= dh -> 0 <= dt -> Rabs (h' - h) <= dh * h -> Rabs (t - t') <= 9/8 * dt -> -1/8 <= t' <= 9/8 ->
  Rabs a + Rabs b <= T -> Rabs (a - a') + Rabs (b - b') <= E ->
  Rabs (((1 - t) * a + t * b) / h - ((1 - t') * a' + t' * b') / h') <= (9/8 * ((1 + dt) * (1 + dh) - 1) * T + 9/8 * E) / h'.
Proof.
  intros Hh Hh' Pd Pt Hd Ht Bt HT HE.
  assert (S : forall x y, Rabs (x - y) <= Rabs x + Rabs y) by (intros x y; unfold Rminus; eapply Rle_trans; [apply Rabs_triang|rewrite Rabs_Ropp; apply Rle_refl]).
  assert (PT : 0 <= T) by (pose proof (Rabs_pos a); pose proof (Rabs_pos b); lra).
  assert (L : forall x y, Rabs ((1 - t') * x + t' * y) <= 9/8 * (Rabs x + Rabs y)).
  { intros x y. eapply Rle_trans; [apply Rabs_triang|].
    assert (Rabs ((1 - t') * x) <= 9/8 * Rabs x) by (apply Rabs_prod_le; [apply Rabs_le; lra|apply Rle_refl]).
    assert (Rabs (t' * y) <= 9/8 * Rabs y) by (apply Rabs_prod_le; [apply Rabs_le; lra|apply Rle_refl]). lra. }
  assert (D : Rabs ((t - t') * (b - a)) <= 9/8 * dt * T) by (apply Rabs_prod_le; [exact Ht|eapply Rle_trans; [apply S|lra]]).
  pose proof (L a b) as L1. pose proof (L (a - a') (b - b')) as L2.
  assert (HB : Rabs ((1 - t) * a + t * b) <= 9/8 * (1 + dt) * T).
  { replace ((1 - t) * a + t * b) with (((1 - t') * a + t' * b) + (t - t') * (b - a)) by ring. eapply Rle_trans; [apply Rabs_triang|]. lra. }
  assert (He : Rabs ((1 - t) * a + t * b - ((1 - t') * a' + t' * b')) <= 9/8 * dt * T + 9/8 * E).
  { replace ((1 - t) * a + t * b - ((1 - t') * a' + t' * b')) with (((1 - t') * (a - a') + t' * (b - b')) + (t - t') * (b - a)) by ring. eapply Rle_trans; [apply Rabs_triang|]. lra. }
  eapply Rle_trans; [exact (quotient_moved _ _ _ _ _ _ _ Hh Hh' Hd HB He)|]. apply Req_le. field. lra.
Qed.

(** ** Rounded rectangles *)
Lemma corner_values2 xs ds cell v' : Forall2 small_reads xs ds -> cell_data (map value ds) cell corners2 v' ->
  exists v, cell_data xs cell corners2 v /\ forall k, In k corners2 -> v' k = to_double (v k).
Proof.
  intros H Hv. destruct (data_read _ _ H) as (_ & E & _).
  assert (C : forall k, exists x, In k corners2 -> exists n, vget cell k = Ok n /\ vget xs n = Ok x /\ v' k = to_double x).
  { intros k. destruct (in_dec Z.eq_dec k corners2) as [Hk|Hk]; [|exists 0; intros; contradiction].
    destruct (Hv k Hk) as (n & E1 & E2). rewrite E in E2. unfold vget in E2. destruct (0 <=? n)%Z eqn:En; [|discriminate]. rewrite nth_error_map in E2.
    destruct (nth_error xs (Z.to_nat n)) as [x|] eqn:Ex; [|discriminate]. injection E2 as E2. exists x. intros _. exists n. split; [exact E1|]. split; [|symmetry; exact E2]. unfold vget. rewrite En, Ex. reflexivity. }
  destruct (C 0%Z) as (x0 & H0). destruct (C 1%Z) as (x1 & H1). destruct (C 2%Z) as (x2 & H2). destruct (C 3%Z) as (x3 & H3).
  exists (fun k => if Z.eqb k 0 then x0 else if Z.eqb k 1 then x1 else if Z.eqb k 2 then x2 else x3).
  assert (G : forall k, In k corners2 -> exists n, vget cell k = Ok n /\ vget xs n = Ok (if Z.eqb k 0 then x0 else if Z.eqb k 1 then x1 else if Z.eqb k 2 then x2 else x3) /\
    v' k = to_double (if Z.eqb k 0 then x0 else if Z.eqb k 1 then x1 else if Z.eqb k 2 then x2 else x3)).
  { intros k Hk. pose proof Hk as Hk'. simpl in Hk'. destruct Hk' as [<-|[<-|[<-|[<-|[]]]]]; cbn [Z.eqb Pos.eqb]; auto. }
  split; intros k Hk; destruct (G k Hk) as (n & A & B & D); [exists n; split; assumption|exact D].
Qed.

Lemma totals_moved2 v v' : (forall k, In k corners2 -> v' k = to_double (v k)) -> total (fun k => v k - v' k) <= unit_roundoff * total v + 4 * tiny /\
  total v' <= (1 + unit_roundoff) * total v + 4 * tiny.
Proof.
  intros H.
  assert (D : forall k, In k corners2 -> Rabs (v k - v' k) <= unit_roundoff * Rabs (v k) + tiny).
  { intros k Hk. rewrite (H k Hk). replace (v k - to_double (v k)) with (- (to_double (v k) - v k)) by ring. rewrite Rabs_Ropp. apply to_double_abs_error. }
  assert (D' : forall k, In k corners2 -> Rabs (v' k) <= Rabs (v k) + (unit_roundoff * Rabs (v k) + tiny)).
  { intros k Hk. replace (v' k) with (v k + - (v k - v' k)) by ring. eapply Rle_trans; [apply Rabs_triang|]. rewrite Rabs_Ropp. apply Rplus_le_compat_l. exact (D k Hk). }
  rewrite !total_eq.
  pose proof (D 0%Z ltac:(simpl; auto)). pose proof (D 1%Z ltac:(simpl; auto)). pose proof (D 2%Z ltac:(simpl; auto)). pose proof (D 3%Z ltac:(simpl; auto)).
  pose proof (D' 0%Z ltac:(simpl; auto)). pose proof (D' 1%Z ltac:(simpl; auto)). pose proof (D' 2%Z ltac:(simpl; auto)). pose proof (D' 3%Z ltac:(simpl; auto)).
  split; lra.
Qed.

Lemma slope_moved v v' lo h r j : 0 < fst h -> 0 < snd h -> positive2 (rh lo h) -> near_rect (rlo lo) (rh lo h) r -> (0 <= j <= 1)%Z ->
  Rabs (bilinear_slope lo h v j r - bilinear_slope (rlo lo) (rh lo h) v' j r) <= (9/8 * displacement2 lo h * total v + 9/8 * total (fun k => v k - v' k)) / nth2 (rh lo h) j.
Proof.
  intros Hx Hy [Hx' Hy'] [Nx Ny] Hj. destruct (position_moved _ _ _ Hx Hx' Nx) as [Dx Sx]. destruct (position_moved _ _ _ Hy Hy' Ny) as [Dy Sy].
  pose proof (edge_moved (fst lo) _ Hx) as Ex. pose proof (edge_moved (snd lo) _ Hy) as Ey. pose proof (displacement_pos (fst lo) _ Hx) as Px. pose proof (displacement_pos (snd lo) _ Hy) as Py.
  assert (S : forall x y, Rabs (x - y) <= Rabs x + Rabs y) by (intros x y; unfold Rminus; eapply Rle_trans; [apply Rabs_triang|rewrite Rabs_Ropp; apply Rle_refl]).
  assert (S2 : forall x y x' y', Rabs ((x - y) - (x' - y')) <= Rabs (x - x') + Rabs (y - y')) by (intros x y x' y'; replace (x - y - (x' - y')) with ((x - x') - (y - y')) by ring; apply S).
  assert (E : j = 0%Z \/ j = 1%Z) by lia. unfold bilinear_slope, displacement2. destruct E as [-> | ->]; cbn [nth2]; rewrite !total_eq.
  - rewrite (Rmult_comm (1 + displacement (fst lo) (fst h))). apply line_moved; try assumption.
    + pose proof (S (v 1%Z) (v 0%Z)). pose proof (S (v 2%Z) (v 3%Z)). lra.
    + pose proof (S2 (v 1%Z) (v 0%Z) (v' 1%Z) (v' 0%Z)). pose proof (S2 (v 2%Z) (v 3%Z) (v' 2%Z) (v' 3%Z)). lra.
  - apply line_moved; try assumption.
    + pose proof (S (v 3%Z) (v 0%Z)). pose proof (S (v 2%Z) (v 1%Z)). lra.
    + pose proof (S2 (v 3%Z) (v 0%Z) (v' 3%Z) (v' 0%Z)). pose proof (S2 (v 2%Z) (v 1%Z) (v' 2%Z) (v' 1%Z)). lra.
Qed.

Lemma product_moved x y x' y' dx dy : 0 < x -> 0 < y -> 0 <= dx -> 0 <= dy -> Rabs (x' - x) <= dx * x -> Rabs (y' - y) <= dy * y -> Rabs (x' * y' - x * y) <= ((1 + dx) * (1 + dy) - 1) * (x * y).
Proof.
  intros Hx Hy Px Py Dx Dy. replace (x' * y' - x * y) with ((x' - x) * y + x * (y' - y) + (x' - x) * (y' - y)) by ring.
  eapply Rle_trans; [apply Rabs_triang|]. eapply Rle_trans; [apply Rplus_le_compat_r, Rabs_triang|].
  assert (Rabs ((x' - x) * y) <= dx * x * y) by (apply Rabs_prod_le; [exact Dx|apply Rabs_le; lra]).
  assert (Rabs (x * (y' - y)) <= x * (dy * y)) by (apply Rabs_prod_le; [apply Rabs_le; lra|exact Dy]).
  pose proof (Rabs_prod_le _ _ _ _ Dx Dy). lra.
Qed.

Lemma twist_moved v v' lo h : 0 < fst h -> 0 < snd h -> positive2 (rh lo h) ->
  Rabs (bilinear_twist h v - bilinear_twist (rh lo h) v') <= (displacement2 lo h * total v + total (fun k => v k - v' k)) / (fst (rh lo h) * snd (rh lo h)).
Proof.
  intros Hx Hy [Hx' Hy']. pose proof (product_moved _ _ _ _ _ _ Hx Hy (displacement_pos (fst lo) _ Hx) (displacement_pos (snd lo) _ Hy) (edge_moved (fst lo) _ Hx) (edge_moved (snd lo) _ Hy)) as P.
  unfold bilinear_twist. rewrite !total_eq. eapply Rle_trans; [apply (quotient_moved _ _ _ _ (displacement2 lo h) (total v) (total (fun k => v k - v' k)))|].
  - apply Rmult_lt_0_compat; assumption.
  - apply Rmult_lt_0_compat; assumption.
  - exact P.
  - rewrite total_eq. replace (v 0%Z - v 1%Z + v 2%Z - v 3%Z) with (v 0%Z + - v 1%Z + v 2%Z + - v 3%Z) by ring. do 3 (eapply Rle_trans; [apply Rabs_triang|]; rewrite ?Rabs_Ropp; apply Rplus_le_compat_r). apply Rle_refl.
  - rewrite total_eq. replace (v 0%Z - v 1%Z + v 2%Z - v 3%Z - (v' 0%Z - v' 1%Z + v' 2%Z - v' 3%Z)) with ((v 0%Z - v' 0%Z) + - (v 1%Z - v' 1%Z) + (v 2%Z - v' 2%Z) + - (v 3%Z - v' 3%Z)) by ring. do 3 (eapply Rle_trans; [apply Rabs_triang|]; rewrite ?Rabs_Ropp; apply Rplus_le_compat_r). apply Rle_refl.
  - rewrite !total_eq. apply Req_le. unfold Rdiv. ring.
Qed.

(** ** From the file to a field *)
Lemma file_field : forall pts cells fields t fuel name,
  vtk_text (O := ROps) small_numeral coords2 pts cells fields t -> rect_mesh pts cells -> apart (map fst pts) -> apart (map snd pts) ->
  resolved (map fst (map rounded_point pts)) -> resolved (map snd (map rounded_point pts)) ->
  In name (map fst fields) -> Forall (fun f => (List.length pts <= List.length (snd f))%nat) fields -> (List.length t < fuel)%nat ->
  exists bo k p data qs ds, body_read_vtk QV double_scanner fuel (Some t) (body_new QV) = RRet bo tt /\
    find_scalar_field QV bo (string_of_list_ascii name) = Ok k /\ nth_error (bo_fields QV bo) k = Some p /\
    nth_error fields k = Some (name, data) /\ (forall k' f, (k' < k)%nat -> nth_error fields k' = Some f -> fst f <> name) /\
    field64 qs cells ds (bo_mesh QV bo) p /\ map point_value qs = map rounded_point pts /\ Forall2 small_reads data ds.
Proof.
  intros pts cells fields t fuel name Ht Hr Ax Ay Rx Ry Hin Hlen Hf. destruct (vtk_double _ _ _ _ Ht) as (qs & gs & Ht' & Pp & Pf).
  destruct (points_read _ _ Pp) as [Fq Vq]. pose proof (rounded_mesh _ _ Hr Ax Ay) as Hr'.
  destruct (reads64 qs cells) as (m & Hm & Hnew); [exact Fq|rewrite Vq; exact Hr'|rewrite Vq; exact Rx|rewrite Vq; exact Ry|].
  destruct (read2_ok FOps denotes double_scanner qs cells gs t m fuel double_reader Ht' Hm Hf) as (ps & E & Hps & Hnm & _).
  assert (Hin' : In name (map fst gs)).
  { assert (Eg : map fst gs = map fst fields) by (clear - Pf; induction Pf as [|f g l l' [A _] H IH]; [reflexivity|cbn [map]; f_equal; [symmetry; exact A|exact IH]]). rewrite Eg. exact Hin. }
  assert (Hk : exists k, find_scalar_field QV (mkBody QV m ps) (string_of_list_ascii name) = Ok k).
  { unfold find_scalar_field. destruct (find_from_spec ps 0 (string_of_list_ascii name)) as [(k & _ & _ & _ & _ & H)|[H _]].
    - exists (0 + k)%nat. exact H.
    - exfalso. apply in_map_iff in Hin'. destruct Hin' as (f & Ef & Hi). apply In_nth_error in Hi. destruct Hi as (k & Hk).
      destruct (Forall2_nth' _ _ _ _ _ Hnm k f Hk) as (p & Hp' & Hname & _). rewrite Forall_forall in H.
      apply (H p (nth_error_In _ _ Hp')). rewrite Hname, Ef. reflexivity. }
  destruct Hk as (k & Hk). destruct (proj1 (find_ok QV _ _ _) Hk) as [(p & Hp' & Hname) Hfirst]. cbn [bo_fields] in *.
  destruct (Forall2_nth _ _ _ _ _ Hps k p Hp') as ((name' & ds) & Hfd & Hn). cbn [fst snd] in Hn.
  destruct (Forall2_nth _ _ _ _ _ Hnm k p Hp') as (f' & Hfd' & Hname' & _).
  assert (name' = name). { assert (Ef := eq_trans (eq_sym Hfd) Hfd'). injection Ef as <-. apply string_inj. cbn [fst] in Hname'. congruence. } subst name'.
  destruct (Forall2_nth _ _ _ _ _ Pf k _ Hfd) as ((name' & data) & Hdd & [En Pd]). cbn [fst snd] in En, Pd. subst name'.
  exists (mkBody QV m ps), k, p, data, qs, ds. split; [exact E|]. split; [exact Hk|]. split; [exact Hp'|]. split; [exact Hdd|]. split.
  - intros k' f Hlt Hf' Ef. destruct (Forall2_nth' _ _ _ _ _ Pf k' f Hf') as (g & Hg & [Eg _]). destruct (Forall2_nth' _ _ _ _ _ Hnm k' g Hg) as (p' & Hpp & Hn' & _).
    apply (Hfirst k' p' Hlt Hpp). transitivity (string_of_list_ascii (fst g)); [exact Hn'|]. f_equal. transitivity (fst f); [symmetry; exact Eg|exact Ef].
  - cbn [bo_mesh]. destruct (data_read _ _ Pd) as (Fd & Vd & Bd).
    assert (Ld : (List.length qs <= List.length ds)%nat).
    { rewrite Forall_forall in Hlen. specialize (Hlen _ (nth_error_In _ _ Hdd)). cbn [snd] in Hlen. pose proof (F2_length _ _ _ _ _ Pp) as L1. pose proof (F2_length _ _ _ _ _ Pd) as L2. exact (eq_ind _ (fun n => (n <= List.length ds)%nat) (eq_ind _ (fun n => (List.length pts <= n)%nat) Hlen _ L2) _ L1). }
    destruct (Hnew ds (string_of_list_ascii name) Ld) as (p0 & Ep & Hon). assert (p0 = p) by congruence. subst p0.
    assert (H64 : field64 qs cells ds m p) by (unfold field64; rewrite Vq; repeat (split; [assumption|]); assumption).
    split; [exact H64|]. split; [exact Vq|exact Pd].
Qed.

(** A cell next to the point, in doubles and in the file. *)
Lemma near_cell pts cells data qs ds r : rect_mesh pts cells -> apart (map fst pts) -> apart (map snd pts) -> map point_value qs = map rounded_point pts -> Forall2 small_reads data ds ->
  forall cell lo' h' v', cell_near qs cells ds r cell lo' h' v' ->
  exists lo h v, file_near pts cells data (point_value r) cell lo h v /\ lo' = rlo lo /\ h' = rh lo h /\ (forall k, In k corners2 -> v' k = to_double (v k)) /\ positive2 h /\ positive2 (rh lo h).
Proof.
  intros Hr Ax Ay Vq Pd cell lo' h' v' (Hc & Hrect & Hnear & Hv).
  rewrite Vq in Hrect. destruct Hr as (_ & Hcells & _). rewrite Forall_forall in Hcells. destruct (Hcells cell Hc) as (lo & h & Hex).
  destruct (rect_unique _ _ _ _ _ _ (rounded_rect _ _ _ _ Ax Ay Hex) Hrect) as [-> ->].
  destruct (corner_values2 data ds cell v' Pd Hv) as (v & Hv1 & Hv2).
  exists lo, h, v. split; [repeat (split; [assumption|]); exact Hv1|]. split; [reflexivity|]. split; [reflexivity|]. split; [exact Hv2|]. split; [exact (proj1 Hex)|exact (proj1 Hrect)].
Qed.

Lemma quotient_bound c d u ty a g g' T T' D hh : 0 < u <= 1/10000 -> 0 < ty -> 0 <= T -> 0 < hh -> 0 <= c <= 28 -> T' <= (1 + u) * T + d * ty -> 0 <= d <= 8 ->
  Rabs (a - g') <= c * u * (T' / hh) + 9 * ty -> Rabs (g - g') <= (D * T + 2 * (u * T + d * ty)) / hh ->
  Rabs (a - g) <= ((c + 3) * u + D) * (T / hh) + 9 * ty + 3 * d * ty / hh.
Proof.
  intros U Ty PT Hh Hc HT Hd Ha Hg. assert (Pi : 0 < / hh) by (apply Rinv_0_lt_compat; exact Hh).
  replace (a - g) with ((a - g') + - (g - g')) by ring. eapply Rle_trans; [apply Rabs_triang|]. rewrite Rabs_Ropp.
  assert (A1 : c * u * (T' / hh) <= c * u * (((1 + u) * T + d * ty) / hh)).
  { apply Rmult_le_compat_l; [apply Rmult_le_pos; lra|]. unfold Rdiv. apply Rmult_le_compat_r; lra. }
  assert (Q : c * u * ((1 + u) * T + d * ty) + (D * T + 2 * (u * T + d * ty)) <= ((c + 3) * u + D) * T + 3 * d * ty).
  { assert (c * u * (u * T) <= u * T).
    { assert (c * u <= 1) by (apply Rle_trans with (28 * (1/10000)); [apply Rmult_le_compat; lra|lra]). assert (0 <= u * T) by (apply Rmult_le_pos; lra).
      rewrite <- (Rmult_1_l (u * T)) at 2. apply Rmult_le_compat_r; assumption. }
    assert (c * u * (d * ty) <= d * ty).
    { assert (c * u <= 1) by (apply Rle_trans with (28 * (1/10000)); [apply Rmult_le_compat; lra|lra]). assert (0 <= d * ty) by (apply Rmult_le_pos; lra).
      rewrite <- (Rmult_1_l (d * ty)) at 2. apply Rmult_le_compat_r; assumption. }
    replace (c * u * ((1 + u) * T + d * ty)) with (c * u * T + c * u * (u * T) + c * u * (d * ty)) by ring.
    replace (((c + 3) * u + D) * T) with (c * u * T + 3 * (u * T) + D * T) by ring. lra. }
  apply (Rmult_le_compat_r (/ hh)) in Q; [|lra].
  replace (((c + 3) * u + D) * (T / hh)) with (((c + 3) * u + D) * T * / hh) by (unfold Rdiv; ring).
  unfold Rdiv in *. replace (c * u * (((1 + u) * T + d * ty) * / hh)) with (c * u * ((1 + u) * T + d * ty) * / hh) in A1 by ring. lra.
Qed.

Lemma constants : 0 < unit_roundoff <= 1/10000 /\ 0 < tiny.
Proof. split; [split; [apply bpow_gt_0|]; apply Rle_trans with (bpow radix2 (-20)); [apply bpow_le; discriminate|cbn; lra]|apply bpow_gt_0]. Qed.
Lemma total_nonneg v : 0 <= total v.
Proof. rewrite total_eq. pose proof (Rabs_pos (v 0%Z)). pose proof (Rabs_pos (v 1%Z)). pose proof (Rabs_pos (v 2%Z)). pose proof (Rabs_pos (v 3%Z)). lra. Qed.

Lemma file_derivatives : forall pts cells fields t fuel name,
  vtk_text (O := ROps) small_numeral coords2 pts cells fields t -> rect_mesh pts cells -> apart (map fst pts) -> apart (map snd pts) ->
  resolved (map fst (map rounded_point pts)) -> resolved (map snd (map rounded_point pts)) ->
  In name (map fst fields) -> Forall (fun f => (List.length pts <= List.length (snd f))%nat) fields -> (List.length t < fuel)%nat ->
  exists bo k p data, body_read_vtk QV double_scanner fuel (Some t) (body_new QV) = RRet bo tt /\
    find_scalar_field QV bo (string_of_list_ascii name) = Ok k /\ nth_error (bo_fields QV bo) k = Some p /\
    nth_error fields k = Some (name, data) /\ (forall k' f, (k' < k)%nat -> nth_error fields k' = Some f -> fst f <> name) /\
    forall r, finite_point r -> in_mesh2 pts cells (point_value r) ->
    (forall j, (0 <= j <= 1)%Z ->
       (forall cell lo h v, file_near pts cells data (point_value r) cell lo h v -> let h' := rounded_edges lo h in
          clear_of (rounded_point lo) h' j (point_value r) /\ bpow radix2 (-1000) <= nth2 h' j /\ forall k, In k corners2 -> Rabs (to_double (v k)) <= bpow radix2 1000 * nth2 h' j) ->
       exists a g cell lo h v, answers (bo_mesh QV bo) p (QGrad j) r a /\ finite a /\ file_near pts cells data (point_value r) cell lo h v /\
         partial2 (bilinear lo h v) j (point_value r) g /\
         Rabs (value a - g) <= (18 * unit_roundoff + 2 * displacement2 lo h) * (rsum (fun k => Rabs (v k)) corners2 / nth2 (rounded_edges lo h) j) + 9 * tiny + 12 * tiny / nth2 (rounded_edges lo h) j) /\
    (forall j l, (0 <= j <= 1)%Z -> (0 <= l <= 1)%Z -> j <> l ->
       (forall cell lo h v, file_near pts cells data (point_value r) cell lo h v -> let h' := rounded_edges lo h in
          clear_of (rounded_point lo) h' 0 (point_value r) /\ clear_of (rounded_point lo) h' 1 (point_value r) /\ bpow radix2 (-1000) <= fst h' /\
          bpow radix2 (-1000) <= fst h' * snd h' <= bpow radix2 1000 /\ forall k, In k corners2 -> Rabs (to_double (v k)) <= bpow radix2 1000 * (fst h' * snd h')) ->
       exists a g cell lo h v, answers (bo_mesh QV bo) p (QHess j l) r a /\ finite a /\ file_near pts cells data (point_value r) cell lo h v /\
         second2 (bilinear lo h v) j l (point_value r) g /\ let h' := rounded_edges lo h in
         Rabs (value a - g) <= (18 * unit_roundoff + 2 * displacement2 lo h) * (rsum (fun k => Rabs (v k)) corners2 / (fst h' * snd h')) + 9 * tiny + 12 * tiny / (fst h' * snd h')) /\
    (forall j, (0 <= j <= 1)%Z -> exists a, answers (bo_mesh QV bo) p (QHess j j) r a /\ finite a /\ value a = 0).
Proof.
  intros pts cells fields t fuel name Ht Hr Ax Ay Rx Ry Hin Hlen Hf.
  destruct (file_field _ _ _ _ _ _ Ht Hr Ax Ay Rx Ry Hin Hlen Hf) as (bo & k & p & data & qs & ds & E & Hk & Hp & Hd & Hfirst & H64 & Vq & Pd).
  exists bo, k, p, data. do 5 (split; [assumption|]). intros r Fr Hi.
  assert (Hi' : in_mesh2 (map point_value qs) cells (point_value r)) by (rewrite Vq; exact (rounded_in _ _ _ Ax Ay Hi)).
  pose proof (near_cell pts cells data qs ds r Hr Ax Ay Vq Pd) as N. destruct constants as [U T].
  split; [|split].
  - intros j Hj HC.
    destruct (gradient_error qs cells ds (bo_mesh QV bo) p r j H64 Fr Hi' Hj) as (a & g' & cell & lo' & h' & v' & Ha & Fa & Hn & Hg & He).
    { intros cell lo' h' v' Hn. destruct (N _ _ _ _ Hn) as (lo & h & v & Hfn & -> & -> & Hv & _ & _). destruct (HC _ _ _ _ Hfn) as (C1 & C2 & C3).
      split; [exact C1|]. split; [exact C2|]. intros i Hik. rewrite (Hv i Hik). exact (C3 i Hik). }
    destruct (N _ _ _ _ Hn) as (lo & h & v & Hfn & -> & -> & Hv & [Hx Hy] & Hpos').
    assert (g' = bilinear_slope (rlo lo) (rh lo h) v' j (point_value r)) by (eapply partial2_unique; [exact Hg|apply bilinear_partial; assumption]). subst g'.
    exists a, (bilinear_slope lo h v j (point_value r)), cell, lo, h, v. split; [exact Ha|]. split; [exact Fa|]. split; [exact Hfn|].
    split; [apply bilinear_partial; [split; assumption|exact Hj]|].
    destruct (totals_moved2 v v' Hv) as [T0 T1]. destruct Hfn as (_ & _ & Hnear & _).
    pose proof (slope_moved v v' lo h (point_value r) j Hx Hy Hpos' Hnear Hj) as M.
    assert (Ph : 0 < nth2 (rh lo h) j) by (destruct Hpos' as [Q1 Q2]; assert (Ej : j = 0%Z \/ j = 1%Z) by lia; destruct Ej as [-> | ->]; assumption).
    change (rounded_edges lo h) with (rh lo h). change (rsum (fun k => Rabs (v k)) corners2) with (total v). change (rsum (fun k => Rabs (v' k)) corners2) with (total v') in He.
    assert (PD : 0 <= displacement2 lo h).
    { unfold displacement2. pose proof (displacement_pos (fst lo) _ Hx) as Q1. pose proof (displacement_pos (snd lo) _ Hy) as Q2. pose proof (Rmult_le_pos _ _ Q1 Q2). lra. }
    pose proof (total_nonneg v) as Pv. pose proof (Rmult_le_pos _ _ PD Pv) as PDv.
    pose proof (quotient_bound 15 4 unit_roundoff tiny (value a) (bilinear_slope lo h v j (point_value r)) (bilinear_slope (rlo lo) (rh lo h) v' j (point_value r)) (total v) (total v') (2 * displacement2 lo h) (nth2 (rh lo h) j) U T Pv Ph ltac:(lra) T1 ltac:(lra)) as B.
    replace (15 + 3) with 18 in B by ring. replace (3 * 4 * tiny) with (12 * tiny) in B by ring. apply B.
    + eapply Rle_trans; [exact He|]. lra.
    + eapply Rle_trans; [exact M|]. unfold Rdiv. apply Rmult_le_compat_r; [apply Rlt_le, Rinv_0_lt_compat, Ph|]. 
      assert (0 <= unit_roundoff * total v) by (apply Rmult_le_pos; lra). lra.
  - intros j l Hj Hl Hjl HC.
    destruct (mixed_error qs cells ds (bo_mesh QV bo) p r j l H64 Fr Hi' Hj Hl Hjl) as (a & g' & cell & lo' & h' & v' & Ha & Fa & Hn & Hg & He).
    { intros cell lo' h' v' Hn. destruct (N _ _ _ _ Hn) as (lo & h & v & Hfn & -> & -> & Hv & _ & _). destruct (HC _ _ _ _ Hfn) as (C1 & C2 & C3 & C4 & C5).
      do 4 (split; [assumption|]). intros i Hik. rewrite (Hv i Hik). exact (C5 i Hik). }
    destruct (N _ _ _ _ Hn) as (lo & h & v & Hfn & -> & -> & Hv & [Hx Hy] & Hpos').
    pose proof (bilinear_second (rlo lo) (rh lo h) v' j l (point_value r) Hpos' Hj Hl) as Hs'. pose proof (bilinear_second lo h v j l (point_value r) (conj Hx Hy) Hj Hl) as Hs.
    replace (j =? l)%Z with false in Hs, Hs' by (symmetry; apply Z.eqb_neq; exact Hjl).
    assert (g' = bilinear_twist (rh lo h) v') by (eapply second2_unique; [exact Hg|exact Hs']). subst g'.
    exists a, (bilinear_twist h v), cell, lo, h, v. split; [exact Ha|]. split; [exact Fa|]. split; [exact Hfn|]. split; [exact Hs|]. cbv zeta.
    destruct (totals_moved2 v v' Hv) as [T0 T1]. pose proof (twist_moved v v' lo h Hx Hy Hpos') as M.
    assert (Ph : 0 < fst (rh lo h) * snd (rh lo h)) by (destruct Hpos' as [Q1 Q2]; apply Rmult_lt_0_compat; assumption).
    change (rounded_edges lo h) with (rh lo h). change (rsum (fun k => Rabs (v k)) corners2) with (total v). change (rsum (fun k => Rabs (v' k)) corners2) with (total v') in He.
    assert (PD : 0 <= displacement2 lo h).
    { unfold displacement2. pose proof (displacement_pos (fst lo) _ Hx) as Q1. pose proof (displacement_pos (snd lo) _ Hy) as Q2. pose proof (Rmult_le_pos _ _ Q1 Q2). lra. }
    pose proof (total_nonneg v) as Pv. pose proof (Rmult_le_pos _ _ PD Pv) as PDv.
    pose proof (quotient_bound 15 4 unit_roundoff tiny (value a) (bilinear_twist h v) (bilinear_twist (rh lo h) v') (total v) (total v') (2 * displacement2 lo h) (fst (rh lo h) * snd (rh lo h)) U T Pv Ph ltac:(lra) T1 ltac:(lra)) as B.
    replace (15 + 3) with 18 in B by ring. replace (3 * 4 * tiny) with (12 * tiny) in B by ring. apply B.
    + eapply Rle_trans; [exact He|]. lra.
    + eapply Rle_trans; [exact M|]. unfold Rdiv. apply Rmult_le_compat_r; [apply Rlt_le, Rinv_0_lt_compat, Ph|]. 
      assert (0 <= unit_roundoff * total v) by (apply Rmult_le_pos; lra). lra.
  - intros j Hj. exact (pure_second qs cells ds (bo_mesh QV bo) p r j H64 Fr Hi' Hj).
Qed.
