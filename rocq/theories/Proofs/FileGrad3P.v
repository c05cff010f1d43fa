(** Gradients of a field on boxes read from a file of decimal numbers. *)
From Coquelicot Require Import Coquelicot.
From Coq Require Import ZArith List Bool Ascii String Reals Lra Lia.
From Flocq Require Import Core IEEE754.BinarySingleNaN.
From Verif Require Import Model.Outcome Model.Num Model.NumInst Model.PNDArray Model.Interpolator Model.Hexahedron Model.Mesh Model.PField Model.Stream Model.Vtk Model.Decimal.
From Verif Require Import Spec.Tensor Spec.Funcs Spec.Shape Spec.Fields Spec.Vtk Spec.Rounding Spec.Rounding3 Spec.Decimal Spec.FileRounding Spec.FileRounding3.
From Verif Require Import Proofs.OutcomeP Proofs.ShapeP Proofs.VtkP Proofs.VtkSpecP Proofs.VtkLoopP Proofs.VtkExamples Proofs.FloatEval3P Proofs.DecimalP Proofs.DecimalTextP Proofs.DecimalRoundP Proofs.DecimalSeriesP
  Proofs.FileRoundP Proofs.FileRound3P Proofs.FileGradP.
Import ListNotations.
Local Open Scope R_scope.
Local Notation HV := (hex_vkind FOps).

(** The differences across the box along an axis, at the corners of a face. *)
Definition diff3 (v : Z -> R) (j k : Z) : R :=
  match j, k with
  | 0%Z, 0%Z => v 1%Z - v 0%Z | 0%Z, 1%Z => v 2%Z - v 3%Z | 0%Z, 2%Z => v 6%Z - v 7%Z | 0%Z, _ => v 5%Z - v 4%Z
  | 1%Z, 0%Z => v 3%Z - v 0%Z | 1%Z, 1%Z => v 2%Z - v 1%Z | 1%Z, 2%Z => v 6%Z - v 5%Z | 1%Z, _ => v 7%Z - v 4%Z
  | _, 0%Z => v 4%Z - v 0%Z | _, 1%Z => v 5%Z - v 1%Z | _, 2%Z => v 6%Z - v 2%Z | _, _ => v 7%Z - v 3%Z
  end.
Definition slope_at (lo h : point3) (v : Z -> R) (j : Z) (r : point3) : R :=
  let s := (cx r - cx lo) / cx h in let t := (cy r - cy lo) / cy h in let u := (cz r - cz lo) / cz h in
  match j with 0%Z => blend (diff3 v 0) t u / cx h | 1%Z => blend (diff3 v 1) s u / cy h | _ => blend (diff3 v 2) s t / cz h end.
Lemma slope_at_partial lo h v j r : positive3 h -> (0 <= j <= 2)%Z -> partial3 (trilinear lo h v) j r (slope_at lo h v j r).
Proof.
  intros (P1 & P2 & P3) Hj. assert (E : j = 0%Z \/ j = 1%Z \/ j = 2%Z) by lia. unfold partial3. destruct lo as [a b c], h as [d e f], r as [x y z]. cbn [cx cy cz] in *. change (num ROps) with R in *.
  destruct E as [-> | [-> | ->]]; unfold slope_at, blend, diff3; cbn [upd3 nth3 cx cy cz]; unfold trilinear, bilinear; cbn [fst snd cx cy cz Z.add Pos.add Pos.succ];
    change (num ROps) with R in *; auto_derive; auto; field; repeat split; lra.
Qed.

Lemma Rabs_sub x y : Rabs (x - y) <= Rabs x + Rabs y.
Proof. unfold Rminus. eapply Rle_trans; [apply Rabs_triang|rewrite Rabs_Ropp; apply Rle_refl]. Qed.
Lemma diff3_total v j : (0 <= j <= 2)%Z -> total (diff3 v j) <= total3 v.
Proof.
  intros Hj. assert (E : j = 0%Z \/ j = 1%Z \/ j = 2%Z) by lia. rewrite total3_eq, !total_eq. unfold upper. cbn [Z.add Pos.add Pos.succ].
  destruct E as [-> | [-> | ->]]; cbn [diff3].
  - pose proof (Rabs_sub (v 1%Z) (v 0%Z)). pose proof (Rabs_sub (v 2%Z) (v 3%Z)). pose proof (Rabs_sub (v 6%Z) (v 7%Z)). pose proof (Rabs_sub (v 5%Z) (v 4%Z)). lra.
  - pose proof (Rabs_sub (v 3%Z) (v 0%Z)). pose proof (Rabs_sub (v 2%Z) (v 1%Z)). pose proof (Rabs_sub (v 6%Z) (v 5%Z)). pose proof (Rabs_sub (v 7%Z) (v 4%Z)). lra.
  - pose proof (Rabs_sub (v 4%Z) (v 0%Z)). pose proof (Rabs_sub (v 5%Z) (v 1%Z)). pose proof (Rabs_sub (v 6%Z) (v 2%Z)). pose proof (Rabs_sub (v 7%Z) (v 3%Z)). lra.
Qed.
Lemma diff3_sub v v' j : (0 <= j <= 2)%Z -> total (fun k => diff3 v j k - diff3 v' j k) <= total3 (fun k => v' k - v k).
Proof.
  intros Hj. eapply Rle_trans; [|exact (diff3_total (fun k => v' k - v k) j Hj)]. apply Req_le. rewrite !total_eq.
  assert (S : forall k, Rabs (diff3 v j k - diff3 v' j k) = Rabs (diff3 (fun k => v' k - v k) j k)).
  { intros k. rewrite <- (Rabs_Ropp (diff3 v j k - diff3 v' j k)). f_equal. assert (E : j = 0%Z \/ j = 1%Z \/ j = 2%Z) by lia.
    destruct E as [-> | [-> | ->]]; destruct k as [|[p|[p|p|]|]|p]; cbn [diff3]; ring. }
  rewrite !S. reflexivity.
Qed.

Lemma blend_quotient w w' s t s' t' h h' ds dt dh E : 0 < h -> 0 < h' -> 0 <= ds -> 0 <= dt -> 0 <= dh -> Rabs (h' - h) <= dh * h ->
  Rabs (s - s') <= 9/8 * ds -> Rabs (t - t') <= 9/8 * dt -> -1/8 <= s' <= 9/8 -> -1/8 <= t' <= 9/8 -> total (fun k => w k - w' k) <= E ->
  Rabs (blend w s t / h - blend w' s' t' / h') <= (81/64 * ((1 + ds) * (1 + dt) * (1 + dh) - 1) * total w + 81/64 * E) / h'.
Proof.
  intros Hh Hh' Ps Pt Pd Hd Hs Ht Bs Bt HE. pose proof (total_nonneg w) as PT.
  assert (M : Rabs (blend w s t - blend w s' t') <= 81/64 * (ds + dt + ds * dt) * total w).
  { eapply Rle_trans; [exact (blend_moved w _ _ _ _ _ _ Hs Ht Bs Bt)|]. apply Rmult_le_compat_r; [exact PT|]. lra. }
  assert (L : forall x, Rabs (blend x s' t') <= 81/64 * total x).
  { intros x. replace (81/64) with (9/8 * (9/8)) by lra. apply blend_bound; apply Rabs_le; lra. }
  pose proof (L w) as L1. pose proof (L (fun k => w k - w' k)) as L2.
  assert (HB : Rabs (blend w s t) <= 81/64 * (1 + (ds + dt + ds * dt)) * total w).
  { replace (blend w s t) with (blend w s' t' + (blend w s t - blend w s' t')) by ring. eapply Rle_trans; [apply Rabs_triang|]. lra. }
  assert (He : Rabs (blend w s t - blend w' s' t') <= 81/64 * (ds + dt + ds * dt) * total w + 81/64 * E).
  { replace (blend w s t - blend w' s' t') with ((blend w s t - blend w s' t') + blend (fun k => w k - w' k) s' t') by (unfold blend; ring). eapply Rle_trans; [apply Rabs_triang|]. lra. }
  eapply Rle_trans; [exact (quotient_moved _ _ _ _ _ _ _ Hh Hh' Hd HB He)|]. apply Req_le. field. lra.
Qed.

Lemma slope_moved3 v v' lo h r j : positive3 h -> positive3 (rounded_edges3 lo h) -> near_box (rounded_point3 lo) (rounded_edges3 lo h) r -> (0 <= j <= 2)%Z ->
  Rabs (slope_at lo h v j r - slope_at (rounded_point3 lo) (rounded_edges3 lo h) v' j r) <=
    (81/64 * displacement3 lo h * total3 v + 81/64 * total3 (fun k => v' k - v k)) / nth3 (rounded_edges3 lo h) j.
Proof.
  intros (Hx & Hy & Hz) (Hx' & Hy' & Hz') (Nx & Ny & Nz) Hj.
  destruct (position_moved _ _ _ Hx Hx' Nx) as [Dx Sx]. destruct (position_moved _ _ _ Hy Hy' Ny) as [Dy Sy]. destruct (position_moved _ _ _ Hz Hz' Nz) as [Dz Sz].
  pose proof (edge_moved (cx lo) _ Hx) as Ex. pose proof (edge_moved (cy lo) _ Hy) as Ey. pose proof (edge_moved (cz lo) _ Hz) as Ez.
  pose proof (displacement_pos (cx lo) _ Hx) as Px. pose proof (displacement_pos (cy lo) _ Hy) as Py. pose proof (displacement_pos (cz lo) _ Hz) as Pz.
  pose proof (diff3_total v j Hj) as DT. pose proof (diff3_sub v v' j Hj) as DE.
  assert (PD : 0 <= displacement3 lo h).
  { unfold displacement3. pose proof (Rmult_le_pos _ _ Px Py). pose proof (Rmult_le_pos _ _ Py Pz). pose proof (Rmult_le_pos _ _ Px Pz). pose proof (Rmult_le_pos _ _ (Rmult_le_pos _ _ Px Py) Pz). lra. }
  assert (F : forall hh ds dt dh, 0 < hh -> (1 + ds) * (1 + dt) * (1 + dh) - 1 = displacement3 lo h ->
    (81/64 * ((1 + ds) * (1 + dt) * (1 + dh) - 1) * total (diff3 v j) + 81/64 * total3 (fun k => v' k - v k)) / hh <= (81/64 * displacement3 lo h * total3 v + 81/64 * total3 (fun k => v' k - v k)) / hh).
  { intros hh ds dt dh Hh ->. unfold Rdiv. apply Rmult_le_compat_r; [apply Rlt_le, Rinv_0_lt_compat, Hh|]. apply Rplus_le_compat_r. apply Rmult_le_compat_l; [lra|exact DT]. }
  assert (E : j = 0%Z \/ j = 1%Z \/ j = 2%Z) by lia. unfold slope_at. destruct E as [-> | [-> | ->]]; cbn [nth3].
  - eapply Rle_trans; [eapply blend_quotient; [exact Hx|exact Hx'|exact Py|exact Pz|exact Px|exact Ex|exact Dy|exact Dz|exact Sy|exact Sz|exact DE]|]. apply F; [exact Hx'|unfold displacement3; ring].
  - eapply Rle_trans; [eapply blend_quotient; [exact Hy|exact Hy'|exact Px|exact Pz|exact Py|exact Ey|exact Dx|exact Dz|exact Sx|exact Sz|exact DE]|]. apply F; [exact Hy'|unfold displacement3; ring].
  - eapply Rle_trans; [eapply blend_quotient; [exact Hz|exact Hz'|exact Px|exact Py|exact Pz|exact Ez|exact Dx|exact Dy|exact Sx|exact Sy|exact DE]|]. apply F; [exact Hz'|unfold displacement3; ring].
Qed.

(** ** From the file to a field *)
Lemma file_field3 : forall pts cells fields t fuel name,
  vtk_text (O := ROps) small_numeral coords3 pts cells fields t -> box_mesh pts cells -> one_layer pts cells -> apart3 pts ->
  resolved3 (map rounded_point3 pts) ->
  In name (map fst fields) -> Forall (fun f => (List.length pts <= List.length (snd f))%nat) fields -> (List.length t < fuel)%nat ->
  exists bo k p data qs ds, body_read_vtk HV double_scanner fuel (Some t) (body_new HV) = RRet bo tt /\
    find_scalar_field HV bo (string_of_list_ascii name) = Ok k /\ nth_error (bo_fields HV bo) k = Some p /\
    nth_error fields k = Some (name, data) /\ (forall k' f, (k' < k)%nat -> nth_error fields k' = Some f -> fst f <> name) /\
    field64_3 qs cells ds (bo_mesh HV bo) p /\ map point_value3 qs = map rounded_point3 pts /\ Forall2 small_reads data ds /\ one_layer (map point_value3 qs) cells.
Proof.
  intros pts cells fields t fuel name Ht Hr Hl A Rs Hin Hlen Hf. destruct (vtk_double3 _ _ _ _ Ht) as (qs & gs & Ht' & Pp & Pf).
  destruct (points_read3 _ _ Pp) as [Fq Vq]. pose proof (rounded_box_mesh _ _ Hr A) as Hr'. pose proof (rounded_layer _ _ Hr A Hl) as Hl'.
  destruct (reads64_3 qs cells) as (m & Hm & Hnew); [exact Fq|rewrite Vq; exact Hr'|rewrite Vq; exact Rs|].
  destruct (read3_ok FOps denotes double_scanner qs cells gs t m fuel double_reader Ht' Hm Hf) as (ps & E & Hps & Hnm & _).
  assert (Hin' : In name (map fst gs)).
  { assert (Eg : map fst gs = map fst fields) by (clear - Pf; induction Pf as [|f g l l' [X _] H IH]; [reflexivity|cbn [map]; f_equal; [symmetry; exact X|exact IH]]). rewrite Eg. exact Hin. }
  assert (Hk : exists k, find_scalar_field HV (mkBody HV m ps) (string_of_list_ascii name) = Ok k).
  { unfold find_scalar_field. destruct (find_from_spec ps 0 (string_of_list_ascii name)) as [(k & _ & _ & _ & _ & H)|[H _]].
    - exists (0 + k)%nat. exact H.
    - exfalso. apply in_map_iff in Hin'. destruct Hin' as (f & Ef & Hi). apply In_nth_error in Hi. destruct Hi as (k & Hk).
      destruct (Forall2_nth' _ _ _ _ _ Hnm k f Hk) as (p & Hp' & Hname & _). rewrite Forall_forall in H.
      apply (H p (nth_error_In _ _ Hp')). rewrite Hname, Ef. reflexivity. }
  destruct Hk as (k & Hk). destruct (proj1 (find_ok HV _ _ _) Hk) as [(p & Hp' & Hname) Hfirst]. cbn [bo_fields] in *.
  destruct (Forall2_nth _ _ _ _ _ Hps k p Hp') as ((name' & ds) & Hfd & Hn). cbn [fst snd] in Hn.
  destruct (Forall2_nth _ _ _ _ _ Hnm k p Hp') as (f' & Hfd' & Hname' & _).
  assert (name' = name). { assert (Ef := eq_trans (eq_sym Hfd) Hfd'). injection Ef as <-. apply string_inj. cbn [fst] in Hname'. congruence. } subst name'.
  destruct (Forall2_nth _ _ _ _ _ Pf k _ Hfd) as ((name' & data) & Hdd & [En Pd]). cbn [fst snd] in En, Pd. subst name'.
  exists (mkBody HV m ps), k, p, data, qs, ds. split; [exact E|]. split; [exact Hk|]. split; [exact Hp'|]. split; [exact Hdd|]. split.
  - intros k' f Hlt Hf' Ef. destruct (Forall2_nth' _ _ _ _ _ Pf k' f Hf') as (g & Hg & [Eg _]). destruct (Forall2_nth' _ _ _ _ _ Hnm k' g Hg) as (p' & Hpp & Hn' & _).
    apply (Hfirst k' p' Hlt Hpp). transitivity (string_of_list_ascii (fst g)); [exact Hn'|]. f_equal. transitivity (fst f); [symmetry; exact Eg|exact Ef].
  - cbn [bo_mesh]. destruct (data_read _ _ Pd) as (Fd & Vd & Bd).
    assert (Ld : (List.length qs <= List.length ds)%nat).
    { rewrite Forall_forall in Hlen. specialize (Hlen _ (nth_error_In _ _ Hdd)). cbn [snd] in Hlen. pose proof (F2_length _ _ _ _ _ Pp) as L1. pose proof (F2_length _ _ _ _ _ Pd) as L2. exact (eq_ind _ (fun n => (n <= List.length ds)%nat) (eq_ind _ (fun n => (List.length pts <= n)%nat) Hlen _ L2) _ L1). }
    destruct (Hnew ds (string_of_list_ascii name) Ld) as (p0 & Ep & Hon). assert (p0 = p) by congruence. subst p0.
    assert (H64 : field64_3 qs cells ds m p) by (unfold field64_3; rewrite Vq; repeat (split; [assumption|]); assumption).
    split; [exact H64|]. split; [exact Vq|]. split; [exact Pd|rewrite Vq; exact Hl'].
Qed.

Lemma near_cell3 pts cells data qs ds r : box_mesh pts cells -> apart3 pts -> map point_value3 qs = map rounded_point3 pts -> Forall2 small_reads data ds ->
  forall cell lo' h' v', cell_near3 qs cells ds r cell lo' h' v' ->
  exists lo h v, file_near3 pts cells data (point_value3 r) cell lo h v /\ lo' = rounded_point3 lo /\ h' = rounded_edges3 lo h /\ (forall k, In k corners3 -> v' k = to_double (v k)) /\
    positive3 h /\ positive3 (rounded_edges3 lo h).
Proof.
  intros Hr A Vq Pd cell lo' h' v' (Hc & Hbox & Hnear & Hv).
  rewrite Vq in Hbox. destruct Hr as (_ & Hcells & _). rewrite Forall_forall in Hcells. destruct (Hcells cell Hc) as (lo & h & Hex).
  destruct (box_unique _ _ _ _ _ _ (rounded_box _ _ _ _ A Hex) Hbox) as [-> ->].
  destruct (corner_values data ds cell v' Pd Hv) as (v & Hv1 & Hv2).
  exists lo, h, v. split; [repeat (split; [assumption|]); exact Hv1|]. split; [reflexivity|]. split; [reflexivity|]. split; [exact Hv2|]. split; [exact (proj1 Hex)|exact (proj1 Hbox)].
Qed.

Lemma file_gradient3 : forall pts cells fields t fuel name,
  vtk_text (O := ROps) small_numeral coords3 pts cells fields t -> box_mesh pts cells -> one_layer pts cells -> apart3 pts ->
  resolved3 (map rounded_point3 pts) ->
  In name (map fst fields) -> Forall (fun f => (List.length pts <= List.length (snd f))%nat) fields -> (List.length t < fuel)%nat ->
  exists bo k p data, body_read_vtk HV double_scanner fuel (Some t) (body_new HV) = RRet bo tt /\
    find_scalar_field HV bo (string_of_list_ascii name) = Ok k /\ nth_error (bo_fields HV bo) k = Some p /\
    nth_error fields k = Some (name, data) /\ (forall k' f, (k' < k)%nat -> nth_error fields k' = Some f -> fst f <> name) /\
    forall r j, finite_point3 r -> in_mesh3 pts cells (point_value3 r) -> (0 <= j <= 2)%Z ->
    ((forall cell lo h v, file_near3 pts cells data (point_value3 r) cell lo h v -> let h' := rounded_edges3 lo h in
        clear_of3 (rounded_point3 lo) h' j (point_value3 r) /\ bpow radix2 (-1000) <= nth3 h' j /\ forall k, In k corners3 -> Rabs (to_double (v k)) <= bpow radix2 1000 * nth3 h' j) ->
     exists a g cell lo h v, answers3 (bo_mesh HV bo) p (QGrad j) r a /\ finite a /\ file_near3 pts cells data (point_value3 r) cell lo h v /\
       partial3 (trilinear lo h v) j (point_value3 r) g /\
       Rabs (value a - g) <= (31 * unit_roundoff + 2 * displacement3 lo h) * (rsum (fun k => Rabs (v k)) corners3 / nth3 (rounded_edges3 lo h) j) + 9 * tiny + 24 * tiny / nth3 (rounded_edges3 lo h) j) /\
    (exists a, answers3 (bo_mesh HV bo) p (QHess j j) r a /\ finite a /\ value a = 0).
Proof.
  intros pts cells fields t fuel name Ht Hr Hl A Rs Hin Hlen Hf.
  destruct (file_field3 _ _ _ _ _ _ Ht Hr Hl A Rs Hin Hlen Hf) as (bo & k & p & data & qs & ds & E & Hk & Hp & Hd & Hfirst & H64 & Vq & Pd & Hl').
  exists bo, k, p, data. do 5 (split; [assumption|]). intros r j Fr Hi Hj.
  assert (Hi' : in_mesh3 (map point_value3 qs) cells (point_value3 r)) by (rewrite Vq; exact (rounded_in3 _ _ _ A Hi)).
  pose proof (near_cell3 pts cells data qs ds r Hr A Vq Pd) as N. destruct constants as [U T].
  split; [|exact (pure_second3 qs cells ds (bo_mesh HV bo) p r j H64 Fr Hi' Hj)]. intros HC.
  destruct (gradient_error3 qs cells ds (bo_mesh HV bo) p r j H64 Hl' Fr Hi' Hj) as (a & g' & cell & lo' & h' & v' & Ha & Fa & Hn & Hg & He).
  { intros cell lo' h' v' Hn. destruct (N _ _ _ _ Hn) as (lo & h & v & Hfn & -> & -> & Hv & _ & _). destruct (HC _ _ _ _ Hfn) as (C1 & C2 & C3).
    split; [exact C1|]. split; [exact C2|]. intros i Hik. rewrite (Hv i Hik). exact (C3 i Hik). }
  destruct (N _ _ _ _ Hn) as (lo & h & v & Hfn & -> & -> & Hv & Hpos & Hpos').
  assert (g' = slope_at (rounded_point3 lo) (rounded_edges3 lo h) v' j (point_value3 r)) by (eapply partial3_unique; [exact Hg|apply slope_at_partial; assumption]). subst g'.
  exists a, (slope_at lo h v j (point_value3 r)), cell, lo, h, v. split; [exact Ha|]. split; [exact Fa|]. split; [exact Hfn|].
  split; [apply slope_at_partial; assumption|].
  destruct (totals_moved v v' Hv) as [T0 T1]. destruct Hfn as (_ & _ & Hnear & _).
  pose proof (slope_moved3 v v' lo h (point_value3 r) j Hpos Hpos' Hnear Hj) as M.
  assert (Ph : 0 < nth3 (rounded_edges3 lo h) j) by (destruct Hpos' as (Q1 & Q2 & Q3); assert (Ej : j = 0%Z \/ j = 1%Z \/ j = 2%Z) by lia; destruct Ej as [-> | [-> | ->]]; assumption).
  change (rsum (fun k => Rabs (v k)) corners3) with (total3 v). change (rsum (fun k => Rabs (v' k)) corners3) with (total3 v') in He.
  assert (PD : 0 <= displacement3 lo h).
  { unfold displacement3. destruct Hpos as (Hx & Hy & Hz). pose proof (displacement_pos (cx lo) _ Hx) as Px. pose proof (displacement_pos (cy lo) _ Hy) as Py. pose proof (displacement_pos (cz lo) _ Hz) as Pz.
    pose proof (Rmult_le_pos _ _ Px Py). pose proof (Rmult_le_pos _ _ Py Pz). pose proof (Rmult_le_pos _ _ Px Pz). pose proof (Rmult_le_pos _ _ (Rmult_le_pos _ _ Px Py) Pz). lra. }
  assert (Pv : 0 <= total3 v) by (rewrite total3_eq; pose proof (total_nonneg v); pose proof (total_nonneg (upper v)); lra). pose proof (Rmult_le_pos _ _ PD Pv) as PDv.
  pose proof (quotient_bound 28 8 unit_roundoff tiny (value a) (slope_at lo h v j (point_value3 r)) (slope_at (rounded_point3 lo) (rounded_edges3 lo h) v' j (point_value3 r)) (total3 v) (total3 v')
    (2 * displacement3 lo h) (nth3 (rounded_edges3 lo h) j) U T Pv Ph ltac:(lra) T1 ltac:(lra)) as B.
  replace (28 + 3) with 31 in B by ring. replace (3 * 8 * tiny) with (24 * tiny) in B by ring. apply B.
  - exact He.
  - eapply Rle_trans; [exact M|]. unfold Rdiv. apply Rmult_le_compat_r; [apply Rlt_le, Rinv_0_lt_compat, Ph|].
    assert (0 <= unit_roundoff * total3 v) by (apply Rmult_le_pos; lra). lra.
Qed.
