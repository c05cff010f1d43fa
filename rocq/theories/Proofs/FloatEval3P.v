(** Fields on meshes of boxes in binary64: the statements of C66. *)
From Coquelicot Require Import Coquelicot.
From Coq Require Import ZArith List Bool Lia ZifyBool Reals Lra Psatz.
From Coq Require Import Floats.SpecFloat.
From Flocq Require Import Core BinarySingleNaN.
From Verif Require Import Model.Outcome Model.Num Model.NumInst Model.PNDArray Model.Bin Model.Interpolator Model.Hexahedron Model.Mesh Model.PField.
From Verif Require Import Spec.Funcs Spec.Tensor Spec.NDHistory Spec.Grid Spec.Shape Spec.Fields Spec.Rounding Spec.Rounding3.
From Verif Require Import Proofs.OutcomeP Proofs.PNDArrayP Proofs.BinP Proofs.MeshReadP Proofs.MeshRP Proofs.RectP Proofs.HexP Proofs.FieldP Proofs.FieldSafeP Proofs.LocalP Proofs.BinFloatP.
From Verif Require Import Proofs.RoundP Proofs.FloatShapeP Proofs.FloatAxisP Proofs.FloatMeshP Proofs.FloatFieldP Proofs.FloatEvalP Proofs.FloatMesh3P Proofs.FloatField3P.
Import ListNotations.
Local Open Scope R_scope.

Local Notation ip := (interp FOps (c3 FOps)).
Local Notation SF := (scalar_field FOps).

(** ** Reading *)

Lemma reads64_3 : forall pts cells, Forall finite_point3 pts -> box_mesh (map point_value3 pts) cells -> resolved3 (map point_value3 pts) ->
  exists m, mesh_of (K := hex_kind FOps) pts cells m /\
    forall data name, (List.length pts <= List.length data)%nat -> exists p0, pf_new (F := SF) name m data (nofZ FOps 0) = Ok p0 /\
      field_on (F := SF) m data (nofZ FOps 0) p0.
Proof.
  intros pts cells Fp Hr Rs. destruct (mesh_reads3 pts cells Fp Hr Rs) as (A & m1 & m & E1 & E2 & Hm).
  exists m. split; [exists m1; auto|]. intros data name Hd.
  assert (Hmr : mesh_read m) by (eapply RectP.mesh_of_read; exists m1; eauto).
  assert (Hsz : exists mx, mesh_max_bin_size m = Ok mx /\ (mx <= int_max)%Z).
  { destruct (max_size_spec _ _ _ _ _ (m3_inv _ _ _ _ Hm)) as (sz & Hsz & _ & t & l & Ht & Hl & <-). exists (Z.of_nat (List.length l)). split; [exact Hsz|].
    rewrite (m3_view _ _ _ _ Hm t Ht) in Hl. injection Hl as <-. destruct Hr as (_ & _ & _ & Hn).
    eapply Z.le_trans; [|exact Hn]. eapply Z.le_trans; [apply inj_le, filter_shorter|].
    pose proof (m3_built _ _ _ _ Hm) as B. clear -B. induction B as [|i cell cells lo h its rest _ B' B IH]; simpl List.length; [lia|].
    rewrite app_length. apply Forall2_len in B'. simpl List.length in B'. lia. }
  destruct Hsz as (sz & Hsz & Hle). eexists. split.
  - unfold pf_new. rewrite Hsz. reflexivity.
  - split; [exact Hmr|]. split; [rewrite (m3_node _ _ _ _ Hm); exact Hd|]. split; [eauto|]. exists name. unfold pf_new. rewrite Hsz. reflexivity.
Qed.

(** ** Evaluating *)

Lemma evaluates3 : forall pts cells data m p0 (r : c3 FOps) q, field64_3 pts cells data m p0 -> finite_point3 r ->
  in_mesh3 (map point_value3 pts) cells (point_value3 r) -> on_axes 3 q -> exists a, answers3 m p0 q r a.
Proof.
  intros pts cells data m p0 r q (Fp & Hr & Rs & Hof & Hon & Fd) Fr Hin Hq.
  destruct (mesh_reads3 pts cells Fp Hr Rs) as (A & m1 & m2 & E1 & E2 & Hm).
  assert (m2 = m) as -> by (destruct Hof as (m1' & C & D); congruence).
  destruct (eval_block3 _ _ _ _ _ _ r Hm Hon Fd Fr Hin) as (_ & i & cell & lo & h & blk & px & py & _ & _ & _ & _ & _ & Hev).
  eexists. exact (Hev q Hq).
Qed.

Lemma field_cell3 : forall pts cells data m p0 (r : c3 FOps), field64_3 pts cells data m p0 -> one_layer (map point_value3 pts) cells -> finite_point3 r ->
  in_mesh3 (map point_value3 pts) cells (point_value3 r) ->
  exists A i cell lo h blk px py pz v, used_cell3 pts A r i cell lo h blk px py pz /\ positive3 h /\ cell_near3 pts cells data r cell lo h v /\
    forall q, on_axes 3 q -> answers3 m p0 q r (fold_left (one_step3 (cov3 A r) q r data) blk (nofZ FOps 0)).
Proof.
  intros pts cells data m p0 r (Fp & Hr & Rs & Hof & Hon & Fd) (z & dz & Hlay) Fr Hin.
  destruct (mesh_reads3 pts cells Fp Hr Rs) as (A & m1 & m2 & E1 & E2 & Hm).
  assert (m2 = m) as -> by (destruct Hof as (m1' & C & D); congruence).
  destruct (eval_block3 _ _ _ _ _ _ r Hm Hon Fd Fr Hin) as (Rr & i & cell & lo & h & blk & px & py & Hcell & Hc & Hits & Tx & Ty & Hev).
  pose proof (box_sides _ _ _ _ (m3_small _ _ _ _ Hm) Hc) as Hs. pose proof Hs as (_ & _ & Sz).
  pose proof (m3_axes _ _ _ _ Hm) as HA. pose proof HA as (_ & _ & Hz).
  destruct Hin as (c' & lo' & h' & Hc1 & Hc' & (_ & _ & Bz)).
  apply (between_side _ _ _ (proj2 (proj2 (proj1 Hc')))) in Bz. cbn [point_value3 cz] in Bz. unfold value in Bz.
  destruct (Hlay _ _ _ Hc1 Hc') as [Ez Ed]. destruct (Hlay _ _ _ Hcell Hc) as [Ez' Ed'].
  rewrite Ez, Ed, <- Ez', <- Ed' in Bz.
  destruct (axis_taken _ _ _ _ _ Hz Sz (f64_fmt (cz r)) Bz) as (pz & Tz).
  assert (Hu : used_cell3 pts A r i cell lo h blk px py pz) by (constructor; assumption).
  exists A, i, cell, lo, h, blk, px, py, pz, (cellv (map value data) cell). split; [exact Hu|]. split; [exact (proj1 Hc)|]. split.
  - split; [exact Hcell|]. split; [exact Hc|]. split.
    + destruct (used_near3 _ _ _ _ _ _ _ _ _ _ _ Hu) as (Nx & Ny & Nz). unfold near in Nx, Ny, Nz. unfold near_box, near1, tiny, point_value3, value. cbn [cx cy cz].
      assert (Ex : cx lo + cx h - cx lo = cx h) by ring. assert (Ey : cy lo + cy h - cy lo = cy h) by ring. assert (Ezz : cz lo + cz h - cz lo = cz h) by ring.
      rewrite Ex in Nx. rewrite Ey in Ny. rewrite Ezz in Nz. repeat split; tauto.
    + eapply cellv_data3; [exact Hc|]. rewrite !map_length. destruct Hon as (_ & L & _). rewrite (m3_node _ _ _ _ Hm) in L. exact L.
  - intros q Hq. exact (Hev q Hq).
Qed.

Lemma cell_data_in3 : forall (data : list f64) cell v k, cell_data (map value data) cell corners3 v -> In k corners3 -> exists x, In x data /\ v k = value x.
Proof.
  intros data cell v k Hv Hk. destruct (Hv k Hk) as (n & _ & E). apply vget_in in E. apply in_map_iff in E. destruct E as (x & E & Hx). eauto.
Qed.

Lemma value_error3 : forall pts cells data m p0 (r : c3 FOps), field64_3 pts cells data m p0 -> one_layer (map point_value3 pts) cells -> finite_point3 r ->
  in_mesh3 (map point_value3 pts) cells (point_value3 r) -> (forall x, In x data -> Rabs (value x) <= bpow radix2 1000) ->
  exists a cell lo h v, answers3 m p0 QVal r a /\ finite a /\ cell_near3 pts cells data r cell lo h v /\
    Rabs (value a - trilinear lo h v (point_value3 r)) <= 33 * unit_roundoff * rsum (fun k => Rabs (v k)) corners3 + 9 * tiny.
Proof.
  intros pts cells data m p0 r Hf Hl Fr Hin Hd. destruct (field_cell3 _ _ _ _ _ _ Hf Hl Fr Hin) as (A & i & cell & lo & h & blk & px & py & pz & v & Hu & Hp & Hn & Ha).
  assert (Fd : Forall (fun x : f64 => fin x) data) by apply Hf. pose proof Hn as (_ & _ & _ & Hv).
  destruct (value_sum3 _ _ _ _ _ _ _ _ _ _ _ data v Hu Hp Hv Fd) as [F E].
  { intros k Hk. destruct (cell_data_in3 _ _ _ _ Hv Hk) as (x & Hx & ->). auto. }
  eexists. exists cell, lo, h, v. split; [exact (Ha QVal I)|]. split; [exact F|]. split; [exact Hn|]. exact E.
Qed.

(** ** Gradients *)

Definition slope3 (j : Z) : point3 -> point3 -> Z -> c3 FOps -> R := match j with 0%Z => slope_x | 1%Z => slope_y | _ => slope_z end.

Lemma trilinear_partial : forall lo h v j (r : c3 FOps), positive3 h -> (0 <= j <= 2)%Z ->
  partial3 (trilinear lo h v) j (point_value3 r) (rsum (fun k => slope3 j lo h k r * v k) corners3).
Proof.
  intros lo h v j r (P1 & P2 & P3) Hj. assert (E : j = 0%Z \/ j = 1%Z \/ j = 2%Z) by lia.
  unfold partial3, rsum, corners3. cbn [fold_right]. change (num ROps) with R in *.
  destruct E as [-> | [-> | ->]]; cbn [slope3 upd3 nth3 point_value3 cx cy cz]; unfold slope_x, slope_y, slope_z, ffx, ffy, ffz, factor, trilinear, bilinear;
    cbn [pole_x pole_y pole_z pole_slope pole_dist fst snd cx cy cz Z.add Pos.add Pos.succ]; unfold value;
    generalize (B2R (cx r : f64)) (B2R (cy r : f64)) (B2R (cz r : f64)); intros x y z; destruct lo as [a b c], h as [d e f]; cbn [cx cy cz] in *;
    change (num ROps) with R in *; auto_derive; auto; field; repeat split; lra.
Qed.

Lemma clear_clear3 : forall lo h r, (clear_of3 lo h 0 (point_value3 r) -> clear1 (cx lo) (cx lo + cx h) (B2R (cx r : f64))) /\
  (clear_of3 lo h 1 (point_value3 r) -> clear1 (cy lo) (cy lo + cy h) (B2R (cy r : f64))) /\
  (clear_of3 lo h 2 (point_value3 r) -> clear1 (cz lo) (cz lo + cz h) (B2R (cz r : f64))).
Proof.
  intros lo h r. unfold clear_of3, clear1, point_value3, value, unit_roundoff. cbn [nth3 cx cy cz].
  assert (Ex : cx lo + cx h - cx lo = cx h) by ring. assert (Ey : cy lo + cy h - cy lo = cy h) by ring. assert (Ez : cz lo + cz h - cz lo = cz h) by ring.
  rewrite Ex, Ey, Ez. auto.
Qed.

Lemma gradient_error3 : forall pts cells data m p0 (r : c3 FOps) j, field64_3 pts cells data m p0 -> one_layer (map point_value3 pts) cells -> finite_point3 r ->
  in_mesh3 (map point_value3 pts) cells (point_value3 r) -> (0 <= j <= 2)%Z ->
  (forall cell lo h v, cell_near3 pts cells data r cell lo h v ->
     clear_of3 lo h j (point_value3 r) /\ bpow radix2 (-1000) <= nth3 h j /\ forall k, In k corners3 -> Rabs (v k) <= bpow radix2 1000 * nth3 h j) ->
  exists a g cell lo h v, answers3 m p0 (QGrad j) r a /\ finite a /\ cell_near3 pts cells data r cell lo h v /\
    partial3 (trilinear lo h v) j (point_value3 r) g /\
    Rabs (value a - g) <= 28 * unit_roundoff * (rsum (fun k => Rabs (v k)) corners3 / nth3 h j) + 9 * tiny.
Proof.
  intros pts cells data m p0 r j Hf Hl Fr Hin Hj Hd. destruct (field_cell3 _ _ _ _ _ _ Hf Hl Fr Hin) as (A & i & cell & lo & h & blk & px & py & pz & v & Hu & Hp & Hn & Ha).
  assert (Fd : Forall (fun x : f64 => fin x) data) by apply Hf. pose proof Hn as (_ & _ & _ & Hv).
  destruct (Hd _ _ _ _ Hn) as (Cl & Hs & Hb).
  assert (Hq : on_axes 3 (QGrad j)) by (simpl; lia). pose proof (trilinear_partial lo h v j r Hp Hj) as Pt. destruct Hp as (P1 & P2 & P3).
  eexists. eexists. exists cell, lo, h, v.
  split; [exact (Ha _ Hq)|]. assert (E : j = 0%Z \/ j = 1%Z \/ j = 2%Z) by lia. destruct E as [-> | [-> | ->]]; cbn [nth3] in Hs, Hb.
  - destruct (grad_sum_x _ _ _ _ _ _ _ _ _ _ _ data v Hu P1 Hv Fd Hs Hb (proj1 (clear_clear3 lo h r) Cl)) as [F E].
    split; [exact F|]. split; [exact Hn|]. split; [exact Pt|]. exact E.
  - destruct (grad_sum_y _ _ _ _ _ _ _ _ _ _ _ data v Hu P2 Hv Fd Hs Hb (proj1 (proj2 (clear_clear3 lo h r)) Cl)) as [F E].
    split; [exact F|]. split; [exact Hn|]. split; [exact Pt|]. exact E.
  - destruct (grad_sum_z _ _ _ _ _ _ _ _ _ _ _ data v Hu P3 Hv Fd Hs Hb (proj2 (proj2 (clear_clear3 lo h r)) Cl)) as [F E].
    split; [exact F|]. split; [exact Hn|]. split; [exact Pt|]. exact E.
Qed.

(** ** Pure second derivatives *)

Lemma hess_same3 : forall A r i cell lo h blk (data : list f64) v j, cell_its3 i cell lo h blk ->
  cell_data (map value data) cell corners3 v -> Forall (fun x : f64 => fin x) data -> (0 <= j <= 2)%Z ->
  fold_left (one_step3 (cov3 A r) (QHess j j) r data) blk (nofZ FOps 0) = nofZ FOps 0.
Proof.
  intros A r i cell lo h blk data v j Hits Hv Fd Hj.
  assert (G : forall k it, corner_it3 i cell lo h k it -> one_step3 (cov3 A r) (QHess j j) r data (nofZ FOps 0) it = nofZ FOps 0).
  { intros k it Hc. destruct (corner_data3 _ _ _ _ _ _ data v Hc Hv Fd) as (x & Ex & Fx & _).
    destruct (corner_parts3 _ _ _ _ _ _ Hc) as (_ & n & p & w & _ & -> & _). unfold one_step3. destruct (cov3 A r _); [|reflexivity].
    unfold addc3. rewrite Ex. assert (E : j = 0%Z \/ j = 1%Z \/ j = 2%Z) by lia.
    destruct E as [-> | [-> | ->]]; exact (f64_skip (nofZ FOps 0) x f64_zero_plain Fx). }
  unfold cell_its3 in Hits. clear Hv. induction Hits as [|k it ks its Hk B IH]; [reflexivity|].
  cbn [fold_left]. rewrite (G _ _ Hk). exact IH.
Qed.

Lemma pure_second3 : forall pts cells data m p0 (r : c3 FOps) j, field64_3 pts cells data m p0 -> finite_point3 r ->
  in_mesh3 (map point_value3 pts) cells (point_value3 r) -> (0 <= j <= 2)%Z ->
  exists a, answers3 m p0 (QHess j j) r a /\ finite a /\ value a = 0.
Proof.
  intros pts cells data m p0 r j (Fp & Hr & Rs & Hof & Hon & Fd) Fr Hin Hj.
  destruct (mesh_reads3 pts cells Fp Hr Rs) as (A & m1 & m2 & E1 & E2 & Hm).
  assert (m2 = m) as -> by (destruct Hof as (m1' & C & D); congruence).
  destruct (eval_block3 _ _ _ _ _ _ r Hm Hon Fd Fr Hin) as (_ & i & cell & lo & h & blk & px & py & _ & Hc & Hits & _ & _ & Hev).
  assert (Hv : cell_data (map value data) cell corners3 (cellv (map value data) cell)).
  { eapply cellv_data3; [exact Hc|]. rewrite !map_length. destruct Hon as (_ & L & _). rewrite (m3_node _ _ _ _ Hm) in L. exact L. }
  assert (Hq : on_axes 3 (QHess j j)) by (simpl; lia).
  exists (nofZ FOps 0). split; [|split; reflexivity]. rewrite <- (hess_same3 A r _ _ _ _ _ data _ j Hits Hv Fd Hj). exact (Hev _ Hq).
Qed.
