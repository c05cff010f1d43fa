(** Fields on rectangular meshes in binary64: the statements of C58. *)
From Coq Require Import ZArith List Bool Lia ZifyBool Reals Lra Psatz.
From Coq Require Import Floats.SpecFloat.
From Flocq Require Import Core BinarySingleNaN.
From Verif Require Import Model.Outcome Model.Num Model.NumInst Model.PNDArray Model.Bin Model.Interpolator Model.Quad Model.Mesh Model.PField.
From Verif Require Import Spec.Funcs Spec.Tensor Spec.NDHistory Spec.Grid Spec.Shape Spec.Fields Spec.Rounding.
From Verif Require Import Proofs.OutcomeP Proofs.PNDArrayP Proofs.BinP Proofs.MeshReadP Proofs.MeshRP Proofs.RectP Proofs.FieldP Proofs.FieldSafeP Proofs.LocalP Proofs.BinFloatP.
From Verif Require Import Proofs.RoundP Proofs.FloatShapeP Proofs.FloatAxisP Proofs.FloatMeshP Proofs.SlopeP Proofs.FloatFieldP.
Import ListNotations.
Local Open Scope Z_scope.

Local Open Scope R_scope.

Local Notation ip := (interp FOps (c2 FOps)).
Local Notation SF := (scalar_field FOps).

(** ** Second derivatives *)

Lemma hess_term : forall pts ax ay r i cell lo h blk px py k it (data : list f64) v q, used_cell pts ax ay r i cell lo h blk px py -> corner_it i cell lo h k it ->
  cell_data (map value data) cell corners2 v -> Forall (fun x : f64 => fin x) data -> q = QHess 0 1 \/ q = QHess 1 0 ->
  let D := (fst lo + fst h - fst lo) * (snd lo + snd h - snd lo) in
  bpow radix2 (-1000) <= fst lo + fst h - fst lo -> bpow radix2 (-1000) <= D <= bpow radix2 1000 ->
  clear1 (fst lo) (fst lo + fst h) (B2R (fst r : f64)) -> clear1 (snd lo) (snd lo + snd h) (B2R (snd r : f64)) ->
  corner_term (covr ax ay r) q r data (9 * u * / D) ((1 + 20 * u) * / D) it (pole_slope (xpole k) * pole_slope (ypole k) / D) (v k).
Proof.
  intros pts ax ay r i cell lo h blk px py k it data v q Hu Hc Hv Fd Hq D Hd HD Cx Cy.
  destruct (used_near _ _ _ _ _ _ _ _ _ _ _ Hu) as [Nx Ny]. pose proof (uncovered _ _ _ _ _ _ _ _ _ _ _ _ _ Hu Hc) as UC.
  destruct Hu as [Hx Hy Hsx Hsy _ Hr Rx Ry Tx Ty].
  destruct (corner_factors _ _ _ _ _ _ _ _ r Hsx Hsy Hc Hr Rx Ry Nx Ny) as (n & p & w & En & Eit & Es & Fwx & Fwy & Vwx & Vwy & _ & _).
  destruct (corner_data _ _ _ _ _ _ data v Hc Hv Fd) as (x & Ex & Fxx & Vx).
  destruct (hess_weight _ _ _ _ _ _ (fst w) (snd w) (xpole k) (ypole k) Hsx Hsy Hd HD Fwx Vwx Fwy Vwy) as (Fm & Em & Sm). fold D in Em, Sm.
  exists (ndiv FOps (ndiv FOps (nmul FOps (pole_sign (xpole k)) (pole_sign (ypole k))) (fst w)) (snd w)), x.
  split. { subst it. destruct Hq as [-> | ->]; unfold ask, quad_values; cbn [it_hess]; unfold quad_ddvalue; cbn [vget obind]; rewrite Es; reflexivity. }
  split; [exact Fm|]. split; [exact Ex|]. split; [exact Fxx|]. split; [exact Vx|]. split; [exact Sm|].
  split; [intros _; exact Em|]. intros Hn. exfalso.
  destruct (UC Hn) as [[G _]|[G _]]; apply G; eapply clear_within; eauto.
Qed.

Lemma hess_sum : forall pts ax ay r i cell lo h blk px py (data : list f64) v q, used_cell pts ax ay r i cell lo h blk px py -> positive2 h ->
  cell_data (map value data) cell corners2 v -> Forall (fun x : f64 => fin x) data -> q = QHess 0 1 \/ q = QHess 1 0 ->
  bpow radix2 (-1000) <= fst h -> bpow radix2 (-1000) <= fst h * snd h <= bpow radix2 1000 ->
  (forall k, In k corners2 -> Rabs (v k) <= bpow radix2 1000 * (fst h * snd h)) ->
  clear1 (fst lo) (fst lo + fst h) (B2R (fst r : f64)) -> clear1 (snd lo) (snd lo + snd h) (B2R (snd r : f64)) ->
  let a := fold_left (one_step (covr ax ay r) q r data) blk (nofZ FOps 0) in
  fin a /\ Rabs (B2R a - bilinear_twist h v) <= 15 * u * (rsum (fun k => Rabs (v k)) corners2 / (fst h * snd h)) + 8 * eta.
Proof.
  intros pts ax ay r i cell lo h blk px py data v q Hu [P1 P2] Hv Fd Hq Hd HD Hb Cx Cy.
  assert (Ex : fst lo + fst h - fst lo = fst h) by ring. assert (Ey : snd lo + snd h - snd lo = snd h) by ring.
  assert (Hd' : bpow radix2 (-1000) <= fst lo + fst h - fst lo) by (rewrite Ex; exact Hd).
  assert (HD' : bpow radix2 (-1000) <= (fst lo + fst h - fst lo) * (snd lo + snd h - snd lo) <= bpow radix2 1000) by (rewrite Ex, Ey; exact HD).
  destruct (four_its _ _ _ _ _ (uc_its _ _ _ _ _ _ _ _ _ _ _ Hu)) as (it0 & it1 & it2 & it3 & -> & C0 & C1 & C2 & C3).
  pose proof (hess_term _ _ _ _ _ _ _ _ _ _ _ _ _ data v q Hu C0 Hv Fd Hq Hd' HD' Cx Cy) as T0.
  pose proof (hess_term _ _ _ _ _ _ _ _ _ _ _ _ _ data v q Hu C1 Hv Fd Hq Hd' HD' Cx Cy) as T1.
  pose proof (hess_term _ _ _ _ _ _ _ _ _ _ _ _ _ data v q Hu C2 Hv Fd Hq Hd' HD' Cx Cy) as T2.
  pose proof (hess_term _ _ _ _ _ _ _ _ _ _ _ _ _ data v q Hu C3 Hv Fd Hq Hd' HD' Cx Cy) as T3.
  cbn [xpole ypole pole_slope] in T0, T1, T2, T3. cbv zeta in T0, T1, T2, T3. rewrite Ex, Ey in T0, T1, T2, T3.
  destruct (scaled_sum _ _ _ _ _ _ _ _ _ _ _ _ _ v (Rmult_lt_0_compat _ _ P1 P2) Hb T0 T1 T2 T3) as [F E].
  cbv zeta. split; [exact F|].
  match type of E with Rabs (_ - ?s) <= _ => assert (Es : bilinear_twist h v = s) end.
  { unfold bilinear_twist. field. split; lra. }
  rewrite Es. exact E.
Qed.

Lemma hess_same : forall pts ax ay r i cell lo h blk px py (data : list f64) v j, used_cell pts ax ay r i cell lo h blk px py ->
  cell_data (map value data) cell corners2 v -> Forall (fun x : f64 => fin x) data -> (0 <= j <= 1)%Z ->
  fold_left (one_step (covr ax ay r) (QHess j j) r data) blk (nofZ FOps 0) = nofZ FOps 0.
Proof.
  intros pts ax ay r i cell lo h blk px py data v j Hu Hv Fd Hj.
  assert (G : forall k it, corner_it i cell lo h k it -> one_step (covr ax ay r) (QHess j j) r data (nofZ FOps 0) it = nofZ FOps 0).
  { intros k it Hc. destruct (corner_data _ _ _ _ _ _ data v Hc Hv Fd) as (x & Ex & Fx & _).
    destruct (corner_parts _ _ _ _ _ _ Hc) as (_ & n & p & w & _ & -> & _). unfold one_step. destruct (covr ax ay r _); [|reflexivity].
    unfold addc. rewrite Ex. assert (E : j = 0%Z \/ j = 1%Z) by lia.
    destruct E as [-> | ->]; exact (f64_skip (nofZ FOps 0) x f64_zero_plain Fx). }
  destruct (four_its _ _ _ _ _ (uc_its _ _ _ _ _ _ _ _ _ _ _ Hu)) as (it0 & it1 & it2 & it3 & -> & C0 & C1 & C2 & C3).
  cbn [fold_left]. rewrite (G _ _ C0), (G _ _ C1), (G _ _ C2), (G _ _ C3). reflexivity.
Qed.

(** ** Statements *)

Lemma filter_shorter : forall (A : Type) (f : A -> bool) l, (List.length (filter f l) <= List.length l)%nat.
Proof. intros A f l. induction l as [|x l IH]; simpl; [lia|]. destruct (f x); simpl; lia. Qed.

Lemma reads64 : forall pts cells, Forall finite_point pts -> rect_mesh (map point_value pts) cells ->
  resolved (map fst (map point_value pts)) -> resolved (map snd (map point_value pts)) ->
  exists m, mesh_of (K := quad_kind FOps) pts cells m /\
    forall data name, (List.length pts <= List.length data)%nat -> exists p0, pf_new (F := SF) name m data (nofZ FOps 0) = Ok p0 /\
      field_on (F := SF) m data (nofZ FOps 0) p0.
Proof.
  intros pts cells Fp Hr Rx Ry. destruct (mesh_reads64 pts cells Fp Hr Rx Ry) as (ax & ay & m1 & m & E1 & E2 & Hm).
  exists m. split; [exists m1; auto|]. intros data name Hd.
  assert (Hmr : mesh_read m) by (eapply mesh_of_read; exists m1; eauto).
  assert (Hsz : exists mx, mesh_max_bin_size m = Ok mx /\ (mx <= int_max)%Z).
  { destruct (max_size_spec _ _ _ _ _ (m64_inv _ _ _ _ _ Hm)) as (sz & Hsz & _ & t & l & Ht & Hl & <-). exists (Z.of_nat (List.length l)). split; [exact Hsz|].
    rewrite (m64_view _ _ _ _ _ Hm t Ht) in Hl. injection Hl as <-. destruct Hr as (_ & _ & _ & Hn).
    eapply Z.le_trans; [|exact Hn]. eapply Z.le_trans; [apply inj_le, filter_shorter|].
    pose proof (m64_built _ _ _ _ _ Hm) as B. clear -B. induction B as [|i cell cells lo h its rest _ B' B IH]; simpl List.length; [lia|].
    rewrite app_length. apply Forall2_len in B'. simpl List.length in B'. lia. }
  destruct Hsz as (sz & Hsz & Hle). eexists. split.
  - unfold pf_new. rewrite Hsz. reflexivity.
  - split; [exact Hmr|]. split; [rewrite (m64_node _ _ _ _ _ Hm); exact Hd|]. split; [eauto|]. exists name. unfold pf_new. rewrite Hsz. reflexivity.
Qed.

Lemma field_cell : forall pts cells data m p0 (r : c2 FOps), field64 pts cells data m p0 -> finite_point r ->
  in_mesh2 (map point_value pts) cells (point_value r) ->
  exists ax ay i cell lo h blk px py v, used_cell pts ax ay r i cell lo h blk px py /\ positive2 h /\ cell_near pts cells data r cell lo h v /\
    forall q, on_axes 2 q -> answers m p0 q r (fold_left (one_step (covr ax ay r) q r data) blk (nofZ FOps 0)).
Proof.
  intros pts cells data m p0 r (Fp & Hr & Rx & Ry & Hof & Hon & Fd) Fr Hin.
  destruct (mesh_reads64 pts cells Fp Hr Rx Ry) as (ax & ay & m1 & m2 & E1 & E2 & Hm).
  assert (m2 = m) as -> by (destruct Hof as (m1' & A & B); congruence).
  destruct (eval_block _ _ _ _ _ _ _ r Hm Hon Fd Fr Hin) as (i & cell & lo & h & blk & px & py & Hcell & Hc & Hits & Tx & Ty & Hev).
  destruct (rect_sides _ _ _ _ (m64_small _ _ _ _ _ Hm) Hc) as [Sx Sy].
  assert (Rr : Rabs (B2R (fst r : f64)) <= bpow radix2 1001 /\ Rabs (B2R (snd r : f64)) <= bpow radix2 1001).
  { destruct Hin as (c' & lo' & h' & _ & Hc' & Hi'). destruct (in_rect_between _ _ _ (proj1 Hc') Hi') as [Bx By]. cbn [point_value fst snd] in Bx, By. unfold value in Bx, By.
    destruct (rect_sides _ _ _ _ (m64_small _ _ _ _ _ Hm) Hc') as [S1 S2].
    destruct (side_1000 _ _ _ S1) as (_ & _ & _ & A4 & A5). destruct (side_1000 _ _ _ S2) as (_ & _ & _ & B4 & B5).
    assert (E : bpow radix2 1001 = 2 * bpow radix2 1000) by (change 2 with (bpow radix2 1); rewrite <- bpow_plus; reflexivity).
    rabs A4. rabs A5. rabs B4. rabs B5. split; apply Rabs_le; lra. }
  assert (Hu : used_cell pts ax ay r i cell lo h blk px py).
  { constructor; try assumption; try exact (m64_x _ _ _ _ _ Hm); try exact (m64_y _ _ _ _ _ Hm); apply Rr. }
  exists ax, ay, i, cell, lo, h, blk, px, py, (cellv (map value data) cell). split; [exact Hu|]. split; [exact (proj1 Hc)|]. split.
  - split; [exact Hcell|]. split; [exact Hc|]. split.
    + destruct (used_near _ _ _ _ _ _ _ _ _ _ _ Hu) as [Nx Ny]. unfold near in Nx, Ny. unfold near_rect, near1, tiny, point_value, value. cbn [fst snd].
      assert (Ex : fst lo + fst h - fst lo = fst h) by ring. assert (Ey : snd lo + snd h - snd lo = snd h) by ring.
      rewrite Ex in Nx. rewrite Ey in Ny. split; assumption.
    + eapply cellv_data; [exact Hc|]. rewrite !map_length. destruct Hon as (_ & L & _). rewrite (m64_node _ _ _ _ _ Hm) in L. exact L.
  - intros q Hq hist m' p' Hh. exact (Hev q hist m' p' Hq Hh).
Qed.

Lemma cell_data_in : forall (data : list f64) cell v k, cell_data (map value data) cell corners2 v -> In k corners2 -> exists x, In x data /\ v k = value x.
Proof.
  intros data cell v k Hv Hk. destruct (Hv k Hk) as (n & _ & E). apply vget_in in E. apply in_map_iff in E. destruct E as (x & E & Hx). eauto.
Qed.

Lemma value_error : forall pts cells data m p0 (r : c2 FOps), field64 pts cells data m p0 -> finite_point r ->
  in_mesh2 (map point_value pts) cells (point_value r) -> (forall x, In x data -> Rabs (value x) <= bpow radix2 1000) ->
  exists a cell lo h v, answers m p0 QVal r a /\ finite a /\ cell_near pts cells data r cell lo h v /\
    Rabs (value a - bilinear lo h v (point_value r)) <= 20 * unit_roundoff * rsum (fun k => Rabs (v k)) corners2 + 8 * tiny.
Proof.
  intros pts cells data m p0 r Hf Fr Hin Hd. destruct (field_cell _ _ _ _ _ _ Hf Fr Hin) as (ax & ay & i & cell & lo & h & blk & px & py & v & Hu & Hp & Hn & Ha).
  assert (Fd : Forall (fun x : f64 => fin x) data) by apply Hf. pose proof Hn as (_ & _ & _ & Hv).
  destruct (value_sum _ _ _ _ _ _ _ _ _ _ _ data v Hu Hp Hv Fd) as [F E].
  { intros k Hk. destruct (cell_data_in _ _ _ _ Hv Hk) as (x & Hx & ->). auto. }
  eexists. exists cell, lo, h, v. split; [exact (Ha QVal I)|]. split; [exact F|]. split; [exact Hn|]. exact E.
Qed.

Lemma clear_clear1 : forall lo h r, (clear_of lo h 0 (point_value r) -> clear1 (fst lo) (fst lo + fst h) (B2R (fst r : f64))) /\
  (clear_of lo h 1 (point_value r) -> clear1 (snd lo) (snd lo + snd h) (B2R (snd r : f64))).
Proof.
  intros lo h r. unfold clear_of, clear1, point_value, value, unit_roundoff. cbn [nth2 fst snd].
  assert (Ex : fst lo + fst h - fst lo = fst h) by ring. assert (Ey : snd lo + snd h - snd lo = snd h) by ring. rewrite Ex, Ey. auto.
Qed.

Lemma gradient_error : forall pts cells data m p0 (r : c2 FOps) j, field64 pts cells data m p0 -> finite_point r ->
  in_mesh2 (map point_value pts) cells (point_value r) -> (0 <= j <= 1)%Z ->
  (forall cell lo h v, cell_near pts cells data r cell lo h v ->
     clear_of lo h j (point_value r) /\ bpow radix2 (-1000) <= nth2 h j /\ forall k, In k corners2 -> Rabs (v k) <= bpow radix2 1000 * nth2 h j) ->
  exists a g cell lo h v, answers m p0 (QGrad j) r a /\ finite a /\ cell_near pts cells data r cell lo h v /\
    partial2 (bilinear lo h v) j (point_value r) g /\
    Rabs (value a - g) <= 15 * unit_roundoff * (rsum (fun k => Rabs (v k)) corners2 / nth2 h j) + 8 * tiny.
Proof.
  intros pts cells data m p0 r j Hf Fr Hin Hj Hd. destruct (field_cell _ _ _ _ _ _ Hf Fr Hin) as (ax & ay & i & cell & lo & h & blk & px & py & v & Hu & Hp & Hn & Ha).
  assert (Fd : Forall (fun x : f64 => fin x) data) by apply Hf. pose proof Hn as (_ & _ & _ & Hv).
  destruct (Hd _ _ _ _ Hn) as (Cl & Hs & Hb).
  assert (Hq : on_axes 2 (QGrad j)) by (simpl; lia).
  eexists. exists (bilinear_slope lo h v j (point_value r)), cell, lo, h, v.
  split; [exact (Ha _ Hq)|]. assert (E : j = 0%Z \/ j = 1%Z) by lia. destruct E as [-> | ->]; cbn [nth2] in Hs, Hb.
  - destruct (grad0_sum _ _ _ _ _ _ _ _ _ _ _ data v Hu Hp Hv Fd Hs Hb (proj1 (clear_clear1 lo h r) Cl)) as [F E].
    split; [exact F|]. split; [exact Hn|]. split; [apply bilinear_partial; auto; lia|]. exact E.
  - destruct (grad1_sum _ _ _ _ _ _ _ _ _ _ _ data v Hu Hp Hv Fd Hs Hb (proj2 (clear_clear1 lo h r) Cl)) as [F E].
    split; [exact F|]. split; [exact Hn|]. split; [apply bilinear_partial; auto; lia|]. exact E.
Qed.

Lemma mixed_error : forall pts cells data m p0 (r : c2 FOps) j l, field64 pts cells data m p0 -> finite_point r ->
  in_mesh2 (map point_value pts) cells (point_value r) -> (0 <= j <= 1)%Z -> (0 <= l <= 1)%Z -> j <> l ->
  (forall cell lo h v, cell_near pts cells data r cell lo h v ->
     clear_of lo h 0 (point_value r) /\ clear_of lo h 1 (point_value r) /\ bpow radix2 (-1000) <= fst h /\
     bpow radix2 (-1000) <= fst h * snd h <= bpow radix2 1000 /\ forall k, In k corners2 -> Rabs (v k) <= bpow radix2 1000 * (fst h * snd h)) ->
  exists a g cell lo h v, answers m p0 (QHess j l) r a /\ finite a /\ cell_near pts cells data r cell lo h v /\
    second2 (bilinear lo h v) j l (point_value r) g /\
    Rabs (value a - g) <= 15 * unit_roundoff * (rsum (fun k => Rabs (v k)) corners2 / (fst h * snd h)) + 8 * tiny.
Proof.
  intros pts cells data m p0 r j l Hf Fr Hin Hj Hl Hjl Hd. destruct (field_cell _ _ _ _ _ _ Hf Fr Hin) as (ax & ay & i & cell & lo & h & blk & px & py & v & Hu & Hp & Hn & Ha).
  assert (Fd : Forall (fun x : f64 => fin x) data) by apply Hf. pose proof Hn as (_ & _ & _ & Hv).
  destruct (Hd _ _ _ _ Hn) as (Cx & Cy & Hs & HD & Hb).
  assert (Hq : on_axes 2 (QHess j l)) by (simpl; lia).
  assert (E0 : QHess j l = QHess 0 1 \/ QHess j l = QHess 1 0).
  { assert (j = 0 /\ l = 1 \/ j = 1 /\ l = 0)%Z as [[-> ->]|[-> ->]] by lia; auto. }
  destruct (hess_sum _ _ _ _ _ _ _ _ _ _ _ data v _ Hu Hp Hv Fd E0 Hs HD Hb (proj1 (clear_clear1 lo h r) Cx) (proj2 (clear_clear1 lo h r) Cy)) as [F E].
  eexists. exists (bilinear_twist h v), cell, lo, h, v. split; [exact (Ha _ Hq)|]. split; [exact F|]. split; [exact Hn|]. split; [|exact E].
  pose proof (bilinear_second lo h v j l (point_value r) Hp Hj Hl) as S. destruct (Z.eqb_spec j l) as [e|_]; [contradiction|exact S].
Qed.

Lemma pure_second : forall pts cells data m p0 (r : c2 FOps) j, field64 pts cells data m p0 -> finite_point r ->
  in_mesh2 (map point_value pts) cells (point_value r) -> (0 <= j <= 1)%Z ->
  exists a, answers m p0 (QHess j j) r a /\ finite a /\ value a = 0.
Proof.
  intros pts cells data m p0 r j Hf Fr Hin Hj. destruct (field_cell _ _ _ _ _ _ Hf Fr Hin) as (ax & ay & i & cell & lo & h & blk & px & py & v & Hu & Hp & Hn & Ha).
  assert (Fd : Forall (fun x : f64 => fin x) data) by apply Hf. pose proof Hn as (_ & _ & _ & Hv).
  assert (Hq : on_axes 2 (QHess j j)) by (simpl; lia).
  exists (nofZ FOps 0). split; [|split; reflexivity]. rewrite <- (hess_same _ _ _ _ _ _ _ _ _ _ _ data v j Hu Hv Fd Hj). exact (Ha _ Hq).
Qed.
