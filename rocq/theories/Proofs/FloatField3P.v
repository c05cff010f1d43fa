(** Evaluating a field on boxes in binary64: C66. *)
From Coq Require Import ZArith List Bool Lia ZifyBool Reals Lra Psatz.
From Coq Require Import Floats.SpecFloat.
From Flocq Require Import Core BinarySingleNaN.
From Verif Require Import Model.Outcome Model.Num Model.NumInst Model.PNDArray Model.Bin Model.Interpolator Model.Hexahedron Model.Mesh Model.PField.
From Verif Require Import Spec.Funcs Spec.Tensor Spec.NDHistory Spec.Grid Spec.Shape Spec.Fields Spec.Rounding Spec.Rounding3.
From Verif Require Import Proofs.OutcomeP Proofs.PNDArrayP Proofs.BinP Proofs.MeshReadP Proofs.MeshRP Proofs.HexP Proofs.FieldP Proofs.FieldSafeP Proofs.LocalP Proofs.BinFloatP.
From Verif Require Import Proofs.RoundP Proofs.FloatShapeP Proofs.FloatAxisP Proofs.FloatMeshP Proofs.FloatFieldP Proofs.FloatMesh3P.
Import ListNotations.
Local Open Scope Z_scope.

Local Notation ip := (interp FOps (c3 FOps)).
Local Notation SF := (scalar_field FOps).

(** ** The sum of an evaluation *)

Definition addc3 (q : quantity) (r : c3 FOps) (data : list f64) (s : f64) (it : ip) : f64 :=
  match ask (K := hex_kind FOps) q r it, vget data (it_node it) with
  | Ok w, Ok v => nadd FOps s (nmul FOps w v)
  | _, _ => s
  end.

Lemma wsum_elem3 : forall q r (data : list f64) el (its : list ip) ws vs s, Forall (fun x : f64 => fin x) data -> not_minus_zero s ->
  Forall2 (fun it w => weigh (K := hex_kind FOps) (ask q r) el it = Ok w) its ws -> Forall2 (fun it v => vget data (it_node it) = Ok v) its vs ->
  wsum (F := SF) s (combine ws vs) = fold_left (addc3 q r data) (filter (fun it => it_elem it =? el) its) s.
Proof.
  intros q r data el its ws vs s Fd. revert ws vs s. induction its as [|it its IH]; intros ws vs s Hs Hw Hv; inversion Hw; subst; inversion Hv; subst; [reflexivity|].
  unfold wsum in *. cbn [combine fold_left filter].
  match goal with H : weigh _ _ it = Ok ?w |- _ => rename H into Ew; rename w into w0 end.
  match goal with H : vget data (it_node it) = Ok ?w |- _ => rename H into Ev; rename w into v0 end.
  assert (Fv : fin v0) by (rewrite Forall_forall in Fd; apply Fd; eapply vget_in; eauto).
  unfold weigh in Ew. match type of Ew with (if ?b then _ else _) = _ => change b with (it_elem it =? el) in Ew end. destruct (it_elem it =? el) eqn:Ee.
  - cbn [fold_left].
    replace (addc3 q r data s it) with (nadd FOps s (nmul FOps w0 v0)) by (unfold addc3; rewrite Ev; match type of Ew with ?a = _ => change (nadd FOps s (nmul FOps w0 v0) = match a with Ok w => nadd FOps s (nmul FOps w v0) | _ => s end) end; rewrite Ew; reflexivity).
    apply IH; auto. apply (f64_not_minus_zero s); exact Hs.
  - injection Ew as <-. match goal with |- fold_left ?f ?l ?a = _ => change a with (nadd FOps s (nmul FOps (nofZ FOps 0) v0) : f64) end.
    rewrite f64_skip by assumption. apply IH; auto.
Qed.

(** ** Corners *)

Definition size_ok (r : c3 FOps) : Prop :=
  (Rabs (B2R (cx r : f64)) <= bpow radix2 1001 /\ Rabs (B2R (cy r : f64)) <= bpow radix2 1001 /\ Rabs (B2R (cz r : f64)) <= bpow radix2 1001)%R.

Lemma corner_range3 : forall pts i cell lo h k it (r : c3 FOps), sides pts lo h -> corner_it3 i cell lo h k it -> finite_point3 r -> size_ok r ->
  (it_range it r = true <-> claims (cx lo) (cx lo + cx h) (rne (pole_dist (pole_x k) (cx lo) (cx lo + cx h) (B2R (cx r : f64)))) /\
                            claims (cy lo) (cy lo + cy h) (rne (pole_dist (pole_y k) (cy lo) (cy lo + cy h) (B2R (cy r : f64))))).
Proof.
  intros pts i cell lo h k it r (Sx & Sy & _) Hc (Frx & Fry & _) (Rx & Ry & _).
  destruct (corner_parts3 _ _ _ _ _ _ Hc) as (_ & n & p & w & _ & -> & Es & (Fpx & Fpy & _) & (Fwx & Fwy & _) & (Vpx & Vpy & _) & (Vwx & Vwy & _)).
  destruct (side_1000 _ _ _ Sx) as (A1 & A2 & A3 & A4 & A5). destruct (side_1000 _ _ _ Sy) as (B1 & B2 & B3 & B4 & B5).
  pose proof (range64 _ _ A1 A2 A3 A4 A5 (cx p) (cx w) (cx r) (pole_x k) Fpx Vpx Fwx Vwx Frx Rx) as GX.
  pose proof (range64 _ _ B1 B2 B3 B4 B5 (cy p) (cy w) (cy r) (pole_y k) Fpy Vpy Fwy Vwy Fry Ry) as GY.
  unfold hex_values. cbn [it_range]. unfold hex_in_range. rewrite Es. cbn [cx cy cz]. rewrite andb_true_iff.
  exact (conj (fun H => conj (proj1 GX (proj1 H)) (proj1 GY (proj2 H))) (fun H => conj (proj2 GX (proj1 H)) (proj2 GY (proj2 H)))).
Qed.

(** The bin of [r] is one the corner is registered in. *)
Definition within3 (A : axes3) (k : Z) (lo h : point3) (r : c3 FOps) : Prop :=
  within_pole (axx A) (pole_x k) (cx lo) (cx lo + cx h) (B2R (cx r : f64)) /\ within_pole (axy A) (pole_y k) (cy lo) (cy lo + cy h) (B2R (cy r : f64)) /\
  within_pole (axz A) (pole_z k) (cz lo) (cz lo + cz h) (B2R (cz r : f64)).

Definition cov3 (A : axes3) (r : c3 FOps) : ip -> bool :=
  covers (K := hex_kind FOps) (mins A) (incrs A) (nums A (B2R (cx r : f64)) (B2R (cy r : f64)) (B2R (cz r : f64))).

Lemma corner_covers3 : forall pts A i cell lo h k it (r : c3 FOps), sound_axes pts A -> sides pts lo h -> corner_it3 i cell lo h k it ->
  (cov3 A r it = true <-> within3 A k lo h r).
Proof.
  intros pts A i cell lo h k it r HA Hs Hk.
  destruct (corner_bins3 _ _ _ _ _ _ _ _ HA Hs Hk) as ((_ & G2) & (_ & G4)).
  unfold cov3, covers.
  refine (eq_ind_r (fun v => boxb v _ _ = true <-> _) _ G2). refine (eq_ind_r (fun v => boxb _ v _ = true <-> _) _ G4).
  unfold nums. cbn [boxb]. unfold within3, within_pole. rewrite !andb_true_iff, !Z.leb_le. tauto.
Qed.

Lemma corner_of3 : forall px py pz : pole, exists k, In k corners3 /\ pole_x k = px /\ pole_y k = py /\ pole_z k = pz.
Proof. intros [] [] []; [exists 0|exists 4|exists 3|exists 7|exists 1|exists 5|exists 2|exists 6]; (split; [simpl; tauto|repeat split]). Qed.

Lemma between_side : forall a h x : R, (0 < h)%R -> between1 a h x -> (a <= x <= a + h)%R.
Proof. intros a h x P (s & Hs & ->). nra. Qed.

Lemma side_near_axis : forall l lo hi x, side l lo hi -> (lo <= x <= hi)%R -> near_axis l x.
Proof.
  intros l lo hi x ((_ & _ & L & _) & I1 & I2) Hx. exists lo, hi. pose proof u_pos.
  assert (0 <= u * (hi - lo))%R by (apply Rmult_le_pos; lra). repeat split; auto; lra.
Qed.

(** ** What an evaluation at a point of the region adds up *)

Lemma eval_block3 : forall pts cells A m (data : list f64) p0 (r : c3 FOps), meshed3 pts cells A m ->
  field_on (F := SF) m data (nofZ FOps 0) p0 -> Forall (fun x : f64 => fin x) data ->
  finite_point3 r -> in_mesh3 (map point_value3 pts) cells (point_value3 r) ->
  size_ok r /\ exists i cell lo h blk px py, In cell cells /\ cell_box (map point_value3 pts) cell lo h /\ cell_its3 i cell lo h blk /\
    taken (axx A) px (cx lo) (cx lo + cx h)%R (B2R (cx r : f64)) /\ taken (axy A) py (cy lo) (cy lo + cy h)%R (B2R (cy r : f64)) /\
    forall q, on_axes 3 q -> answers3 m p0 q r (fold_left (fun s it => if cov3 A r it then addc3 q r data s it else s) blk (nofZ FOps 0)).
Proof.
  intros pts cells A m data p0 r Hm Hon Fd Fr (cell1 & lo1 & h1 & Hin1 & Hc1 & Hr1).
  pose proof (m3_axes _ _ _ _ Hm) as HA. pose proof (m3_small _ _ _ _ Hm) as Sm. pose proof HA as (Hx & Hy & Hz).
  pose proof (box_sides _ _ _ _ Sm Hc1) as S1. pose proof S1 as (S1x & S1y & S1z).
  destruct Hr1 as (Bx & By & Bz). destruct (proj1 Hc1) as (P1x & P1y & P1z).
  apply (between_side _ _ _ P1x) in Bx. apply (between_side _ _ _ P1y) in By. apply (between_side _ _ _ P1z) in Bz.
  cbn [point_value3 cx cy cz] in Bx, By, Bz. unfold value in Bx, By, Bz.
  pose proof Fr as (Frx & Fry & Frz).
  pose proof (side_near_axis _ _ _ _ S1x Bx) as Nx. pose proof (side_near_axis _ _ _ _ S1y By) as Ny. pose proof (side_near_axis _ _ _ _ S1z Bz) as Nz.
  assert (Rr : size_ok r) by exact (conj (near_900 _ _ _ Hx Nx) (conj (near_900 _ _ _ Hy Ny) (near_900 _ _ _ Hz Nz))).
  split; [exact Rr|].
  set (t := nums A (B2R (cx r : f64)) (B2R (cy r : f64)) (B2R (cz r : f64))).
  (* the bin of r *)
  destruct (binned3 _ _ (cx r) (cy r) (cz r) HA Frx Fry Frz Nx Ny Nz) as [(V1 & V2 & V3) V4]. fold t in V4. rewrite V4 in V2, V3.
  pose proof (view_ok _ _ _ _ (me_bin m) _ _ (m3_inv _ _ _ _ Hm) V1 V2 V3) as V.
  rewrite (m3_view _ _ _ _ Hm t V3) in V. unfold t in V. fold (cov3 A r) in V.
  (* somebody claims it *)
  assert (Hsome : exists it, In it (filter (cov3 A r) (me_interp m)) /\ it_range it r = true).
  { destruct (built_cell_its3 _ _ _ _ _ (m3_built _ _ _ _ Hm) Hin1) as (e & lo' & h' & blk & Hc' & B & Hblk).
    destruct (cell_box_fun _ _ _ _ _ _ Hc1 Hc') as [<- <-].
    destruct (axis_taken _ _ _ _ _ Hx S1x (f64_fmt (cx r)) Bx) as (px & Tx1 & Tx2).
    destruct (axis_taken _ _ _ _ _ Hy S1y (f64_fmt (cy r)) By) as (py & Ty1 & Ty2).
    destruct (axis_taken _ _ _ _ _ Hz S1z (f64_fmt (cz r)) Bz) as (pz & Tz1 & Tz2).
    destruct (corner_of3 px py pz) as (k & Hk & <- & <- & <-).
    destruct (Forall2_in_l _ _ _ _ _ _ B Hk) as (it & Hit & Hcor).
    exists it. split.
    - apply filter_In. split; [auto|]. apply (proj2 (corner_covers3 _ _ _ _ _ _ _ _ r HA S1 Hcor)). exact (conj Tx1 (conj Ty1 Tz1)).
    - apply (proj2 (corner_range3 _ _ _ _ _ _ _ r S1 Hcor Fr Rr)). split; assumption. }
  destruct (find (fun it => it_range it r) (filter (cov3 A r) (me_interp m))) as [it0|] eqn:Ef.
  2:{ destruct Hsome as (it & Hit & Hr). pose proof (find_none _ _ Ef it Hit) as N. cbn beta in N. match type of N with ?a = _ => match type of Hr with ?b = _ => change b with a in Hr end end. rewrite N in Hr. discriminate Hr. }
  destruct (find_some _ _ Ef) as [Hin0 Hr0]. apply filter_In in Hin0. destruct Hin0 as [Hin0 Hcov0].
  destruct (built_block3 _ _ _ _ _ (m3_built _ _ _ _ Hm) Hin0) as (_ & cell & lo & h & Hcell & Hc & Hits).
  pose proof (box_sides _ _ _ _ Sm Hc) as Hs.
  set (blk := filter (fun j => it_elem j =? it_elem it0) (me_interp m)) in *.
  assert (Hb0 : In it0 blk) by (apply filter_In; split; [exact Hin0|apply Z.eqb_refl]).
  destruct (Forall2_in_r _ _ _ _ _ _ Hits Hb0) as (k0 & _ & Hcor0).
  apply (proj1 (corner_covers3 _ _ _ _ _ _ _ _ r HA Hs Hcor0)) in Hcov0.
  apply (proj1 (corner_range3 _ _ _ _ _ _ _ r Hs Hcor0 Fr Rr)) in Hr0.
  destruct Hcov0 as (W1 & W2 & _). destruct Hr0 as [C1 C2].
  exists (it_elem it0), cell, lo, h, blk, (pole_x k0), (pole_y k0).
  split; [exact Hcell|]. split; [exact Hc|]. split; [exact Hits|]. split; [split; assumption|]. split; [split; assumption|].
  intros q Hq hist m' p' Hh.
  destruct (field_on_ok _ _ _ _ (hex_answering FOps) Hon) as [Hok Hfk].
  pose proof (history_ok _ _ _ _ _ _ Hok Hfk Hh) as Hfk'.
  pose proof (field_eval_spec (F := SF) m data (nofZ FOps 0) m' p' q r Hok Hfk' Hq) as S.
  match type of V with ?a = _ => match type of S with match ?b with _ => _ end => change b with a in S end end.
  rewrite V in S. destruct S as (m2 & p2 & a & S & _ & R & _). exists (m2, p2). rewrite S. f_equal.
  unfold result_is in R. match type of Ef with ?x = _ => match type of R with match ?y with _ => _ end => change y with x in R end end.
  rewrite Ef in R. destruct R as (ws & vs & R1 & R2 & ->).
  assert (Ed : pf_field p' = data) by exact (fk_field _ _ _ _ Hfk').
  assert (Ez : pf_zero p' = nofZ FOps 0) by exact (fk_zero _ _ _ _ Hfk').
  rewrite Ed in R2. rewrite Ez.
  etransitivity; [exact (wsum_elem3 q r data (it_elem it0) (filter (cov3 A r) (me_interp m)) ws vs (nofZ FOps 0) Fd f64_zero_plain R1 R2)|].
  rewrite filter_filter. fold blk. apply fold_filter.
Qed.

(** ** Adding the corners *)

Local Open Scope R_scope.

Definition corner_term3 (cov : ip -> bool) (q : quantity) (r : c3 FOps) (data : list f64) (cw gw : R) (it : ip) (t v : R) : Prop :=
  exists (w x : f64), ask (K := hex_kind FOps) q r it = Ok w /\ fin w /\ vget data (it_node it) = Ok x /\ fin x /\ B2R x = v /\
    Rabs (B2R w) <= gw /\ (cov it = true -> Rabs (B2R w - t) <= cw) /\ (cov it = false -> Rabs t <= cw).

Definition one_step3 (cov : ip -> bool) (q : quantity) (r : c3 FOps) (data : list f64) (s : f64) (it : ip) : f64 :=
  if cov it then addc3 q r data s it else s.

Lemma step3 : forall cov q r data cw gw it t v, 0 <= cw -> 0 <= gw -> gw * Rabs v <= bpow radix2 1002 -> corner_term3 cov q r data cw gw it t v ->
  exists x, fmt x /\ Rabs (x - t * v) <= (cw + u * gw) * Rabs v + eta /\ Rabs x <= (1 + u) * gw * Rabs v + eta /\ Rabs x <= bpow radix2 1002 /\
    forall s : f64, fin s -> Rabs (B2R s) <= bpow radix2 1008 ->
      fin (one_step3 cov q r data s it) /\ B2R (one_step3 cov q r data s it) = rne (B2R s + x).
Proof.
  intros cov q r data cw gw it t v Hcw Hgw Hm (w & f & Ew & Fw & Ef & Ff & Vf & Gw & H1 & H0).
  pose proof u_pos as U0. pose proof eta_pos as T0. pose proof (Rabs_pos v) as V0.
  assert (P10 : bpow radix2 1010 = 4 * bpow radix2 1008) by (change 4 with (bpow radix2 2); rewrite <- bpow_plus; reflexivity).
  assert (P6 : bpow radix2 1008 = 64 * bpow radix2 1002) by (change 64 with (bpow radix2 6); rewrite <- bpow_plus; reflexivity).
  pose proof (bpow_gt_0 radix2 1002) as P0.
  unfold one_step3. destruct (cov it).
  - specialize (H1 eq_refl).
    assert (B : Rabs (B2R w * B2R f) <= bpow radix2 1002).
    { rewrite Rabs_mult, Vf. eapply Rle_trans; [|exact Hm]. apply Rmult_le_compat_r; auto. }
    destruct (mul64 w f 1002 ltac:(lia) Fw Ff B) as [Fm Em].
    destruct (term_close (B2R w) t v cw gw Hcw H1 Gw) as [A1 A2].
    exists (rne (B2R w * v)). split; [apply rne_fmt|]. split; [exact A1|]. split; [exact A2|].
    assert (Bx : Rabs (rne (B2R w * v)) <= bpow radix2 1002) by (apply rne_le_bpow; [lia|rewrite <- Vf; exact B]).
    split; [exact Bx|]. intros s Fs Bs.
    unfold addc3. rewrite Ef. match type of Ew with ?a = _ => match goal with |- context [match ?b with Ok _ => _ | _ => _ end] => change b with a end end. rewrite Ew.
    rewrite <- Vf, <- Em in Bx |- *. apply (add64 s (nmul FOps w f) 1010); auto; [lia|].
    eapply Rle_trans; [apply Rabs_triang|]. lra.
  - specialize (H0 eq_refl). exists 0. split; [apply generic_format_0|].
    assert (A : Rabs (0 - t * v) <= cw * Rabs v).
    { rewrite Rminus_0_l, Rabs_Ropp, Rabs_mult. apply Rmult_le_compat_r; auto. }
    assert (0 <= u * gw * Rabs v) by (apply Rmult_le_pos; [apply Rmult_le_pos; lra|lra]).
    assert (0 <= gw * Rabs v) by (apply Rmult_le_pos; lra).
    split; [lra|]. rewrite Rabs_R0. split; [lra|]. split; [lra|].
    intros s Fs Bs. split; [exact Fs|]. symmetry. apply rne_plus_0. apply f64_fmt.
Qed.

Lemma rsum_cons : forall (f : Z -> R) k ks, rsum f (k :: ks) = f k + rsum f ks.
Proof. reflexivity. Qed.

Lemma rsum_pos : forall (f : Z -> R) ks, (forall k, 0 <= f k) -> 0 <= rsum f ks.
Proof. intros f ks H. induction ks as [|k ks IH]; [apply Rle_refl|]. rewrite rsum_cons. specialize (H k). lra. Qed.

(** Terms added from left to right to a partial sum. *)
Lemma terms3 : forall cov q r data cw gw (T v : Z -> R) M, 0 <= cw -> 0 <= gw -> 0 <= M -> 11 / 10 * M <= bpow radix2 1008 ->
  forall ks its, Forall2 (fun k it => corner_term3 cov q r data cw gw it (T k) (v k) /\ gw * Rabs (v k) <= bpow radix2 1002) ks its ->
  forall (s : f64) S D G, fin s -> Rabs (B2R s - S) <= D -> Rabs (B2R s) <= G ->
    G + rsum (fun k => (1 + u) * gw * Rabs (v k) + eta) ks + INR (List.length ks) * (11 / 10 * u * M) <= 11 / 10 * M ->
    fin (fold_left (one_step3 cov q r data) its s) /\
    Rabs (B2R (fold_left (one_step3 cov q r data) its s) - (S + rsum (fun k => T k * v k) ks)) <=
      D + rsum (fun k => (cw + u * gw) * Rabs (v k) + eta) ks + INR (List.length ks) * (11 / 10 * u * M).
Proof.
  intros cov q r data cw gw T v M Hcw Hgw HM HB ks its H. pose proof u_pos as U0. pose proof eta_pos as E0.
  assert (UM : 0 <= 11 / 10 * u * M) by (apply Rmult_le_pos; lra).
  assert (Q : forall l, 0 <= rsum (fun k => (1 + u) * gw * Rabs (v k) + eta) l).
  { intros l. apply rsum_pos. intros k. assert (0 <= (1 + u) * gw * Rabs (v k)) by (apply Rmult_le_pos; [apply Rmult_le_pos; lra|apply Rabs_pos]). lra. }
  induction H as [|k it ks its [Hk Hg] H IH]; intros s S D G Fs HD HG HT.
  - cbn [fold_left rsum List.length INR fold_right]. split; [exact Fs|]. rewrite Rplus_0_r, Rmult_0_l, !Rplus_0_r. exact HD.
  - destruct (step3 _ _ _ _ _ _ _ _ _ Hcw Hgw Hg Hk) as (x & Fx & A1 & A2 & _ & Hstep).
    rewrite !rsum_cons in *. cbn [List.length] in HT |- *. rewrite S_INR in HT |- *. pose proof (pos_INR (List.length ks)) as Hn.
    pose proof (Q ks) as Qk. assert (NU : 0 <= INR (List.length ks) * (11 / 10 * u * M)) by (apply Rmult_le_pos; lra).
    assert (Gx : Rabs (B2R s + x) <= G + ((1 + u) * gw * Rabs (v k) + eta)) by (eapply Rle_trans; [apply Rabs_triang|]; lra).
    pose proof (Rabs_pos x) as X0.
    destruct (Hstep s Fs) as [Fy Ey]; [lra|].
    pose proof (rne_add_err (B2R s) x (f64_fmt s) Fx) as Er.
    assert (Er' : Rabs (rne (B2R s + x) - (B2R s + x)) <= 11 / 10 * u * M).
    { eapply Rle_trans; [exact Er|]. replace (11 / 10 * u * M) with (u * (11 / 10 * M)) by ring. apply Rmult_le_compat_l; lra. }
    cbn [fold_left].
    destruct (IH (one_step3 cov q r data s it) (S + T k * v k) (D + ((cw + u * gw) * Rabs (v k) + eta) + 11 / 10 * u * M)
      (G + ((1 + u) * gw * Rabs (v k) + eta) + 11 / 10 * u * M) Fy) as [F E].
    + rewrite Ey. replace (rne (B2R s + x) - (S + T k * v k)) with ((rne (B2R s + x) - (B2R s + x)) + ((B2R s - S) + (x - T k * v k))) by ring.
      eapply Rle_trans; [apply Rabs_triang|]. eapply Rle_trans; [apply Rplus_le_compat_l; apply Rabs_triang|]. lra.
    + rewrite Ey. replace (rne (B2R s + x)) with ((rne (B2R s + x) - (B2R s + x)) + (B2R s + x)) by ring.
      eapply Rle_trans; [apply Rabs_triang|]. lra.
    + lra.
    + split; [exact F|]. rewrite <- Rplus_assoc. eapply Rle_trans; [exact E|]. lra.
Qed.

(** Eight corners. *)
Lemma block3 : forall cov q r data cw gw (T v : Z -> R) its, 0 <= cw -> 0 <= gw ->
  (forall k, In k corners3 -> gw * Rabs (v k) <= bpow radix2 1002) ->
  Forall2 (fun k it => corner_term3 cov q r data cw gw it (T k) (v k)) corners3 its ->
  fin (fold_left (one_step3 cov q r data) its (nofZ FOps 0)) /\
  Rabs (B2R (fold_left (one_step3 cov q r data) its (nofZ FOps 0)) - rsum (fun k => T k * v k) corners3) <=
    (cw + 10 * u * gw) * rsum (fun k => Rabs (v k)) corners3 + 9 * eta.
Proof.
  intros cov q r data cw gw T v its Hcw Hgw Hb H. pose proof u_pos as U0. pose proof u_small as U. pose proof eta_pos as E0.
  set (B := rsum (fun k => Rabs (v k)) corners3).
  assert (B0 : 0 <= B) by (apply rsum_pos; intros k; apply Rabs_pos).
  assert (L1 : forall c e, rsum (fun k => c * Rabs (v k) + e) corners3 = c * B + 8 * e) by (intros c e; unfold B, rsum, corners3; cbn [fold_right]; ring).
  assert (GB : gw * B <= 8 * bpow radix2 1002).
  { unfold B, rsum, corners3. cbn [fold_right].
    pose proof (Hb 0%Z ltac:(simpl; tauto)). pose proof (Hb 1%Z ltac:(simpl; tauto)). pose proof (Hb 2%Z ltac:(simpl; tauto)). pose proof (Hb 3%Z ltac:(simpl; tauto)).
    pose proof (Hb 4%Z ltac:(simpl; tauto)). pose proof (Hb 5%Z ltac:(simpl; tauto)). pose proof (Hb 6%Z ltac:(simpl; tauto)). pose proof (Hb 7%Z ltac:(simpl; tauto)). lra. }
  assert (G0 : 0 <= gw * B) by (apply Rmult_le_pos; assumption).
  set (M := (1 + u) * gw * B + 8 * eta).
  assert (UG : u * (gw * B) <= / 1024 * (gw * B)) by (apply Rmult_le_compat_r; lra).
  assert (UG0 : 0 <= u * (gw * B)) by (apply Rmult_le_pos; lra).
  assert (EM : M = gw * B + u * (gw * B) + 8 * eta) by (unfold M; ring).
  assert (M0 : 0 <= M) by lra.
  assert (P6 : bpow radix2 1008 = 64 * bpow radix2 1002) by (change 64 with (bpow radix2 6); rewrite <- bpow_plus; reflexivity).
  assert (P0 : eta <= bpow radix2 1002) by (apply bpow_le; lia).
  assert (H' : Forall2 (fun k it => corner_term3 cov q r data cw gw it (T k) (v k) /\ gw * Rabs (v k) <= bpow radix2 1002) corners3 its).
  { assert (G : forall ks, (forall k, In k ks -> In k corners3) -> forall l, Forall2 (fun k it => corner_term3 cov q r data cw gw it (T k) (v k)) ks l ->
      Forall2 (fun k it => corner_term3 cov q r data cw gw it (T k) (v k) /\ gw * Rabs (v k) <= bpow radix2 1002) ks l).
    { intros ks Hk l F. induction F as [|k it ks l F1 F IH]; constructor.
      - split; [exact F1|]. apply Hb, Hk. left. reflexivity.
      - apply IH. intros k' Hk'. apply Hk. right. exact Hk'. }
    exact (G corners3 (fun k Hk => Hk) its H). }
  destruct zero64 as [Z1 Z2].
  assert (UM : u * M <= / 1024 * M) by (apply Rmult_le_compat_r; lra).
  destruct (terms3 cov q r data cw gw T v M Hcw Hgw M0 ltac:(lra) corners3 its H' (nofZ FOps 0) 0 0 0 Z1) as [F E].
  - rewrite Z2, Rminus_0_r, Rabs_R0. apply Rle_refl.
  - rewrite Z2, Rabs_R0. apply Rle_refl.
  - rewrite L1. fold M. change (INR (List.length corners3)) with (1 + 1 + 1 + 1 + 1 + 1 + 1 + 1). lra.
  - split; [exact F|]. rewrite Rplus_0_l in E. eapply Rle_trans; [exact E|]. rewrite L1.
    change (INR (List.length corners3)) with (1 + 1 + 1 + 1 + 1 + 1 + 1 + 1).
    assert (X : u * M = u * (gw * B) + u * (u * (gw * B)) + 8 * (u * eta)) by (rewrite EM; ring).
    assert (UE : u * eta <= / 1024 * eta) by (apply Rmult_le_compat_r; lra).
    assert (UUG : u * (u * (gw * B)) <= / 1024 * (u * (gw * B))) by (apply Rmult_le_compat_r; lra).
    replace ((cw + u * gw) * B) with (cw * B + u * (gw * B)) by ring. replace ((cw + 10 * u * gw) * B) with (cw * B + 10 * (u * (gw * B))) by ring. lra.
Qed.

(** ** Weights *)

Definition factor_at (s r n w : f64) : f64 := nsub FOps (nofZ FOps 1) (ndiv FOps (nmul FOps s (nsub FOps r n)) w).

Lemma hexf_factor : forall s r n w : f64, hexf FOps s r n w = factor_at s r n w.
Proof. reflexivity. Qed.

Lemma value_weight3 : forall fx fy fz p1 lo1 hi1 x p2 lo2 hi2 y p3 lo3 hi3 z,
  factor_ok fx p1 lo1 hi1 x -> factor_ok fy p2 lo2 hi2 y -> factor_ok fz p3 lo3 hi3 z ->
  fin (nmul FOps (nmul FOps fx fy) fz) /\
  Rabs (B2R (nmul FOps (nmul FOps fx fy) fz : f64) - factor p1 lo1 hi1 x * factor p2 lo2 hi2 y * factor p3 lo3 hi3 z) <= 22 * u /\
  Rabs (B2R (nmul FOps (nmul FOps fx fy) fz : f64)) <= 1 + 27 * u.
Proof.
  intros fx fy fz p1 lo1 hi1 x p2 lo2 hi2 y p3 lo3 hi3 z Hx Hy Hz.
  destruct (value_weight _ _ _ _ _ _ _ _ _ _ Hx Hy) as (Fm & Em & Sm). pose proof (factor_size _ _ _ _ _ Hz) as Sz.
  destruct Hx as (_ & _ & Bx). destruct Hy as (_ & _ & By). destruct Hz as (Fz & Az & Bz).
  set (w := nmul FOps fx fy : f64) in *. set (t := factor p1 lo1 hi1 x * factor p2 lo2 hi2 y) in *. set (t3 := factor p3 lo3 hi3 z) in *.
  pose proof u_pos as U0. pose proof u_small as U. pose proof eta_small as T1. pose proof eta_pos as T0.
  assert (UU : u * u <= / 1024 * u) by (apply Rmult_le_compat_r; lra). assert (UU0 : 0 <= u * u) by (apply Rmult_le_pos; lra).
  assert (Tt : Rabs t <= 1 + 3 * u).
  { unfold t. rewrite Rabs_mult. apply Rle_trans with ((1 + u) * (1 + u)); [apply Rmult_le_compat; try apply Rabs_pos; lra|nra]. }
  assert (Q : Rabs (B2R w * B2R fz) <= (1 + 17 * u) * (1 + 7 * u)).
  { rewrite Rabs_mult. apply Rmult_le_compat; try apply Rabs_pos; assumption. }
  assert (Q2 : (1 + 17 * u) * (1 + 7 * u) <= 11 / 10) by nra.
  assert (B : Rabs (B2R w * B2R fz) <= bpow radix2 2) by (change (bpow radix2 2) with 4; lra).
  destruct (mul64 w fz 2 ltac:(lia) Fm Fz B) as [F E]. split; [exact F|]. rewrite E.
  pose proof (rne_err (B2R w * B2R fz)) as Er.
  assert (Er2 : u * Rabs (B2R w * B2R fz) <= u * (11 / 10)) by (apply Rmult_le_compat_l; lra).
  assert (P : Rabs (B2R w * B2R fz - t * t3) <= 14 * u * (1 + 7 * u) + (1 + 3 * u) * (6 * u)).
  { replace (B2R w * B2R fz - t * t3) with ((B2R w - t) * B2R fz + t * (B2R fz - t3)) by ring. eapply Rle_trans; [apply Rabs_triang|]. rewrite !Rabs_mult.
    apply Rplus_le_compat; apply Rmult_le_compat; try apply Rabs_pos; assumption. }
  assert (R1 : Rabs (rne (B2R w * B2R fz) - t * t3) <= 22 * u).
  { replace (rne (B2R w * B2R fz) - t * t3) with ((rne (B2R w * B2R fz) - B2R w * B2R fz) + (B2R w * B2R fz - t * t3)) by ring.
    eapply Rle_trans; [apply Rabs_triang|]. lra. }
  split; [exact R1|].
  assert (T3 : Rabs (t * t3) <= 1 + 5 * u).
  { rewrite Rabs_mult. apply Rle_trans with ((1 + 3 * u) * (1 + u)); [apply Rmult_le_compat; try apply Rabs_pos; assumption|nra]. }
  replace (rne (B2R w * B2R fz)) with (t * t3 + (rne (B2R w * B2R fz) - t * t3)) by ring.
  eapply Rle_trans; [apply Rabs_triang|]. lra.
Qed.

(** A point of the region, and the cell used for it. *)
Record used_cell3 (pts : list (c3 FOps)) (A : axes3) (r : c3 FOps) (i : Z) (cell : list Z) (lo h : point3) (blk : list ip) (px py pz : pole) : Prop := mkUsed3 {
  u3_axes : sound_axes pts A;
  u3_sides : sides pts lo h;
  u3_its : cell_its3 i cell lo h blk;
  u3_r : finite_point3 r;
  u3_size : size_ok r;
  u3_tx : taken (axx A) px (cx lo) (cx lo + cx h) (B2R (cx r : f64));
  u3_ty : taken (axy A) py (cy lo) (cy lo + cy h) (B2R (cy r : f64));
  u3_tz : taken (axz A) pz (cz lo) (cz lo + cz h) (B2R (cz r : f64))
}.

Lemma used_near3 : forall pts A r i cell lo h blk px py pz, used_cell3 pts A r i cell lo h blk px py pz ->
  near (cx lo) (cx lo + cx h) (B2R (cx r : f64)) /\ near (cy lo) (cy lo + cy h) (B2R (cy r : f64)) /\ near (cz lo) (cz lo + cz h) (B2R (cz r : f64)).
Proof.
  intros pts A r i cell lo h blk px py pz [_ (Sx & Sy & Sz) _ _ _ Tx Ty Tz].
  exact (conj (taken_near _ _ _ _ _ _ Sx (f64_fmt (cx r)) Tx) (conj (taken_near _ _ _ _ _ _ Sy (f64_fmt (cy r)) Ty) (taken_near _ _ _ _ _ _ Sz (f64_fmt (cz r)) Tz))).
Qed.

Definition ffx (lo h : point3) (k : Z) (r : c3 FOps) : R := factor (pole_x k) (cx lo) (cx lo + cx h) (B2R (cx r : f64)).
Definition ffy (lo h : point3) (k : Z) (r : c3 FOps) : R := factor (pole_y k) (cy lo) (cy lo + cy h) (B2R (cy r : f64)).
Definition ffz (lo h : point3) (k : Z) (r : c3 FOps) : R := factor (pole_z k) (cz lo) (cz lo + cz h) (B2R (cz r : f64)).

Lemma within_dec : forall ax p lo hi x, within_pole ax p lo hi x \/ ~ within_pole ax p lo hi x.
Proof.
  intros ax p lo hi x. unfold within_pole. destruct (Z_le_dec (cellnum ax (pole_lo p lo hi)) (cellnum ax x)); [|tauto].
  destruct (Z_le_dec (cellnum ax x) (cellnum ax (pole_hi p lo hi))); tauto.
Qed.

(** A corner that is not registered in the bin has a negligible factor. *)
Lemma uncovered3 : forall pts A r i cell lo h blk px py pz k it, used_cell3 pts A r i cell lo h blk px py pz -> corner_it3 i cell lo h k it ->
  cov3 A r it = false ->
  (~ within_pole (axx A) (pole_x k) (cx lo) (cx lo + cx h) (B2R (cx r : f64)) /\ Rabs (ffx lo h k r) <= 5 * u) \/
  (~ within_pole (axy A) (pole_y k) (cy lo) (cy lo + cy h) (B2R (cy r : f64)) /\ Rabs (ffy lo h k r) <= 5 * u) \/
  (~ within_pole (axz A) (pole_z k) (cz lo) (cz lo + cz h) (B2R (cz r : f64)) /\ Rabs (ffz lo h k r) <= 5 * u).
Proof.
  intros pts A r i cell lo h blk px py pz k it Hu Hc Hn. destruct Hu as [HA Hs _ _ _ Tx Ty Tz].
  pose proof (corner_covers3 _ _ _ _ _ _ _ _ r HA Hs Hc) as CC. destruct HA as (Hx & Hy & Hz). destruct Hs as (Sx & Sy & Sz).
  pose proof (taken_other _ _ _ _ _ _ (pole_x k) Hx Sx (f64_fmt (cx r)) Tx) as Ox.
  pose proof (taken_other _ _ _ _ _ _ (pole_y k) Hy Sy (f64_fmt (cy r)) Ty) as Oy.
  pose proof (taken_other _ _ _ _ _ _ (pole_z k) Hz Sz (f64_fmt (cz r)) Tz) as Oz.
  unfold ffx, ffy, ffz, factor.
  destruct (within_dec (axx A) (pole_x k) (cx lo) (cx lo + cx h) (B2R (cx r : f64))) as [Wx|Wx]; [|destruct Ox; [contradiction|left; auto]].
  destruct (within_dec (axy A) (pole_y k) (cy lo) (cy lo + cy h) (B2R (cy r : f64))) as [Wy|Wy]; [|destruct Oy; [contradiction|right; left; auto]].
  destruct (within_dec (axz A) (pole_z k) (cz lo) (cz lo + cz h) (B2R (cz r : f64))) as [Wz|Wz]; [|destruct Oz; [contradiction|right; right; auto]].
  exfalso. rewrite (proj2 CC (conj Wx (conj Wy Wz))) in Hn. discriminate Hn.
Qed.

Lemma corner_factors3 : forall pts A r i cell lo h blk px py pz k it, used_cell3 pts A r i cell lo h blk px py pz -> corner_it3 i cell lo h k it ->
  exists n (p w : c3 FOps), vget cell k = Ok n /\ it = hex_values FOps n i p w k /\
    hex_sign FOps k = mkC3 (pole_sign (pole_x k)) (pole_sign (pole_y k)) (pole_sign (pole_z k)) /\ finite_point3 w /\
    (B2R (cx w : f64) = rne (cx lo + cx h - cx lo) /\ B2R (cy w : f64) = rne (cy lo + cy h - cy lo) /\ B2R (cz w : f64) = rne (cz lo + cz h - cz lo)) /\
    factor_ok (factor_at (pole_sign (pole_x k)) (cx r) (cx p) (cx w)) (pole_x k) (cx lo) (cx lo + cx h) (B2R (cx r : f64)) /\
    factor_ok (factor_at (pole_sign (pole_y k)) (cy r) (cy p) (cy w)) (pole_y k) (cy lo) (cy lo + cy h) (B2R (cy r : f64)) /\
    factor_ok (factor_at (pole_sign (pole_z k)) (cz r) (cz p) (cz w)) (pole_z k) (cz lo) (cz lo + cz h) (B2R (cz r : f64)).
Proof.
  intros pts A r i cell lo h blk px py pz k it Hu Hc. destruct (used_near3 _ _ _ _ _ _ _ _ _ _ _ Hu) as (Nx & Ny & Nz).
  destruct Hu as [_ (Sx & Sy & Sz) _ (Frx & Fry & Frz) (Rx & Ry & Rz) _ _ _].
  destruct (corner_parts3 _ _ _ _ _ _ Hc) as (_ & n & p & w & En & -> & Es & (Fpx & Fpy & Fpz) & (Fwx & Fwy & Fwz) & (Vpx & Vpy & Vpz) & (Vwx & Vwy & Vwz)).
  destruct (side_1000 _ _ _ Sx) as (A1 & A2 & A3 & A4 & A5). destruct (side_1000 _ _ _ Sy) as (B1 & B2 & B3 & B4 & B5). destruct (side_1000 _ _ _ Sz) as (C1 & C2 & C3 & C4 & C5).
  exists n, p, w. split; [exact En|]. split; [reflexivity|]. split; [exact Es|]. split; [exact (conj Fwx (conj Fwy Fwz))|]. split; [exact (conj Vwx (conj Vwy Vwz))|].
  split; [|split].
  - exact (factor64 _ _ A1 A2 A3 A4 A5 (cx p) (cx w) (cx r) (pole_x k) Fpx Vpx Fwx Vwx Frx Rx (near_sides _ _ _ _ Nx)).
  - exact (factor64 _ _ B1 B2 B3 B4 B5 (cy p) (cy w) (cy r) (pole_y k) Fpy Vpy Fwy Vwy Fry Ry (near_sides _ _ _ _ Ny)).
  - exact (factor64 _ _ C1 C2 C3 C4 C5 (cz p) (cz w) (cz r) (pole_z k) Fpz Vpz Fwz Vwz Frz Rz (near_sides _ _ _ _ Nz)).
Qed.

(** The nodal value at a corner. *)
Lemma corner_data3 : forall i cell lo h k it (data : list f64) v, corner_it3 i cell lo h k it ->
  cell_data (map value data) cell corners3 v -> Forall (fun x : f64 => fin x) data ->
  exists x : f64, vget data (it_node it) = Ok x /\ fin x /\ B2R x = v k.
Proof.
  intros i cell lo h k it data v Hc Hv Fd. destruct (corner_parts3 _ _ _ _ _ _ Hc) as (Hk & n & p & w & En & -> & _).
  destruct (Hv k Hk) as (n' & En' & E). rewrite En in En'. injection En' as <-.
  apply vget_map in E. destruct E as (x & E & Ex). exists x. split; [exact E|]. split; [|exact Ex].
  rewrite Forall_forall in Fd. apply Fd. eapply vget_in; eauto.
Qed.

(** ** Values *)

Lemma mult3_le : forall a b c A B C : R, Rabs a <= A -> Rabs b <= B -> Rabs c <= C -> Rabs (a * b * c) <= A * B * C.
Proof.
  intros a b c A B C Ha Hb Hc. rewrite !Rabs_mult. apply Rmult_le_compat; [apply Rmult_le_pos; apply Rabs_pos|apply Rabs_pos| |exact Hc].
  apply Rmult_le_compat; try apply Rabs_pos; assumption.
Qed.

Lemma value_term3 : forall pts A r i cell lo h blk px py pz k it (data : list f64) v, used_cell3 pts A r i cell lo h blk px py pz -> corner_it3 i cell lo h k it ->
  cell_data (map value data) cell corners3 v -> Forall (fun x : f64 => fin x) data ->
  corner_term3 (cov3 A r) QVal r data (22 * u) (1 + 27 * u) it (ffx lo h k r * ffy lo h k r * ffz lo h k r) (v k).
Proof.
  intros pts A r i cell lo h blk px py pz k it data v Hu Hc Hv Fd.
  pose proof (uncovered3 _ _ _ _ _ _ _ _ _ _ _ _ _ Hu Hc) as UC.
  destruct (corner_factors3 _ _ _ _ _ _ _ _ _ _ _ _ _ Hu Hc) as (n & p & w & En & Eit & Es & _ & _ & Fx & Fy & Fz).
  destruct (corner_data3 _ _ _ _ _ _ data v Hc Hv Fd) as (x & Ex & Fxx & Vx).
  destruct (value_weight3 _ _ _ _ _ _ _ _ _ _ _ _ _ _ _ Fx Fy Fz) as (Fm & Em & Sm).
  exists (nmul FOps (nmul FOps (factor_at (pole_sign (pole_x k)) (cx r) (cx p) (cx w)) (factor_at (pole_sign (pole_y k)) (cy r) (cy p) (cy w)))
    (factor_at (pole_sign (pole_z k)) (cz r) (cz p) (cz w))), x.
  split. { subst it. unfold ask, hex_values. cbn [it_val]. unfold hex_value, hex_f. cbn [v3_s v3_r v3_n v3_h]. rewrite Es. reflexivity. }
  split; [exact Fm|]. split; [exact Ex|]. split; [exact Fxx|]. split; [exact Vx|]. split; [exact Sm|].
  split; [intros _; exact Em|]. intros Hn. specialize (UC Hn).
  destruct Fx as (_ & _ & Sx). destruct Fy as (_ & _ & Sy). destruct Fz as (_ & _ & Sz). pose proof u_pos as U0. pose proof u_small as U.
  fold (ffx lo h k r) in Sx. fold (ffy lo h k r) in Sy. fold (ffz lo h k r) in Sz.
  assert (Q : (1 + u) * (1 + u) <= 11 / 10) by nra.
  assert (Q2 : 5 * u * ((1 + u) * (1 + u)) <= 5 * u * (11 / 10)) by (apply Rmult_le_compat_l; lra).
  destruct UC as [[_ G]|[[_ G]|[_ G]]].
  - eapply Rle_trans; [exact (mult3_le _ _ _ _ _ _ G Sy Sz)|]. lra.
  - eapply Rle_trans; [exact (mult3_le _ _ _ _ _ _ Sx G Sz)|]. lra.
  - eapply Rle_trans; [exact (mult3_le _ _ _ _ _ _ Sx Sy G)|]. lra.
Qed.

Lemma its_terms : forall i cell lo h its (Q : Z -> ip -> Prop), cell_its3 i cell lo h its -> (forall k it, corner_it3 i cell lo h k it -> Q k it) -> Forall2 Q corners3 its.
Proof. intros i cell lo h its Q H G. unfold cell_its3 in H. induction H; constructor; auto. Qed.

Lemma value_sum3 : forall pts A r i cell lo h blk px py pz (data : list f64) v, used_cell3 pts A r i cell lo h blk px py pz -> positive3 h ->
  cell_data (map value data) cell corners3 v -> Forall (fun x : f64 => fin x) data -> (forall k, In k corners3 -> Rabs (v k) <= bpow radix2 1000) ->
  let a := fold_left (one_step3 (cov3 A r) QVal r data) blk (nofZ FOps 0) in
  fin a /\ Rabs (B2R a - trilinear lo h v (point_value3 r)) <= 33 * u * rsum (fun k => Rabs (v k)) corners3 + 9 * eta.
Proof.
  intros pts A r i cell lo h blk px py pz data v Hu (P1 & P2 & P3) Hv Fd Hb.
  pose proof u_pos as U0. pose proof u_small as U.
  assert (M : forall k, In k corners3 -> (1 + 27 * u) * Rabs (v k) <= bpow radix2 1002).
  { intros k Hk. specialize (Hb k Hk). assert (bpow radix2 1002 = 4 * bpow radix2 1000) by (change 4 with (bpow radix2 2); rewrite <- bpow_plus; reflexivity).
    pose proof (Rabs_pos (v k)). apply Rle_trans with (4 * bpow radix2 1000); [apply Rmult_le_compat; lra|lra]. }
  pose proof (its_terms _ _ _ _ _ _ (u3_its _ _ _ _ _ _ _ _ _ _ _ Hu) (fun k it Hk => value_term3 _ _ _ _ _ _ _ _ _ _ _ k it data v Hu Hk Hv Fd)) as HT.
  destruct (block3 (cov3 A r) QVal r data (22 * u) (1 + 27 * u) (fun k => ffx lo h k r * ffy lo h k r * ffz lo h k r) v blk ltac:(lra) ltac:(lra) M HT) as [F E].
  cbv zeta. split; [exact F|].
  match type of E with Rabs (_ - ?s) <= _ => assert (Es : trilinear lo h v (point_value3 r) = s) end.
  { unfold rsum, corners3. cbn [fold_right]. unfold trilinear, bilinear, ffx, ffy, ffz, factor, point_value3, value.
    cbn [pole_x pole_y pole_z pole_dist fst snd cx cy cz Z.add Pos.add Pos.succ]. field. repeat split; lra. }
  rewrite Es. eapply Rle_trans; [exact E|]. apply Rplus_le_compat_r.
  apply Rmult_le_compat_r; [apply rsum_pos; intros k; apply Rabs_pos|].
  assert (u * u <= / 1024 * u) by (apply Rmult_le_compat_r; lra). lra.
Qed.

(** ** Gradients *)

Lemma grad_weight3 : forall l lo hi (w f1 f2 : f64) p p1 lo1 hi1 x1 p2 lo2 hi2 x2, side l lo hi -> bpow radix2 (-1000) <= hi - lo ->
  fin w -> B2R w = rne (hi - lo) -> factor_ok f1 p1 lo1 hi1 x1 -> factor_ok f2 p2 lo2 hi2 x2 ->
  let g := ndiv FOps (nmul FOps (nmul FOps (nopp FOps (pole_sign p)) f1) f2) w : f64 in
  fin g /\ Rabs (B2R g - pole_slope p * factor p1 lo1 hi1 x1 * factor p2 lo2 hi2 x2 / (hi - lo)) <= 17 * u * / (hi - lo) /\
  Rabs (B2R g) <= (1 + 21 * u) * / (hi - lo).
Proof.
  intros l lo hi w f1 f2 p p1 lo1 hi1 x1 p2 lo2 hi2 x2 Hs Hd Fw Vw H1 H2 g.
  pose proof (factor_size _ _ _ _ _ H1) as S1. pose proof (factor_size _ _ _ _ _ H2) as S2. destruct H1 as (Ff1 & A1 & B1). destruct H2 as (Ff2 & A2 & B2).
  pose proof (side_901 _ _ _ Hs) as D. destruct (side_1000 _ _ _ Hs) as (F1 & F2 & L & _ & _).
  destruct (side_ratio lo hi F1 F2 L) as [WP WR]. pose proof u_pos as U0. pose proof u_small as U. pose proof (eta_side _ (side_big _ D)) as T.
  set (d := hi - lo) in *. set (W := rne d) in *. set (t1 := factor p1 lo1 hi1 x1) in *. set (t2 := factor p2 lo2 hi2 x2) in *.
  destruct (slope64 p) as [Fs Vs]. pose proof (slope_abs p) as SA.
  assert (C1 : Rabs (B2R (nopp FOps (pole_sign p) : f64) * B2R f1) <= bpow radix2 2).
  { rewrite Vs, Rabs_mult, SA. change (bpow radix2 2) with 4. lra. }
  destruct (mul64 (nopp FOps (pole_sign p)) f1 2 ltac:(lia) Fs Ff1 C1) as [Fm Em]. rewrite Vs, (rne_slope p _ (f64_fmt f1)) in Em.
  set (m1 := nmul FOps (nopp FOps (pole_sign p)) f1 : f64) in *.
  assert (A1' : Rabs (B2R m1 - pole_slope p * t1) <= 6 * u).
  { rewrite Em. replace (pole_slope p * B2R f1 - pole_slope p * t1) with (pole_slope p * (B2R f1 - t1)) by ring. rewrite Rabs_mult, SA, Rmult_1_l. exact A1. }
  assert (B1' : Rabs (pole_slope p * t1) <= 1 + u) by (rewrite Rabs_mult, SA, Rmult_1_l; exact B1).
  assert (S1' : Rabs (B2R m1) <= 1 + 7 * u) by (rewrite Em, Rabs_mult, SA, Rmult_1_l; exact S1).
  assert (C2 : Rabs (B2R m1 * B2R f2) <= bpow radix2 2).
  { rewrite Rabs_mult. change (bpow radix2 2) with 4. replace 4 with (2 * 2) by ring. apply Rmult_le_compat; try apply Rabs_pos; lra. }
  destruct (mul64 m1 f2 2 ltac:(lia) Fm Ff2 C2) as [Fn En]. set (m2 := nmul FOps m1 f2 : f64) in *.
  pose proof (product_close _ _ _ _ A1' B1' A2 B2) as PC. rewrite <- En in PC. set (t := pole_slope p * t1 * t2) in *.
  assert (uu : u * u <= / 1024 * u) by (apply Rmult_le_compat_r; lra).
  assert (Tt : Rabs t <= 1 + 3 * u).
  { unfold t. rewrite Rabs_mult. apply Rle_trans with ((1 + u) * (1 + u)); [apply Rmult_le_compat; try apply Rabs_pos; lra|nra]. }
  assert (S2' : Rabs (B2R m2) <= 1 + 17 * u).
  { replace (B2R m2) with (t + (B2R m2 - t)) by ring. eapply Rle_trans; [apply Rabs_triang|]. lra. }
  set (rho := d / W) in *. rabs WR.
  assert (ID : 0 < / d) by (apply Rinv_0_lt_compat; lra).
  assert (Eq : B2R m2 / W = (B2R m2 * rho) * / d) by (unfold rho; field; lra).
  assert (Q : Rabs (B2R m2 / W) <= (1 + 19 * u) * / d).
  { rewrite Eq, !Rabs_mult, (Rabs_pos_eq (/ d)), (Rabs_pos_eq rho) by lra. apply Rmult_le_compat_r; [lra|].
    apply Rle_trans with ((1 + 17 * u) * (1 + 3 / 2 * u)); [apply Rmult_le_compat; try apply Rabs_pos; lra|nra]. }
  assert (I1 : / d <= bpow radix2 1000).
  { rewrite <- (Rinv_inv (bpow radix2 1000)), <- bpow_opp. apply Rinv_le_contravar; [apply bpow_gt_0|exact Hd]. }
  assert (I2 : bpow radix2 1001 = 2 * bpow radix2 1000) by (change 2 with (bpow radix2 1); rewrite <- bpow_plus; reflexivity).
  assert (I3 : Rabs (B2R m2 / B2R w) <= bpow radix2 1001).
  { rewrite Vw. eapply Rle_trans; [exact Q|]. rewrite I2. apply Rmult_le_compat; lra. }
  destruct (div64 m2 w 1001 ltac:(lia) Fn Fw ltac:(rewrite Vw; lra) I3) as [Fg Eg].
  fold g in Fg, Eg. rewrite Vw in Eg. split; [exact Fg|]. rewrite Eg.
  pose proof (rne_err (B2R m2 / W)) as E.
  assert (E2 : u * Rabs (B2R m2 / W) <= u * ((1 + 19 * u) * / d)) by (apply Rmult_le_compat_l; lra).
  assert (E3 : Rabs (B2R m2 / W - t / d) <= (14 * u * (1 + 3 / 2 * u) + (1 + 3 * u) * (3 / 2 * u)) * / d).
  { rewrite Eq. replace (B2R m2 * rho * / d - t / d) with (((B2R m2 - t) * rho + t * (rho - 1)) * / d) by (unfold Rdiv; ring).
    rewrite Rabs_mult, (Rabs_pos_eq (/ d)) by lra. apply Rmult_le_compat_r; [lra|].
    eapply Rle_trans; [apply Rabs_triang|]. rewrite !Rabs_mult, (Rabs_pos_eq rho) by lra.
    apply Rplus_le_compat; apply Rmult_le_compat; try apply Rabs_pos; try lra; apply Rabs_le; lra. }
  split.
  - replace (rne (B2R m2 / W) - t / d) with ((rne (B2R m2 / W) - B2R m2 / W) + (B2R m2 / W - t / d)) by ring.
    eapply Rle_trans; [apply Rabs_triang|].
    apply Rle_trans with (u * ((1 + 19 * u) * / d) + u / 128 * / d + (14 * u * (1 + 3 / 2 * u) + (1 + 3 * u) * (3 / 2 * u)) * / d); [lra|].
    replace (u * ((1 + 19 * u) * / d) + u / 128 * / d + (14 * u * (1 + 3 / 2 * u) + (1 + 3 * u) * (3 / 2 * u)) * / d) with
      ((u * (1 + 19 * u) + u / 128 + (14 * u * (1 + 3 / 2 * u) + (1 + 3 * u) * (3 / 2 * u))) * / d) by ring.
    apply Rmult_le_compat_r; lra.
  - replace (rne (B2R m2 / W)) with ((rne (B2R m2 / W) - B2R m2 / W) + B2R m2 / W) by ring.
    eapply Rle_trans; [apply Rabs_triang|].
    apply Rle_trans with (u * ((1 + 19 * u) * / d) + u / 128 * / d + (1 + 19 * u) * / d); [lra|].
    replace (u * ((1 + 19 * u) * / d) + u / 128 * / d + (1 + 19 * u) * / d) with ((u * (1 + 19 * u) + u / 128 + (1 + 19 * u)) * / d) by ring.
    apply Rmult_le_compat_r; lra.
Qed.

(** Eight weights of size about 1/d. *)
Lemma scaled_sum3 : forall cov q r data d (T v : Z -> R) its, 0 < d -> (forall k, In k corners3 -> Rabs (v k) <= bpow radix2 1000 * d) ->
  Forall2 (fun k it => corner_term3 cov q r data (17 * u * / d) ((1 + 21 * u) * / d) it (T k) (v k)) corners3 its ->
  let a := fold_left (one_step3 cov q r data) its (nofZ FOps 0) in
  fin a /\ Rabs (B2R a - rsum (fun k => T k * v k) corners3) <= 28 * u * (rsum (fun k => Rabs (v k)) corners3 / d) + 9 * eta.
Proof.
  intros cov q r data d T v its D Hb HT. pose proof u_pos as U0. pose proof u_small as U.
  assert (ID : 0 < / d) by (apply Rinv_0_lt_compat; exact D).
  assert (G0 : 0 <= 17 * u * / d) by (apply Rmult_le_pos; lra).
  assert (G1 : 0 <= (1 + 21 * u) * / d) by (apply Rmult_le_pos; lra).
  assert (M : forall k, In k corners3 -> (1 + 21 * u) * / d * Rabs (v k) <= bpow radix2 1002).
  { intros k Hk. specialize (Hb k Hk). assert (bpow radix2 1002 = 4 * bpow radix2 1000) by (change 4 with (bpow radix2 2); rewrite <- bpow_plus; reflexivity).
    pose proof (Rabs_pos (v k)). pose proof (bpow_ge_0 radix2 1000).
    apply Rle_trans with ((1 + 21 * u) * / d * (bpow radix2 1000 * d)); [apply Rmult_le_compat_l; lra|].
    replace ((1 + 21 * u) * / d * (bpow radix2 1000 * d)) with ((1 + 21 * u) * bpow radix2 1000) by (field; lra).
    apply Rle_trans with (4 * bpow radix2 1000); [apply Rmult_le_compat_r; lra|lra]. }
  destruct (block3 cov q r data _ _ T v its G0 G1 M HT) as [F E].
  cbv zeta. split; [exact F|]. eapply Rle_trans; [exact E|]. apply Rplus_le_compat_r.
  assert (B0 : 0 <= rsum (fun k => Rabs (v k)) corners3) by (apply rsum_pos; intros k; apply Rabs_pos).
  set (b := rsum (fun k => Rabs (v k)) corners3) in *.
  replace (28 * u * (b / d)) with (28 * u * / d * b) by (unfold Rdiv; ring). apply Rmult_le_compat_r; [exact B0|].
  replace (17 * u * / d + 10 * u * ((1 + 21 * u) * / d)) with ((17 * u + 10 * u * (1 + 21 * u)) * / d) by ring.
  apply Rmult_le_compat_r; [lra|]. assert (u * u <= / 1024 * u) by (apply Rmult_le_compat_r; lra). lra.
Qed.

(** The coefficient of the value at corner [k] in the derivative along an axis. *)
Definition slope_x (lo h : point3) (k : Z) (r : c3 FOps) : R := pole_slope (pole_x k) * ffy lo h k r * ffz lo h k r / cx h.
Definition slope_y (lo h : point3) (k : Z) (r : c3 FOps) : R := pole_slope (pole_y k) * ffx lo h k r * ffz lo h k r / cy h.
Definition slope_z (lo h : point3) (k : Z) (r : c3 FOps) : R := pole_slope (pole_z k) * ffx lo h k r * ffy lo h k r / cz h.


Lemma small_slope : forall s f g d, Rabs s = 1 -> 0 < d -> (Rabs f <= 5 * u /\ Rabs g <= 1 + u) \/ (Rabs f <= 1 + u /\ Rabs g <= 5 * u) ->
  Rabs (s * f * g / d) <= 17 * u * / d.
Proof.
  intros s f g d Hs Hd H. pose proof u_pos as U0. pose proof u_small as U.
  assert (ID : 0 < / d) by (apply Rinv_0_lt_compat; exact Hd).
  unfold Rdiv. rewrite !Rabs_mult, Hs, Rmult_1_l, (Rabs_pos_eq (/ d)) by lra. apply Rmult_le_compat_r; [lra|].
  pose proof (Rabs_pos f). pose proof (Rabs_pos g).
  destruct H as [[Hf Hg]|[Hf Hg]].
  - apply Rle_trans with (5 * u * (1 + u)); [apply Rmult_le_compat; assumption|nra].
  - apply Rle_trans with ((1 + u) * (5 * u)); [apply Rmult_le_compat; assumption|nra].
Qed.

Lemma grad_term_x : forall pts A r i cell lo h blk px py pz k it (data : list f64) v, used_cell3 pts A r i cell lo h blk px py pz -> corner_it3 i cell lo h k it ->
  cell_data (map value data) cell corners3 v -> Forall (fun x : f64 => fin x) data -> 0 < cx h ->
  bpow radix2 (-1000) <= cx h -> clear1 (cx lo) (cx lo + cx h) (B2R (cx r : f64)) ->
  corner_term3 (cov3 A r) (QGrad 0) r data (17 * u * / cx h) ((1 + 21 * u) * / cx h) it (slope_x lo h k r) (v k).
Proof.
  intros pts A r i cell lo h blk px py pz k it data v Hu Hc Hv Fd P Hd Cl.
  pose proof (uncovered3 _ _ _ _ _ _ _ _ _ _ _ _ _ Hu Hc) as UC.
  destruct (corner_factors3 _ _ _ _ _ _ _ _ _ _ _ _ _ Hu Hc) as (n & p & w & En & Eit & Es & (Fwx & Fwy & Fwz) & (Vwx & Vwy & Vwz) & Fx & Fy & Fz).
  destruct (corner_data3 _ _ _ _ _ _ data v Hc Hv Fd) as (x & Ex & Fxx & Vx).
  destruct Hu as [(Hx & Hy & Hz) (Sx & Sy & Sz) _ _ _ _ _ _].
  assert (Ed : cx lo + cx h - cx lo = cx h) by ring.
  assert (Hd' : bpow radix2 (-1000) <= cx lo + cx h - cx lo) by (rewrite Ed; exact Hd).
  destruct (grad_weight3 _ _ _ (cx w) _ _ (pole_x k) _ _ _ _ _ _ _ _ Sx Hd' Fwx Vwx Fy Fz) as (Fm & Em & Sm). rewrite Ed in Em, Sm.
  exists (ndiv FOps (nmul FOps (nmul FOps (nopp FOps (pole_sign (pole_x k))) (factor_at (pole_sign (pole_y k)) (cy r) (cy p) (cy w)))
    (factor_at (pole_sign (pole_z k)) (cz r) (cz p) (cz w))) (cx w)), x.
  split. { subst it. unfold ask, hex_values. cbn [it_grad]. unfold hex_dvalue. cbn [vget]. rewrite Es. reflexivity. }
  split; [exact Fm|]. split; [exact Ex|]. split; [exact Fxx|]. split; [exact Vx|]. split; [exact Sm|].
  split; [intros _; exact Em|]. intros Hn.
  destruct Fy as (_ & _ & Ob). destruct Fz as (_ & _ & Oc). fold (ffy lo h k r) in Ob. fold (ffz lo h k r) in Oc. unfold slope_x.
  destruct (UC Hn) as [Cov|[[_ G]|[_ G]]].
  - exfalso. apply (proj1 Cov). eapply clear_within; eauto.
  - apply (small_slope _ (ffy lo h k r) (ffz lo h k r) (cx h) (slope_abs _) P); [left; split; assumption].
  - apply (small_slope _ (ffy lo h k r) (ffz lo h k r) (cx h) (slope_abs _) P); [right; split; assumption].
Qed.

Lemma grad_term_y : forall pts A r i cell lo h blk px py pz k it (data : list f64) v, used_cell3 pts A r i cell lo h blk px py pz -> corner_it3 i cell lo h k it ->
  cell_data (map value data) cell corners3 v -> Forall (fun x : f64 => fin x) data -> 0 < cy h ->
  bpow radix2 (-1000) <= cy h -> clear1 (cy lo) (cy lo + cy h) (B2R (cy r : f64)) ->
  corner_term3 (cov3 A r) (QGrad 1) r data (17 * u * / cy h) ((1 + 21 * u) * / cy h) it (slope_y lo h k r) (v k).
Proof.
  intros pts A r i cell lo h blk px py pz k it data v Hu Hc Hv Fd P Hd Cl.
  pose proof (uncovered3 _ _ _ _ _ _ _ _ _ _ _ _ _ Hu Hc) as UC.
  destruct (corner_factors3 _ _ _ _ _ _ _ _ _ _ _ _ _ Hu Hc) as (n & p & w & En & Eit & Es & (Fwx & Fwy & Fwz) & (Vwx & Vwy & Vwz) & Fx & Fy & Fz).
  destruct (corner_data3 _ _ _ _ _ _ data v Hc Hv Fd) as (x & Ex & Fxx & Vx).
  destruct Hu as [(Hx & Hy & Hz) (Sx & Sy & Sz) _ _ _ _ _ _].
  assert (Ed : cy lo + cy h - cy lo = cy h) by ring.
  assert (Hd' : bpow radix2 (-1000) <= cy lo + cy h - cy lo) by (rewrite Ed; exact Hd).
  destruct (grad_weight3 _ _ _ (cy w) _ _ (pole_y k) _ _ _ _ _ _ _ _ Sy Hd' Fwy Vwy Fx Fz) as (Fm & Em & Sm). rewrite Ed in Em, Sm.
  exists (ndiv FOps (nmul FOps (nmul FOps (nopp FOps (pole_sign (pole_y k))) (factor_at (pole_sign (pole_x k)) (cx r) (cx p) (cx w)))
    (factor_at (pole_sign (pole_z k)) (cz r) (cz p) (cz w))) (cy w)), x.
  split. { subst it. unfold ask, hex_values. cbn [it_grad]. unfold hex_dvalue. cbn [vget]. rewrite Es. reflexivity. }
  split; [exact Fm|]. split; [exact Ex|]. split; [exact Fxx|]. split; [exact Vx|]. split; [exact Sm|].
  split; [intros _; exact Em|]. intros Hn.
  destruct Fx as (_ & _ & Ob). destruct Fz as (_ & _ & Oc). fold (ffx lo h k r) in Ob. fold (ffz lo h k r) in Oc. unfold slope_y.
  destruct (UC Hn) as [[_ G]|[Cov|[_ G]]].
  - apply (small_slope _ (ffx lo h k r) (ffz lo h k r) (cy h) (slope_abs _) P); [left; split; assumption].
  - exfalso. apply (proj1 Cov). eapply clear_within; eauto.
  - apply (small_slope _ (ffx lo h k r) (ffz lo h k r) (cy h) (slope_abs _) P); [right; split; assumption].
Qed.

Lemma grad_term_z : forall pts A r i cell lo h blk px py pz k it (data : list f64) v, used_cell3 pts A r i cell lo h blk px py pz -> corner_it3 i cell lo h k it ->
  cell_data (map value data) cell corners3 v -> Forall (fun x : f64 => fin x) data -> 0 < cz h ->
  bpow radix2 (-1000) <= cz h -> clear1 (cz lo) (cz lo + cz h) (B2R (cz r : f64)) ->
  corner_term3 (cov3 A r) (QGrad 2) r data (17 * u * / cz h) ((1 + 21 * u) * / cz h) it (slope_z lo h k r) (v k).
Proof.
  intros pts A r i cell lo h blk px py pz k it data v Hu Hc Hv Fd P Hd Cl.
  pose proof (uncovered3 _ _ _ _ _ _ _ _ _ _ _ _ _ Hu Hc) as UC.
  destruct (corner_factors3 _ _ _ _ _ _ _ _ _ _ _ _ _ Hu Hc) as (n & p & w & En & Eit & Es & (Fwx & Fwy & Fwz) & (Vwx & Vwy & Vwz) & Fx & Fy & Fz).
  destruct (corner_data3 _ _ _ _ _ _ data v Hc Hv Fd) as (x & Ex & Fxx & Vx).
  destruct Hu as [(Hx & Hy & Hz) (Sx & Sy & Sz) _ _ _ _ _ _].
  assert (Ed : cz lo + cz h - cz lo = cz h) by ring.
  assert (Hd' : bpow radix2 (-1000) <= cz lo + cz h - cz lo) by (rewrite Ed; exact Hd).
  destruct (grad_weight3 _ _ _ (cz w) _ _ (pole_z k) _ _ _ _ _ _ _ _ Sz Hd' Fwz Vwz Fx Fy) as (Fm & Em & Sm). rewrite Ed in Em, Sm.
  exists (ndiv FOps (nmul FOps (nmul FOps (nopp FOps (pole_sign (pole_z k))) (factor_at (pole_sign (pole_x k)) (cx r) (cx p) (cx w)))
    (factor_at (pole_sign (pole_y k)) (cy r) (cy p) (cy w))) (cz w)), x.
  split. { subst it. unfold ask, hex_values. cbn [it_grad]. unfold hex_dvalue. cbn [vget]. rewrite Es. reflexivity. }
  split; [exact Fm|]. split; [exact Ex|]. split; [exact Fxx|]. split; [exact Vx|]. split; [exact Sm|].
  split; [intros _; exact Em|]. intros Hn.
  destruct Fx as (_ & _ & Ob). destruct Fy as (_ & _ & Oc). fold (ffx lo h k r) in Ob. fold (ffy lo h k r) in Oc. unfold slope_z.
  destruct (UC Hn) as [[_ G]|[[_ G]|Cov]].
  - apply (small_slope _ (ffx lo h k r) (ffy lo h k r) (cz h) (slope_abs _) P); [left; split; assumption].
  - apply (small_slope _ (ffx lo h k r) (ffy lo h k r) (cz h) (slope_abs _) P); [right; split; assumption].
  - exfalso. apply (proj1 Cov). eapply clear_within; eauto.
Qed.

Lemma grad_sum_x : forall pts A r i cell lo h blk px py pz (data : list f64) v, used_cell3 pts A r i cell lo h blk px py pz -> 0 < cx h ->
  cell_data (map value data) cell corners3 v -> Forall (fun x : f64 => fin x) data ->
  bpow radix2 (-1000) <= cx h -> (forall k, In k corners3 -> Rabs (v k) <= bpow radix2 1000 * cx h) ->
  clear1 (cx lo) (cx lo + cx h) (B2R (cx r : f64)) ->
  let a := fold_left (one_step3 (cov3 A r) (QGrad 0) r data) blk (nofZ FOps 0) in
  fin a /\ Rabs (B2R a - rsum (fun k => slope_x lo h k r * v k) corners3) <= 28 * u * (rsum (fun k => Rabs (v k)) corners3 / cx h) + 9 * eta.
Proof.
  intros pts A r i cell lo h blk px py pz data v Hu P Hv Fd Hd Hb Cl.
  pose proof (its_terms _ _ _ _ _ _ (u3_its _ _ _ _ _ _ _ _ _ _ _ Hu) (fun k it Hk => grad_term_x _ _ _ _ _ _ _ _ _ _ _ k it data v Hu Hk Hv Fd P Hd Cl)) as HT.
  exact (scaled_sum3 _ _ _ _ _ _ v _ P Hb HT).
Qed.

Lemma grad_sum_y : forall pts A r i cell lo h blk px py pz (data : list f64) v, used_cell3 pts A r i cell lo h blk px py pz -> 0 < cy h ->
  cell_data (map value data) cell corners3 v -> Forall (fun x : f64 => fin x) data ->
  bpow radix2 (-1000) <= cy h -> (forall k, In k corners3 -> Rabs (v k) <= bpow radix2 1000 * cy h) ->
  clear1 (cy lo) (cy lo + cy h) (B2R (cy r : f64)) ->
  let a := fold_left (one_step3 (cov3 A r) (QGrad 1) r data) blk (nofZ FOps 0) in
  fin a /\ Rabs (B2R a - rsum (fun k => slope_y lo h k r * v k) corners3) <= 28 * u * (rsum (fun k => Rabs (v k)) corners3 / cy h) + 9 * eta.
Proof.
  intros pts A r i cell lo h blk px py pz data v Hu P Hv Fd Hd Hb Cl.
  pose proof (its_terms _ _ _ _ _ _ (u3_its _ _ _ _ _ _ _ _ _ _ _ Hu) (fun k it Hk => grad_term_y _ _ _ _ _ _ _ _ _ _ _ k it data v Hu Hk Hv Fd P Hd Cl)) as HT.
  exact (scaled_sum3 _ _ _ _ _ _ v _ P Hb HT).
Qed.

Lemma grad_sum_z : forall pts A r i cell lo h blk px py pz (data : list f64) v, used_cell3 pts A r i cell lo h blk px py pz -> 0 < cz h ->
  cell_data (map value data) cell corners3 v -> Forall (fun x : f64 => fin x) data ->
  bpow radix2 (-1000) <= cz h -> (forall k, In k corners3 -> Rabs (v k) <= bpow radix2 1000 * cz h) ->
  clear1 (cz lo) (cz lo + cz h) (B2R (cz r : f64)) ->
  let a := fold_left (one_step3 (cov3 A r) (QGrad 2) r data) blk (nofZ FOps 0) in
  fin a /\ Rabs (B2R a - rsum (fun k => slope_z lo h k r * v k) corners3) <= 28 * u * (rsum (fun k => Rabs (v k)) corners3 / cz h) + 9 * eta.
Proof.
  intros pts A r i cell lo h blk px py pz data v Hu P Hv Fd Hd Hb Cl.
  pose proof (its_terms _ _ _ _ _ _ (u3_its _ _ _ _ _ _ _ _ _ _ _ Hu) (fun k it Hk => grad_term_z _ _ _ _ _ _ _ _ _ _ _ k it data v Hu Hk Hv Fd P Hd Cl)) as HT.
  exact (scaled_sum3 _ _ _ _ _ _ v _ P Hb HT).
Qed.
