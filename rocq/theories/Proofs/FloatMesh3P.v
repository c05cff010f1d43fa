(** Reading a mesh of boxes in binary64: C66. *)
From Coq Require Import ZArith List Bool Lia ZifyBool Reals Lra Psatz.
From Coq Require Import Floats.SpecFloat.
From Flocq Require Import Core BinarySingleNaN.
From Verif Require Import Model.Outcome Model.Num Model.NumInst Model.PNDArray Model.Bin Model.Interpolator Model.Hexahedron Model.Mesh Model.PField.
From Verif Require Import Spec.Tensor Spec.NDHistory Spec.Grid Spec.Shape Spec.Fields Spec.Rounding Spec.Rounding3.
From Verif Require Import Proofs.OutcomeP Proofs.PNDArrayP Proofs.BinP Proofs.BinLaterP Proofs.MeshReadP Proofs.MeshRP Proofs.BinFloatP Proofs.RoundP
  Proofs.FloatShapeP Proofs.FloatAxisP Proofs.AxisP Proofs.FloatMeshP.
Import ListNotations.
Local Open Scope Z_scope.

(** ** Corners and poles *)

Definition pole_x (k : Z) : pole := match k with 1 => High | 2 => High | 5 => High | 6 => High | _ => Low end.
Definition pole_y (k : Z) : pole := match k with 2 => High | 3 => High | 6 => High | 7 => High | _ => Low end.
Definition pole_z (k : Z) : pole := match k with 4 => High | 5 => High | 6 => High | 7 => High | _ => Low end.

Lemma at_low : forall a h : R, (a + 0 * h)%R = pole_at Low a (a + h)%R.
Proof. intros. cbn [pole_at]. ring. Qed.
Lemma at_high : forall a h : R, (a + 1 * h)%R = pole_at High a (a + h)%R.
Proof. intros. cbn [pole_at]. ring. Qed.

Lemma corner_poles3 : forall lo h k, In k corners3 ->
  corner3 lo h k = @mkC3 ROps (pole_at (pole_x k) (cx lo) (cx lo + cx h)%R) (pole_at (pole_y k) (cy lo) (cy lo + cy h)%R) (pole_at (pole_z k) (cz lo) (cz lo + cz h)%R).
Proof.
  intros lo h k Hk. unfold corner3. simpl in Hk.
  destruct Hk as [<-|[<-|[<-|[<-|[<-|[<-|[<-|[<-|[]]]]]]]]]; cbn [unit3 pole_x pole_y pole_z fst snd]; f_equal; (apply at_low || apply at_high).
Qed.

Lemma sign_poles3 : forall k, In k corners3 -> hex_sign FOps k = mkC3 (pole_sign (pole_x k)) (pole_sign (pole_y k)) (pole_sign (pole_z k)).
Proof. intros k Hk. simpl in Hk. destruct Hk as [<-|[<-|[<-|[<-|[<-|[<-|[<-|[<-|[]]]]]]]]]; reflexivity. Qed.

(** The interpolator made for corner [k] of the cell, an exact box at [lo] with edges [h]. *)
Definition corner_it3 (i : Z) (cell : list Z) (lo h : point3) (k : Z) (it : interp FOps (c3 FOps)) : Prop :=
  In k corners3 /\ exists n (p w : c3 FOps), vget cell k = Ok n /\ finite_point3 p /\ point_value3 p = corner3 lo h k /\
    finite_point3 w /\ point_value3 w = @mkC3 ROps (rne (cx h)) (rne (cy h)) (rne (cz h)) /\ it = hex_values FOps n i p w k.

Definition cell_its3 (i : Z) (cell : list Z) (lo h : point3) (its : list (interp FOps (c3 FOps))) : Prop :=
  Forall2 (corner_it3 i cell lo h) corners3 its.

Definition small_points3 (pts : list (c3 FOps)) : Prop :=
  Forall (fun p => (Rabs (cx (point_value3 p)) <= bpow radix2 900)%R /\ (Rabs (cy (point_value3 p)) <= bpow radix2 900)%R /\
                   (Rabs (cz (point_value3 p)) <= bpow radix2 900)%R) pts.

(** The rounded difference of two coordinates. *)
Lemma edge64 : forall (p q : f64) (lo h : R), fin p -> fin q -> (Rabs (B2R p) <= bpow radix2 900)%R -> (Rabs (B2R q) <= bpow radix2 900)%R ->
  B2R p = (lo + h)%R -> B2R q = lo -> fin (nsub FOps p q) /\ B2R (nsub FOps p q : f64) = rne h.
Proof.
  intros p q lo h Fp Fq Sp Sq Ep Eq. destruct (sub64 p q 910 ltac:(lia) Fp Fq (diff_small _ _ Sp Sq)) as [F E]. split; [exact F|].
  etransitivity; [exact E|]. apply (f_equal (fun t : R => rne t)). rewrite Ep, Eq. ring.
Qed.

Section Cells.
Variable pts : list (c3 FOps).
Hypothesis Fin : Forall finite_point3 pts.
Hypothesis Small : small_points3 pts.
Local Notation P := (map point_value3 pts).

Lemma node_finite3 : forall n p, vget pts n = Ok p -> finite_point3 p.
Proof. intros n p H. rewrite Forall_forall in Fin. apply Fin. eapply vget_in; eauto. Qed.

Lemma cell_interp_ok3 : forall i cell lo h, cell_box P cell lo h ->
  exists its, cell_interp (K := hex_kind FOps) pts i cell = Ok its /\ cell_its3 i cell lo h its.
Proof.
  intros i cell lo h [_ Hc].
  assert (Hn : forall k, In k corners3 -> exists n p, vget cell k = Ok n /\ vget pts n = Ok p /\ point_value3 p = corner3 lo h k).
  { intros k Hk. destruct (Hc k Hk) as (n & E & E2). apply vget_map in E2. destruct E2 as (p & E2 & E3). eauto 10. }
  destruct (Hn 0) as (n0 & p0 & A0 & B0 & C0); [simpl; tauto|]. destruct (Hn 1) as (n1 & p1 & A1 & B1 & C1); [simpl; tauto|].
  destruct (Hn 2) as (n2 & p2 & A2 & B2 & C2); [simpl; tauto|]. destruct (Hn 3) as (n3 & p3 & A3 & B3 & C3); [simpl; tauto|].
  destruct (Hn 4) as (n4 & p4 & A4 & B4 & C4); [simpl; tauto|]. destruct (Hn 5) as (n5 & p5 & A5 & B5 & C5); [simpl; tauto|].
  destruct (Hn 6) as (n6 & p6 & A6 & B6 & C6); [simpl; tauto|]. destruct (Hn 7) as (n7 & p7 & A7 & B7 & C7); [simpl; tauto|].
  set (w := kdiff (hex_kind FOps) p6 p0).
  assert (Hw : finite_point3 w /\ point_value3 w = @mkC3 ROps (rne (cx h)) (rne (cy h)) (rne (cz h))).
  { destruct (node_finite3 _ _ B0) as (F0x & F0y & F0z). destruct (node_finite3 _ _ B6) as (F6x & F6y & F6z).
    pose proof Small as Sm. unfold small_points3 in Sm. rewrite Forall_forall in Sm.
    destruct (Sm _ (vget_in _ _ _ _ B0)) as (S0x & S0y & S0z). destruct (Sm _ (vget_in _ _ _ _ B6)) as (S6x & S6y & S6z).
    pose proof C0 as D0. pose proof C6 as D6. rewrite corner_poles3 in D0, D6 by (simpl; tauto). cbn [pole_x pole_y pole_z pole_at] in D0, D6.
    destruct (edge64 (cx p6) (cx p0) (cx lo) (cx h) F6x F0x S6x S0x (f_equal (@cx ROps) D6) (f_equal (@cx ROps) D0)) as [Fx Ex].
    destruct (edge64 (cy p6) (cy p0) (cy lo) (cy h) F6y F0y S6y S0y (f_equal (@cy ROps) D6) (f_equal (@cy ROps) D0)) as [Fy Ey].
    destruct (edge64 (cz p6) (cz p0) (cz lo) (cz h) F6z F0z S6z S0z (f_equal (@cz ROps) D6) (f_equal (@cz ROps) D0)) as [Fz Ez].
    split; [exact (conj Fx (conj Fy Fz))|]. unfold point_value3, value. cbn [cx cy cz w kdiff hex_kind]. f_equal; assumption. }
  destruct Hw as [Fw Ew].
  exists [hex_values FOps n0 i p0 w 0; hex_values FOps n1 i p1 w 1; hex_values FOps n2 i p2 w 2; hex_values FOps n3 i p3 w 3;
          hex_values FOps n4 i p4 w 4; hex_values FOps n5 i p5 w 5; hex_values FOps n6 i p6 w 6; hex_values FOps n7 i p7 w 7].
  split.
  - unfold cell_interp. cbn [kfar kcorners hex_kind seq omap]. change (Z.of_nat 0) with 0. change (Z.of_nat 1) with 1.
    change (Z.of_nat 2) with 2. change (Z.of_nat 3) with 3. change (Z.of_nat 4) with 4. change (Z.of_nat 5) with 5. change (Z.of_nat 6) with 6. change (Z.of_nat 7) with 7.
    change (kpoint (hex_kind FOps)) with (c3 FOps).
    rewrite A6. cbn [obind]. rewrite B6. cbn [obind]. rewrite A0. cbn [obind]. rewrite B0. cbn [obind].
    rewrite A1. cbn [obind]. rewrite B1. cbn [obind]. rewrite A2. cbn [obind]. rewrite B2. cbn [obind].
    rewrite A3. cbn [obind]. rewrite B3. cbn [obind]. rewrite A4. cbn [obind]. rewrite B4. cbn [obind].
    rewrite A5. cbn [obind]. rewrite B5. cbn [obind]. rewrite A7. cbn [obind]. rewrite B7. reflexivity.
  - assert (G : forall k n p, In k corners3 -> vget cell k = Ok n -> vget pts n = Ok p -> point_value3 p = corner3 lo h k ->
      corner_it3 i cell lo h k (hex_values FOps n i p w k)).
    { intros k n p Hk En Ep Vp. split; [exact Hk|]. exists n, p, w. split; [exact En|]. split; [eapply node_finite3; eauto|]. auto. }
    unfold cell_its3. set (c := corners3) in G. unfold corners3.
    repeat (apply Forall2_cons; [eapply G; [unfold c; simpl; tauto|eassumption|eassumption|assumption]|]). apply Forall2_nil.
Qed.

Inductive cells_built3 : Z -> list (list Z) -> list (interp FOps (c3 FOps)) -> Prop :=
| CellsNil3 : forall i, cells_built3 i [] []
| CellsCons3 : forall i cell cells lo h its rest, cell_box P cell lo h -> cell_its3 i cell lo h its -> cells_built3 (i + 1) cells rest ->
    cells_built3 i (cell :: cells) (its ++ rest).

Lemma cells_loop_ok3 : forall cells, Forall (fun cell => exists lo h, cell_box P cell lo h) cells ->
  forall i (m : mesh FOps (hex_kind FOps)), me_node m = pts ->
  exists its, cells_loop i cells m = RRet (mkMesh (me_min m) (me_max m) (me_node m) (me_interp m ++ its) (me_bin m)) tt /\
    cells_built3 i cells its.
Proof.
  intros cells H. induction H as [|cell cells (lo & h & Hc) H IH]; intros i m Hm.
  - exists []. rewrite app_nil_r. split; [destruct m; reflexivity|constructor].
  - destruct (cell_interp_ok3 i cell lo h Hc) as (its & E & B).
    destruct (IH (i + 1) (mkMesh (me_min m) (me_max m) (me_node m) (me_interp m ++ its) (me_bin m)) Hm) as (rest & R & BR).
    exists (its ++ rest). split; [|econstructor; eauto].
    cbn [cells_loop]. unfold mbind, mget, mlift, mput. rewrite Hm, E. rewrite <- Hm. rewrite R. simpl. rewrite app_assoc. reflexivity.
Qed.

Lemma corner_elem3 : forall i cell lo h k it, corner_it3 i cell lo h k it -> it_elem it = i.
Proof. intros i cell lo h k it (_ & n & p & w & _ & _ & _ & _ & _ & ->). reflexivity. Qed.

Lemma its_elem3 : forall i cell lo h its it, cell_its3 i cell lo h its -> In it its -> it_elem it = i.
Proof.
  intros i cell lo h its it B Hit. destruct (Forall2_in_r _ _ _ _ _ _ B Hit) as (k & _ & H). eapply corner_elem3; eauto.
Qed.

(** Every interpolator belongs to the block of its element. *)
Lemma built_block3 : forall i cells its it, cells_built3 i cells its -> In it its -> i <= it_elem it /\
  exists cell lo h, In cell cells /\ cell_box P cell lo h /\ cell_its3 (it_elem it) cell lo h (filter (fun j => it_elem j =? it_elem it) its).
Proof.
  intros i cells its it H. revert it. induction H as [i|i cell cells lo h blk rest Hc B H IH]; intros it Hit; [destruct Hit|].
  apply in_app_or in Hit. rewrite filter_app. destruct Hit as [Hit|Hit].
  - pose proof (its_elem3 _ _ _ _ _ _ B Hit) as E. split; [lia|]. exists cell, lo, h. split; [simpl; auto|]. split; [exact Hc|].
    rewrite filter_all, filter_none, app_nil_r; [rewrite E; exact B| |].
    + intros j Hj. destruct (IH j Hj) as [L _]. lia.
    + intros j Hj. rewrite (its_elem3 _ _ _ _ _ _ B Hj). lia.
  - destruct (IH it Hit) as (L & c & lo' & h' & I1 & I2 & I3). split; [lia|]. exists c, lo', h'. split; [simpl; auto|]. split; [exact I2|].
    rewrite filter_none; [exact I3|]. intros j Hj. rewrite (its_elem3 _ _ _ _ _ _ B Hj). lia.
Qed.

(** All eight corners of every cell are there. *)
Lemma built_cell_its3 : forall i cells its cell, cells_built3 i cells its -> In cell cells ->
  exists e lo h blk, cell_box P cell lo h /\ cell_its3 e cell lo h blk /\ (forall it, In it blk -> In it its).
Proof.
  intros i cells its cell H. induction H as [i|i c cells lo h blk rest Hc B H IH]; intros Hin; [destruct Hin|].
  destruct Hin as [->|Hin].
  - exists i, lo, h, blk. split; [exact Hc|]. split; [exact B|]. intros it Hit. apply in_or_app. auto.
  - destruct (IH Hin) as (e & lo' & h' & blk' & I1 & I2 & I3). exists e, lo', h', blk'. split; [exact I1|]. split; [exact I2|].
    intros it Hit. apply in_or_app. auto.
Qed.

End Cells.

(** ** Three axes *)

Record axes3 : Type := mkAxes3 { axx : axis FOps; axy : axis FOps; axz : axis FOps }.
Definition mins (A : axes3) : list (num FOps) := [ax_min (axx A); ax_min (axy A); ax_min (axz A)].
Definition incrs (A : axes3) : list (num FOps) := [ax_incr (axx A); ax_incr (axy A); ax_incr (axz A)].
Definition tops (A : axes3) : list (num FOps) := [ax_top (axx A); ax_top (axy A); ax_top (axz A)].
Definition counts (A : axes3) : list Z := [ax_N (axx A); ax_N (axy A); ax_N (axz A)].
Definition nums (A : axes3) (x y z : R) : list Z := [cellnum (axx A) x; cellnum (axy A) y; cellnum (axz A) z].

Definition sound_axes (pts : list (c3 FOps)) (A : axes3) : Prop :=
  sound_axis (map cx (map point_value3 pts)) (axx A) /\ sound_axis (map cy (map point_value3 pts)) (axy A) /\ sound_axis (map cz (map point_value3 pts)) (axz A).

Record meshed3 (pts : list (c3 FOps)) (cells : list (list Z)) (A : axes3) (m : mesh FOps (hex_kind FOps)) : Prop := mkMeshed3 {
  m3_axes : sound_axes pts A;
  m3_small : small_points3 pts;
  m3_node : me_node m = pts;
  m3_built : cells_built3 pts 0 cells (me_interp m);
  m3_inv : bin_inv (mins A) (incrs A) (tops A) (counts A) (me_bin m);
  m3_view : forall t, valid_index (counts A) t -> nd_at (bin_item (me_bin m)) t =
    Ok (filter (covers (K := hex_kind FOps) (mins A) (incrs A) t) (me_interp m))
}.

Lemma column_x3 : forall pts : list (c3 FOps), map (fun x : f64 => B2R x) (column (K := hex_kind FOps) pts 0) = map cx (map point_value3 pts).
Proof. intros pts. unfold column. rewrite !map_map. reflexivity. Qed.
Lemma column_y3 : forall pts : list (c3 FOps), map (fun x : f64 => B2R x) (column (K := hex_kind FOps) pts 1) = map cy (map point_value3 pts).
Proof. intros pts. unfold column. rewrite !map_map. reflexivity. Qed.
Lemma column_z3 : forall pts : list (c3 FOps), map (fun x : f64 => B2R x) (column (K := hex_kind FOps) pts 2) = map cz (map point_value3 pts).
Proof. intros pts. unfold column. rewrite !map_map. reflexivity. Qed.

Lemma axis_count : forall l ax, sound_axis l ax -> ax_N ax = distinct l + 2 /\ ax_N ax <= int_max.
Proof. intros l ax (g & _ & H & _ & _ & _ & _ & _ & E & _). rewrite E. auto. Qed.

Lemma index_facts : forall l ax (x : f64), sound_axis l ax -> fin x -> near_axis l (B2R x) ->
  nltb FOps x (ax_min ax) = false /\ nltb FOps (ax_top ax) x = false /\
  nfloor FOps (ndiv FOps (nsub FOps x (ax_min ax)) (ax_incr ax)) = Some (cellnum ax (B2R x)) /\ in_int (cellnum ax (B2R x)) = true /\
  0 <= cellnum ax (B2R x) < ax_N ax.
Proof.
  intros l ax x H Fx Nx. destruct (sound_index _ _ H x Fx Nx) as (A1 & A2 & A3 & A4). destruct (axis_count _ _ H) as [_ L].
  split; [exact A1|]. split; [exact A2|]. split; [exact A3|]. split; [|exact A4]. clear A1 A2 A3. unfold int_max in L. unfold in_int, INT_MIN, INT_MAX. lia.
Qed.

Lemma binned3 : forall pts A (x y z : f64), sound_axes pts A -> fin x -> fin y -> fin z ->
  near_axis (map cx (map point_value3 pts)) (B2R x) -> near_axis (map cy (map point_value3 pts)) (B2R y) -> near_axis (map cz (map point_value3 pts)) (B2R z) ->
  binned (O := FOps) (mins A) (incrs A) (tops A) (counts A) [x; y; z] /\
  index_of (O := FOps) (mins A) (incrs A) [x; y; z] = nums A (B2R x) (B2R y) (B2R z).
Proof.
  intros pts A x y z (Hx & Hy & Hz) Fx Fy Fz Nx Ny Nz.
  destruct (index_facts _ _ x Hx Fx Nx) as (A1 & A2 & A3 & A4 & A5). destruct (index_facts _ _ y Hy Fy Ny) as (B1 & B2 & B3 & B4 & B5).
  destruct (index_facts _ _ z Hz Fz Nz) as (C1 & C2 & C3 & C4 & C5).
  assert (H : has_index (O := FOps) (mins A) (incrs A) [x; y; z] (nums A (B2R x) (B2R y) (B2R z))).
  { constructor; [split; assumption|]. constructor; [split; assumption|]. constructor; [split; assumption|]. constructor. }
  pose proof (index_of_is _ _ _ _ _ H) as E. split; [|exact E]. unfold binned. rewrite E. split; [|split; [exact H|]].
  - constructor; [split; assumption|]. constructor; [split; assumption|]. constructor; [split; assumption|]. constructor.
  - constructor; [assumption|]. constructor; [assumption|]. constructor; [assumption|]. constructor.
Qed.

(** ** Boxes *)

Definition sides (pts : list (c3 FOps)) (lo h : point3) : Prop :=
  side (map cx (map point_value3 pts)) (cx lo) (cx lo + cx h)%R /\ side (map cy (map point_value3 pts)) (cy lo) (cy lo + cy h)%R /\
  side (map cz (map point_value3 pts)) (cz lo) (cz lo + cz h)%R.

Lemma box_sides : forall pts cell lo h, small_points3 pts -> cell_box (map point_value3 pts) cell lo h -> sides pts lo h.
Proof.
  intros pts cell lo h Sm [(Px & Py & Pz) Hc].
  destruct (Hc 0) as (n0 & _ & E0); [simpl; tauto|]. destruct (Hc 6) as (n6 & _ & E6); [simpl; tauto|].
  apply vget_in in E0. apply vget_in in E6. rewrite corner_poles3 in E0, E6 by (simpl; tauto). cbn [pole_x pole_y pole_z pole_at] in E0, E6.
  pose proof (in_map (@cx ROps) _ _ E0) as X0. pose proof (in_map (@cy ROps) _ _ E0) as Y0. pose proof (in_map (@cz ROps) _ _ E0) as Z0.
  pose proof (in_map (@cx ROps) _ _ E6) as X6. pose proof (in_map (@cy ROps) _ _ E6) as Y6. pose proof (in_map (@cz ROps) _ _ E6) as Z6.
  cbn [cx cy cz] in X0, Y0, Z0, X6, Y6, Z6.
  apply in_map_iff in E0. destruct E0 as (p0 & V0 & I0). apply in_map_iff in E6. destruct E6 as (p6 & V6 & I6).
  unfold small_points3 in Sm. rewrite Forall_forall in Sm. pose proof (Sm p0 I0) as (S0x & S0y & S0z). pose proof (Sm p6 I6) as (S6x & S6y & S6z).
  rewrite V0 in S0x, S0y, S0z. rewrite V6 in S6x, S6y, S6z. cbn [cx cy cz] in S0x, S0y, S0z, S6x, S6y, S6z.
  assert (F0x : fmt (cx lo)) by (replace (cx lo) with (B2R (cx p0 : f64)) by exact (f_equal (@cx ROps) V0); apply f64_fmt).
  assert (F0y : fmt (cy lo)) by (replace (cy lo) with (B2R (cy p0 : f64)) by exact (f_equal (@cy ROps) V0); apply f64_fmt).
  assert (F0z : fmt (cz lo)) by (replace (cz lo) with (B2R (cz p0 : f64)) by exact (f_equal (@cz ROps) V0); apply f64_fmt).
  assert (F6x : fmt (cx lo + cx h)%R) by (replace (cx lo + cx h)%R with (B2R (cx p6 : f64)) by exact (f_equal (@cx ROps) V6); apply f64_fmt).
  assert (F6y : fmt (cy lo + cy h)%R) by (replace (cy lo + cy h)%R with (B2R (cy p6 : f64)) by exact (f_equal (@cy ROps) V6); apply f64_fmt).
  assert (F6z : fmt (cz lo + cz h)%R) by (replace (cz lo + cz h)%R with (B2R (cz p6 : f64)) by exact (f_equal (@cz ROps) V6); apply f64_fmt).
  split; [|split]; (split; [|split; assumption]); repeat split; try assumption; lra.
Qed.

(** What is stored in the interpolator of a corner. *)
Lemma corner_parts3 : forall i cell lo h k it, corner_it3 i cell lo h k it ->
  In k corners3 /\ exists n (p w : c3 FOps), vget cell k = Ok n /\ it = hex_values FOps n i p w k /\
    hex_sign FOps k = mkC3 (pole_sign (pole_x k)) (pole_sign (pole_y k)) (pole_sign (pole_z k)) /\
    finite_point3 p /\ finite_point3 w /\
    (B2R (cx p : f64) = pole_at (pole_x k) (cx lo) (cx lo + cx h)%R /\ B2R (cy p : f64) = pole_at (pole_y k) (cy lo) (cy lo + cy h)%R /\
     B2R (cz p : f64) = pole_at (pole_z k) (cz lo) (cz lo + cz h)%R) /\
    (B2R (cx w : f64) = rne (cx lo + cx h - cx lo) /\ B2R (cy w : f64) = rne (cy lo + cy h - cy lo) /\ B2R (cz w : f64) = rne (cz lo + cz h - cz lo)).
Proof.
  intros i cell lo h k it (Hk & n & p & w & En & Fp & Vp & Fw & Vw & ->). split; [exact Hk|].
  rewrite corner_poles3 in Vp by exact Hk. exists n, p, w. split; [exact En|]. split; [reflexivity|]. split; [exact (sign_poles3 k Hk)|].
  split; [exact Fp|]. split; [exact Fw|]. split.
  - exact (conj (f_equal (@cx ROps) Vp) (conj (f_equal (@cy ROps) Vp) (f_equal (@cz ROps) Vp))).
  - split; [|split].
    + etransitivity; [exact (f_equal (@cx ROps) Vw)|]. exact (f_equal (fun t : R => rne t) (side_len (cx lo) (cx h))).
    + etransitivity; [exact (f_equal (@cy ROps) Vw)|]. exact (f_equal (fun t : R => rne t) (side_len (cy lo) (cy h))).
    + etransitivity; [exact (f_equal (@cz ROps) Vw)|]. exact (f_equal (fun t : R => rne t) (side_len (cz lo) (cz h))).
Qed.

(** The box of a corner. *)
Lemma corner_box3 : forall pts i cell lo h k it, sides pts lo h -> corner_it3 i cell lo h k it ->
  (fin (cx (it_min it)) /\ B2R (cx (it_min it) : f64) = pole_lo (pole_x k) (cx lo) (cx lo + cx h)%R) /\
  (fin (cy (it_min it)) /\ B2R (cy (it_min it) : f64) = pole_lo (pole_y k) (cy lo) (cy lo + cy h)%R) /\
  (fin (cz (it_min it)) /\ B2R (cz (it_min it) : f64) = pole_lo (pole_z k) (cz lo) (cz lo + cz h)%R) /\
  (fin (cx (it_max it)) /\ B2R (cx (it_max it) : f64) = pole_hi (pole_x k) (cx lo) (cx lo + cx h)%R) /\
  (fin (cy (it_max it)) /\ B2R (cy (it_max it) : f64) = pole_hi (pole_y k) (cy lo) (cy lo + cy h)%R) /\
  (fin (cz (it_max it)) /\ B2R (cz (it_max it) : f64) = pole_hi (pole_z k) (cz lo) (cz lo + cz h)%R).
Proof.
  intros pts i cell lo h k it (((_ & _ & _ & Xa & Xb) & _) & ((_ & _ & _ & Ya & Yb) & _) & ((_ & _ & _ & Za & Zb) & _)) Hc.
  destruct (corner_parts3 _ _ _ _ _ _ Hc) as (_ & n & p & w & _ & -> & Es & (Fpx & Fpy & Fpz) & (Fwx & Fwy & Fwz) & (Vx & Vy & Vz) & (Wx & Wy & Wz)).
  apply bpow_900_1000 in Xa. apply bpow_900_1000 in Xb. apply bpow_900_1000 in Ya. apply bpow_900_1000 in Yb.
  apply bpow_900_1000 in Za. apply bpow_900_1000 in Zb.
  unfold hex_values. rewrite Es. cbn [it_min it_max]. unfold hex_min, hex_max. cbn [cx cy cz].
  split; [exact (box_lo64 _ _ Xa Xb (cx p) (cx w) (cx p) (pole_x k) Fpx Vx Fwx Wx Fpx)|].
  split; [exact (box_lo64 _ _ Ya Yb (cy p) (cy w) (cy p) (pole_y k) Fpy Vy Fwy Wy Fpy)|].
  split; [exact (box_lo64 _ _ Za Zb (cz p) (cz w) (cz p) (pole_z k) Fpz Vz Fwz Wz Fpz)|].
  split; [exact (box_hi64 _ _ Xa Xb (cx p) (cx w) (cx p) (pole_x k) Fpx Vx Fwx Wx Fpx)|].
  split; [exact (box_hi64 _ _ Ya Yb (cy p) (cy w) (cy p) (pole_y k) Fpy Vy Fwy Wy Fpy)|].
  exact (box_hi64 _ _ Za Zb (cz p) (cz w) (cz p) (pole_z k) Fpz Vz Fwz Wz Fpz).
Qed.

(** The bins a corner is registered in. *)
Lemma corner_bins3 : forall pts A i cell lo h k it, sound_axes pts A -> sides pts lo h -> corner_it3 i cell lo h k it ->
  (binned (O := FOps) (mins A) (incrs A) (tops A) (counts A) (kcoords (hex_kind FOps) (it_min it)) /\
   index_of (O := FOps) (mins A) (incrs A) (kcoords (hex_kind FOps) (it_min it)) =
     nums A (pole_lo (pole_x k) (cx lo) (cx lo + cx h)%R) (pole_lo (pole_y k) (cy lo) (cy lo + cy h)%R) (pole_lo (pole_z k) (cz lo) (cz lo + cz h)%R)) /\
  (binned (O := FOps) (mins A) (incrs A) (tops A) (counts A) (kcoords (hex_kind FOps) (it_max it)) /\
   index_of (O := FOps) (mins A) (incrs A) (kcoords (hex_kind FOps) (it_max it)) =
     nums A (pole_hi (pole_x k) (cx lo) (cx lo + cx h)%R) (pole_hi (pole_y k) (cy lo) (cy lo + cy h)%R) (pole_hi (pole_z k) (cz lo) (cz lo + cz h)%R)).
Proof.
  intros pts A i cell lo h k it HA Hs Hk. pose proof (corner_box3 _ _ _ _ _ _ _ Hs Hk) as ((A1 & A2) & (B1 & B2) & (C1 & C2) & (D1 & D2) & (E1 & E2) & (F1 & F2)).
  destruct Hs as (Hsx & Hsy & Hsz).
  destruct (pole_box _ _ _ (pole_x k) Hsx) as (P1 & P2 & _). destruct (pole_box _ _ _ (pole_y k) Hsy) as (Q1 & Q2 & _).
  destruct (pole_box _ _ _ (pole_z k) Hsz) as (R1 & R2 & _).
  pose proof (eq_ind_r (near_axis _) P1 A2) as P1'. pose proof (eq_ind_r (near_axis _) P2 D2) as P2'.
  pose proof (eq_ind_r (near_axis _) Q1 B2) as Q1'. pose proof (eq_ind_r (near_axis _) Q2 E2) as Q2'.
  pose proof (eq_ind_r (near_axis _) R1 C2) as R1'. pose proof (eq_ind_r (near_axis _) R2 F2) as R2'.
  destruct (binned3 _ _ (cx (it_min it)) (cy (it_min it)) (cz (it_min it)) HA A1 B1 C1 P1' Q1' R1') as [G1 G2].
  destruct (binned3 _ _ (cx (it_max it)) (cy (it_max it)) (cz (it_max it)) HA D1 E1 F1 P2' Q2' R2') as [G3 G4].
  cbn [kcoords hex_kind]. split; (split; [assumption|]).
  - etransitivity; [exact G2|]. unfold nums.
    refine (f_equal2 (fun a b => a :: b) (f_equal (cellnum (axx A)) A2) (f_equal2 (fun a b => a :: b) (f_equal (cellnum (axy A)) B2) (f_equal (fun a => [a]) (f_equal (cellnum (axz A)) C2)))).
  - etransitivity; [exact G4|]. unfold nums.
    refine (f_equal2 (fun a b => a :: b) (f_equal (cellnum (axx A)) D2) (f_equal2 (fun a b => a :: b) (f_equal (cellnum (axy A)) E2) (f_equal (fun a => [a]) (f_equal (cellnum (axz A)) F2)))).
Qed.

Lemma product_ge : forall a b c : Z, 1 <= a -> 1 <= b -> 1 <= c -> a <= a * (b * c) /\ b <= a * (b * c) /\ c <= a * (b * c).
Proof.
  intros a b c Ha Hb Hc. assert (1 <= b * c) by nia. assert (b <= b * c) by nia. assert (c <= b * c) by nia. repeat split; nia.
Qed.

Lemma mesh_reads3 : forall pts cells, Forall finite_point3 pts -> box_mesh (map point_value3 pts) cells -> resolved3 (map point_value3 pts) ->
  exists A m1 m, mesh_points (K := hex_kind FOps) pts mesh_new = RRet m1 tt /\ mesh_cells cells m1 = RRet m tt /\ meshed3 pts cells A m.
Proof.
  intros pts cells Fp (Hne & Hrect & Hz & Hn) (Rx & Ry & Rz).
  assert (Sm : small_points3 pts).
  { apply Forall_forall. intros p Hp. destruct Rx as (? & ? & _ & _ & _ & Bx). destruct Ry as (? & ? & _ & _ & _ & By). destruct Rz as (? & ? & _ & _ & _ & Bz).
    split; [apply Bx|split; [apply By|apply Bz]]; apply in_map, in_map; exact Hp. }
  assert (Dx : 0 < distinct (map cx (map point_value3 pts))) by (destruct Rx as (? & ? & L & _); eapply distinct_pos; apply L).
  assert (Dy : 0 < distinct (map cy (map point_value3 pts))) by (destruct Ry as (? & ? & L & _); eapply distinct_pos; apply L).
  assert (Dz : 0 < distinct (map cz (map point_value3 pts))) by (destruct Rz as (? & ? & L & _); eapply distinct_pos; apply L).
  destruct (product_ge (distinct (map cx (map point_value3 pts)) + 2) (distinct (map cy (map point_value3 pts)) + 2) (distinct (map cz (map point_value3 pts)) + 2) ltac:(lia) ltac:(lia) ltac:(lia)) as (Mx & My & Mz).
  assert (Pne : pts <> []) by (intros ->; destruct Rx as (? & ? & [L _] & _); destruct L).
  assert (Cx : Forall (fun x : f64 => fin x) (column (K := hex_kind FOps) pts 0)).
  { unfold column. apply Forall_map. eapply Forall_impl; [|exact Fp]. intros p (F & _ & _). exact F. }
  assert (Cy : Forall (fun x : f64 => fin x) (column (K := hex_kind FOps) pts 1)).
  { unfold column. apply Forall_map. eapply Forall_impl; [|exact Fp]. intros p (_ & F & _). exact F. }
  assert (Cz : Forall (fun x : f64 => fin x) (column (K := hex_kind FOps) pts 2)).
  { unfold column. apply Forall_map. eapply Forall_impl; [|exact Fp]. intros p (_ & _ & F). exact F. }
  destruct (axis_sound (column (K := hex_kind FOps) pts 0) Cx) as (ax & Ex & Sx).
  { destruct pts; [congruence|discriminate]. }
  { rewrite column_x3. exact Rx. }
  { rewrite column_x3. exact (Z.le_trans _ _ _ Mx Hz). }
  destruct (axis_sound (column (K := hex_kind FOps) pts 1) Cy) as (ay & Ey & Sy).
  { destruct pts; [congruence|discriminate]. }
  { rewrite column_y3. exact Ry. }
  { rewrite column_y3. exact (Z.le_trans _ _ _ My Hz). }
  destruct (axis_sound (column (K := hex_kind FOps) pts 2) Cz) as (az & Ez & Sz).
  { destruct pts; [congruence|discriminate]. }
  { rewrite column_z3. exact Rz. }
  { rewrite column_z3. exact (Z.le_trans _ _ _ Mz Hz). }
  rewrite column_x3 in Sx. rewrite column_y3 in Sy. rewrite column_z3 in Sz.
  set (A := mkAxes3 ax ay az).
  assert (HA : sound_axes pts A) by exact (conj Sx (conj Sy Sz)).
  destruct (axis_count _ _ Sx) as [ENx _]. destruct (axis_count _ _ Sy) as [ENy _]. destruct (axis_count _ _ Sz) as [ENz _].
  assert (HN : proper_shape (counts A)).
  { split; [discriminate|]. split; [repeat constructor; cbn [axx axy axz A]; lia|]. unfold zprod, counts. simpl. rewrite ENx, ENy, ENz. unfold int_max in *. lia. }
  destruct (bin_make_inv (T := interp FOps (c3 FOps)) (mins A) (incrs A) (tops A) (counts A) HN eq_refl eq_refl eq_refl)
    as (b & Eb & Ib & Nb).
  set (m1 := @mkMesh FOps (hex_kind FOps) (Some [ax_lo ax; ax_lo ay; ax_lo az]) (Some [ax_hi ax; ax_hi ay; ax_hi az]) pts [] b).
  assert (E1 : mesh_points (K := hex_kind FOps) pts mesh_new = RRet m1 tt).
  { unfold mesh_points, mbind, mmod, mlift. cbn [kdim hex_kind seq omap]. rewrite Ex. cbn [obind]. rewrite Ey. cbn [obind]. rewrite Ez. cbn [obind map].
    change (kpoint (hex_kind FOps)) with (c3 FOps). change [ax_min ax; ax_min ay; ax_min az] with (mins A). 
    change [ax_incr ax; ax_incr ay; ax_incr az] with (incrs A). change [ax_N ax; ax_N ay; ax_N az] with (counts A).
    match type of Eb with ?x = _ => match goal with |- match match ?y with _ => _ end with _ => _ end = _ => change y with x end end. rewrite Eb. reflexivity. }
  destruct (cells_loop_ok3 pts Fp Sm cells Hrect 0 m1 eq_refl) as (its & El & Bl).
  set (m2 := @mkMesh FOps (hex_kind FOps) (Some [ax_lo ax; ax_lo ay; ax_lo az]) (Some [ax_hi ax; ax_hi ay; ax_hi az]) pts its b).
  destruct (fill_bins FOps (hex_kind FOps) _ _ _ _ its m2 Ib) as (b' & E2 & Ib' & Vb).
  { apply Forall_forall. intros it Hit. destruct (built_block3 _ _ _ _ _ Bl Hit) as (_ & cell & lo & h & _ & Hc & Hits).
    assert (Hin : In it (filter (fun j => it_elem j =? it_elem it) its)) by (apply filter_In; split; [exact Hit|lia]).
    destruct (Forall2_in_r _ _ _ _ _ _ Hits Hin) as (k & _ & Hk).
    pose proof (box_sides pts cell lo h Sm Hc) as Hs.
    destruct (corner_bins3 _ _ _ _ _ _ _ _ HA Hs Hk) as ((G1 & G2) & (G3 & G4)).
    split; [exact G1|]. split; [exact G3|].
    refine (eq_ind_r (fun v => Forall2 Z.le v _) _ G2). refine (eq_ind_r (fun v => Forall2 Z.le _ v) _ G4).
    destruct Hs as (Hsx & Hsy & Hsz).
    destruct (pole_box _ _ _ (pole_x k) Hsx) as (_ & _ & P3). destruct (pole_box _ _ _ (pole_y k) Hsy) as (_ & _ & Q3). destruct (pole_box _ _ _ (pole_z k) Hsz) as (_ & _ & R3).
    unfold nums. cbn [axx axy axz A]. repeat constructor; eapply cellnum_le; eauto. }
  exists A, m1, (@mkMesh FOps (hex_kind FOps) (Some [ax_lo ax; ax_lo ay; ax_lo az]) (Some [ax_hi ax; ax_hi ay; ax_hi az]) pts its b').
  split; [exact E1|]. split.
  { unfold mesh_cells, mbind, mget. rewrite El. exact E2. }
  constructor; auto. intros t Ht. destruct (Vb t Ht) as (l & Hl1 & Hl2). cbn [me_bin m2] in Hl1. rewrite Nb in Hl1 by exact Ht.
  injection Hl1 as <-. exact Hl2.
Qed.
