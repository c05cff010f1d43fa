(** Reading a mesh of rectangles in binary64: C58. *)
From Coq Require Import ZArith List Bool Lia ZifyBool Reals Lra Psatz.
From Coq Require Import Floats.SpecFloat.
From Flocq Require Import Core BinarySingleNaN.
From Verif Require Import Model.Outcome Model.Num Model.NumInst Model.PNDArray Model.Bin Model.Interpolator Model.Quad Model.Mesh Model.PField.
From Verif Require Import Spec.Tensor Spec.NDHistory Spec.Grid Spec.Shape Spec.Fields Spec.Rounding.
From Verif Require Import Proofs.OutcomeP Proofs.PNDArrayP Proofs.BinP Proofs.BinLaterP Proofs.MeshReadP Proofs.MeshRP Proofs.BinFloatP Proofs.RoundP
  Proofs.FloatShapeP Proofs.FloatAxisP Proofs.AxisP.
Import ListNotations.
Local Open Scope Z_scope.

(** ** Binning, in any arithmetic *)

Fixpoint index_of {O : NumOps} (mn inc c : list (num O)) : list Z :=
  match mn, inc, c with
  | a :: mn', h :: inc', x :: c' =>
      match nfloor O (ndiv O (nsub O x a) h) with Some k => k | None => 0 end :: index_of mn' inc' c'
  | _, _, _ => []
  end.

Lemma index_of_is : forall (O : NumOps) (mn inc c : list (num O)) t, has_index mn inc c t -> index_of mn inc c = t.
Proof. intros O mn inc c t H. induction H as [|a h x k mn inc c t [H _] Hs IH]; simpl; [reflexivity|]. rewrite H, IH. reflexivity. Qed.

(** The coordinate is accepted and gets an index of the grid. *)
Definition binned {O : NumOps} (mn inc mx : list (num O)) (N : list Z) (c : list (num O)) : Prop :=
  accepted mn mx c /\ has_index mn inc c (index_of mn inc c) /\ valid_index N (index_of mn inc c).

Definition covers {O : NumOps} {K : kind O} (mn inc : list (num O)) (t : list Z) (it : interp O (kpoint K)) : bool :=
  boxb (index_of mn inc (kcoords K (it_min it))) (index_of mn inc (kcoords K (it_max it))) t.

Lemma fill_bins : forall (O : NumOps) (K : kind O) mn inc mx N (its : list (interp O (kpoint K))) (m : mesh O K),
  bin_inv mn inc mx N (me_bin m) ->
  Forall (fun it => binned mn inc mx N (kcoords K (it_min it)) /\ binned mn inc mx N (kcoords K (it_max it)) /\
     Forall2 Z.le (index_of mn inc (kcoords K (it_min it))) (index_of mn inc (kcoords K (it_max it)))) its ->
  exists b, mfor its (fun it => on_bin (bin_add_range it (kcoords K (it_min it)) (kcoords K (it_max it)))) m =
      RRet (mkMesh (me_min m) (me_max m) (me_node m) (me_interp m) b) tt /\ bin_inv mn inc mx N b /\
    forall t, valid_index N t -> exists l, nd_at (bin_item (me_bin m)) t = Ok l /\ nd_at (bin_item b) t = Ok (l ++ filter (covers mn inc t) its).
Proof.
  intros O K mn inc mx N its. induction its as [|it its IH]; intros m Hi Hf.
  - exists (me_bin m). split; [destruct m; reflexivity|]. split; [exact Hi|]. intros t Ht.
    destruct (nd_at_inv_ok _ _ _ _ _ _ Hi Ht) as (l & Hl). exists l. simpl. rewrite app_nil_r. auto.
  - inversion Hf as [|? ? ((A1 & I1 & V1) & (A2 & I2 & V2) & L) Hf']; subst.
    destruct (add_range_ok _ _ _ _ _ it _ _ _ _ Hi A1 I1 V1 A2 I2 V2 L) as (b1 & E1 & Hi1 & Ap).
    destruct (IH (mkMesh (me_min m) (me_max m) (me_node m) (me_interp m) b1) Hi1 Hf') as (b & E & Hb & Hv).
    exists b. split.
    { cbn [mfor]. unfold mbind at 1. unfold on_bin at 1. rewrite E1. exact E. }
    split; [exact Hb|]. intros t Ht. destruct (Ap t Ht) as (l & Hl & Hy & Hn). exists l. split; [exact Hl|].
    destruct (Hv t Ht) as (l1 & Hl1 & Hl2). cbn [me_bin] in Hl1. cbn [filter]. unfold covers at 1.
    destruct (boxb _ _ _) eqn:E2.
    + apply boxb_iff in E2. rewrite (Hy E2) in Hl1. injection Hl1 as <-. rewrite Hl2, <- app_assoc. reflexivity.
    + rewrite Hn in Hl1; [injection Hl1 as <-; exact Hl2|]. intros F. apply boxb_iff in F. congruence.
Qed.

(** ** Corners and poles *)

Definition xpole (k : Z) : pole := match k with 1 => High | 2 => High | _ => Low end.
Definition ypole (k : Z) : pole := match k with 2 => High | 3 => High | _ => Low end.

Lemma corner_poles : forall lo h k,
  corner2 lo h k = (pole_at (xpole k) (fst lo) (fst lo + fst h)%R, pole_at (ypole k) (snd lo) (snd lo + snd h)%R).
Proof.
  intros lo h k. unfold corner2, unit2, xpole, ypole. cbn [fst snd].
  destruct k as [|[p|[p|p|]|]|p]; cbn [pole_at]; try (f_equal; ring); destruct p; cbn [pole_at]; f_equal; ring.
Qed.

Lemma sign_poles : forall k, In k corners2 -> quad_sign FOps k = (pole_sign (xpole k), pole_sign (ypole k)).
Proof. intros k Hk. simpl in Hk. destruct Hk as [<-|[<-|[<-|[<-|[]]]]]; reflexivity. Qed.

(** The interpolator made for corner [k] of the cell, an exact rectangle at [lo] with edges [h]. *)
Definition corner_it (i : Z) (cell : list Z) (lo h : point2) (k : Z) (it : interp FOps (c2 FOps)) : Prop :=
  In k corners2 /\ exists n (p w : c2 FOps), vget cell k = Ok n /\ finite_point p /\ point_value p = corner2 lo h k /\
    finite_point w /\ point_value w = (rne (fst h), rne (snd h)) /\ it = quad_values FOps n i p w k.

Definition cell_its (i : Z) (cell : list Z) (lo h : point2) (its : list (interp FOps (c2 FOps))) : Prop :=
  Forall2 (corner_it i cell lo h) corners2 its.

Lemma vget_map : forall (A B : Type) (f : A -> B) l i b, vget (map f l) i = Ok b -> exists a, vget l i = Ok a /\ f a = b.
Proof.
  intros A B f l i b H. apply vget_some in H. destruct H as [H0 H]. rewrite nth_error_map in H.
  destruct (nth_error l (Z.to_nat i)) as [a|] eqn:E; [|discriminate]. injection H as <-. exists a. split; [|reflexivity].
  apply vget_some. auto.
Qed.

Section Cells.
Variable pts : list (c2 FOps).
Hypothesis Fin : Forall finite_point pts.
Hypothesis Small : Forall (fun p => (Rabs (fst (point_value p)) <= bpow radix2 900)%R /\ (Rabs (snd (point_value p)) <= bpow radix2 900)%R) pts.
Local Notation P := (map point_value pts).

Lemma node_finite : forall n p, vget pts n = Ok p -> finite_point p.
Proof. intros n p H. rewrite Forall_forall in Fin. apply Fin. eapply vget_in; eauto. Qed.

Lemma diff_small : forall x y : R, (Rabs x <= bpow radix2 900 -> Rabs y <= bpow radix2 900 -> Rabs (x - y) <= bpow radix2 910)%R.
Proof. intros x y Hx Hy. pose proof top900. pose proof pos900. rabs Hx. rabs Hy. apply Rabs_le. lra. Qed.

Lemma cell_interp_ok : forall i cell lo h, cell_rect P cell lo h ->
  exists its, cell_interp (K := quad_kind FOps) pts i cell = Ok its /\ cell_its i cell lo h its.
Proof.
  intros i cell lo h [_ Hc].
  assert (Hn : forall k, In k corners2 -> exists n p, vget cell k = Ok n /\ vget pts n = Ok p /\ point_value p = corner2 lo h k).
  { intros k Hk. destruct (Hc k Hk) as (n & E & E2). apply vget_map in E2. destruct E2 as (p & E2 & E3). eauto 10. }
  destruct (Hn 0) as (n0 & p0 & A0 & B0 & C0); [simpl; auto|]. destruct (Hn 1) as (n1 & p1 & A1 & B1 & C1); [simpl; auto|].
  destruct (Hn 2) as (n2 & p2 & A2 & B2 & C2); [simpl; auto|]. destruct (Hn 3) as (n3 & p3 & A3 & B3 & C3); [simpl; auto 6|].
  set (w := kdiff (quad_kind FOps) p2 p0).
  assert (Hw : finite_point w /\ point_value w = (rne (fst h), rne (snd h))).
  { destruct (node_finite _ _ B0) as [F0x F0y]. destruct (node_finite _ _ B2) as [F2x F2y].
    pose proof Small as Sm. rewrite Forall_forall in Sm. destruct (Sm _ (vget_in _ _ _ _ B0)) as [S0x S0y]. destruct (Sm _ (vget_in _ _ _ _ B2)) as [S2x S2y].
    destruct (sub64 (fst p2) (fst p0) 910 ltac:(lia) F2x F0x (diff_small _ _ S2x S0x)) as [Fx Ex].
    destruct (sub64 (snd p2) (snd p0) 910 ltac:(lia) F2y F0y (diff_small _ _ S2y S0y)) as [Fy Ey].
    assert (X0 : (B2R (fst p0 : f64) = fst lo)%R) by (rewrite corner_poles in C0; exact (f_equal fst C0)).
    assert (Y0 : (B2R (snd p0 : f64) = snd lo)%R) by (rewrite corner_poles in C0; exact (f_equal snd C0)).
    assert (X2 : (B2R (fst p2 : f64) = fst lo + fst h)%R) by (rewrite corner_poles in C2; exact (f_equal fst C2)).
    assert (Y2 : (B2R (snd p2 : f64) = snd lo + snd h)%R) by (rewrite corner_poles in C2; exact (f_equal snd C2)).
    split; [split; assumption|]. unfold point_value, value. cbn [fst snd w kdiff quad_kind]. f_equal.
    - etransitivity; [exact Ex|]. apply (f_equal (fun t : R => rne t)). change (B2R (fst p2 : f64) - B2R (fst p0 : f64) = fst h)%R. rewrite X0, X2. unfold point2, c2 in lo, h. change (num ROps) with R in *. ring.
    - etransitivity; [exact Ey|]. apply (f_equal (fun t : R => rne t)). change (B2R (snd p2 : f64) - B2R (snd p0 : f64) = snd h)%R. rewrite Y0, Y2. unfold point2, c2 in lo, h. change (num ROps) with R in *. ring. }
  destruct Hw as [Fw Ew].
  exists [quad_values FOps n0 i p0 w 0; quad_values FOps n1 i p1 w 1; quad_values FOps n2 i p2 w 2; quad_values FOps n3 i p3 w 3].
  split.
  - unfold cell_interp. cbn [kfar kcorners quad_kind seq omap]. change (Z.of_nat 0) with 0. change (Z.of_nat 1) with 1.
    change (Z.of_nat 2) with 2. change (Z.of_nat 3) with 3. change (kpoint (quad_kind FOps)) with (c2 FOps).
    rewrite A2. cbn [obind]. rewrite B2. cbn [obind]. rewrite A0. cbn [obind]. rewrite B0. cbn [obind].
    rewrite A1. cbn [obind]. rewrite B1. cbn [obind]. rewrite A3. cbn [obind]. rewrite B3. reflexivity.
  - unfold cell_its, corners2. repeat constructor; try (simpl; tauto);
      [exists n0, p0, w|exists n1, p1, w|exists n2, p2, w|exists n3, p3, w]; (split; [assumption|]; split; [eapply node_finite; eauto|]; auto).
Qed.

Inductive cells_built : Z -> list (list Z) -> list (interp FOps (c2 FOps)) -> Prop :=
| CellsNil : forall i, cells_built i [] []
| CellsCons : forall i cell cells lo h its rest, cell_rect P cell lo h -> cell_its i cell lo h its -> cells_built (i + 1) cells rest ->
    cells_built i (cell :: cells) (its ++ rest).

Lemma cells_loop_ok : forall cells, Forall (fun cell => exists lo h, cell_rect P cell lo h) cells ->
  forall i (m : mesh FOps (quad_kind FOps)), me_node m = pts ->
  exists its, cells_loop i cells m = RRet (mkMesh (me_min m) (me_max m) (me_node m) (me_interp m ++ its) (me_bin m)) tt /\
    cells_built i cells its.
Proof.
  intros cells H. induction H as [|cell cells (lo & h & Hc) H IH]; intros i m Hm.
  - exists []. rewrite app_nil_r. split; [destruct m; reflexivity|constructor].
  - destruct (cell_interp_ok i cell lo h Hc) as (its & E & B).
    destruct (IH (i + 1) (mkMesh (me_min m) (me_max m) (me_node m) (me_interp m ++ its) (me_bin m)) Hm) as (rest & R & BR).
    exists (its ++ rest). split; [|econstructor; eauto].
    cbn [cells_loop]. unfold mbind, mget, mlift, mput. rewrite Hm, E. rewrite <- Hm. rewrite R. simpl. rewrite app_assoc. reflexivity.
Qed.

Lemma corner_elem : forall i cell lo h k it, corner_it i cell lo h k it -> it_elem it = i.
Proof. intros i cell lo h k it (_ & n & p & w & _ & _ & _ & _ & _ & ->). reflexivity. Qed.

Lemma its_elem : forall i cell lo h its it, cell_its i cell lo h its -> In it its -> it_elem it = i.
Proof.
  intros i cell lo h its it B Hit. destruct (Forall2_in_r _ _ _ _ _ _ B Hit) as (k & _ & H). eapply corner_elem; eauto.
Qed.

(** Every interpolator belongs to the block of its element. *)
Lemma built_block : forall i cells its it, cells_built i cells its -> In it its -> i <= it_elem it /\
  exists cell lo h, In cell cells /\ cell_rect P cell lo h /\ cell_its (it_elem it) cell lo h (filter (fun j => it_elem j =? it_elem it) its).
Proof.
  intros i cells its it H. revert it. induction H as [i|i cell cells lo h blk rest Hc B H IH]; intros it Hit; [destruct Hit|].
  apply in_app_or in Hit. rewrite filter_app. destruct Hit as [Hit|Hit].
  - pose proof (its_elem _ _ _ _ _ _ B Hit) as E. split; [lia|]. exists cell, lo, h. split; [simpl; auto|]. split; [exact Hc|].
    rewrite filter_all, filter_none, app_nil_r; [rewrite E; exact B| |].
    + intros j Hj. destruct (IH j Hj) as [L _]. lia.
    + intros j Hj. rewrite (its_elem _ _ _ _ _ _ B Hj). lia.
  - destruct (IH it Hit) as (L & c & lo' & h' & I1 & I2 & I3). split; [lia|]. exists c, lo', h'. split; [simpl; auto|]. split; [exact I2|].
    rewrite filter_none; [exact I3|]. intros j Hj. rewrite (its_elem _ _ _ _ _ _ B Hj). lia.
Qed.

(** All four corners of every cell are there. *)
Lemma built_cell_its : forall i cells its cell, cells_built i cells its -> In cell cells ->
  exists e lo h blk, cell_rect P cell lo h /\ cell_its e cell lo h blk /\ (forall it, In it blk -> In it its).
Proof.
  intros i cells its cell H. induction H as [i|i c cells lo h blk rest Hc B H IH]; intros Hin; [destruct Hin|].
  destruct Hin as [->|Hin].
  - exists i, lo, h, blk. split; [exact Hc|]. split; [exact B|]. intros it Hit. apply in_or_app. auto.
  - destruct (IH Hin) as (e & lo' & h' & blk' & I1 & I2 & I3). exists e, lo', h', blk'. split; [exact I1|]. split; [exact I2|].
    intros it Hit. apply in_or_app. auto.
Qed.

End Cells.

(** ** Axes *)

Definition sound_axis (l : list R) (ax : axis FOps) : Prop :=
  exists g, 0 < distinct l /\ distinct l + 2 <= int_max /\ fin (ax_lo ax) /\ fin (ax_hi ax) /\
    (IZR (distinct l) * g = B2R (ax_hi ax : f64) - B2R (ax_lo ax : f64) /\ bpow radix2 (-900) <= g /\
     Rabs (B2R (ax_lo ax : f64)) <= bpow radix2 46 * g /\ Rabs (B2R (ax_hi ax : f64)) <= bpow radix2 46 * g /\
     Rabs (B2R (ax_lo ax : f64)) <= bpow radix2 900 /\ Rabs (B2R (ax_hi ax : f64)) <= bpow radix2 900)%R /\
    least (B2R (ax_lo ax : f64)) l /\ greatest (B2R (ax_hi ax : f64)) l /\ ax_N ax = distinct l + 2 /\
    ax_incr ax = ndiv FOps (nsub FOps (ax_hi ax) (ax_lo ax)) (nmul FOps (nofZ FOps 1) (nofZ FOps (distinct l))) /\
    ax_min ax = nsub FOps (ax_lo ax) (ax_incr ax).

Definition cellnum (ax : axis FOps) (x : R) : Z := Zfloor (rne (rne (x - B2R (ax_min ax : f64)) / B2R (ax_incr ax : f64))).

(** Between two coordinates, or next to them. *)
Definition near_axis (l : list R) (x : R) : Prop :=
  exists p q, In p l /\ In q l /\ (p <= q)%R /\ (p - 4 * u * (q - p) <= x <= q + 4 * u * (q - p))%R.

Definition ax_top (ax : axis FOps) : num FOps := nadd FOps (ax_min ax) (nmul FOps (ax_incr ax) (nofZ FOps (ax_N ax))).

Lemma sound_incr : forall l ax, sound_axis l ax -> (0 < B2R (ax_incr ax : f64))%R.
Proof.
  intros l ax (g & Hn & Hn2 & Fa & Fz & (Eg & Hg & Ha & Hz & La & Lz) & _ & _ & _ & Ei & _).
  destruct (incr64 (ax_lo ax) (ax_hi ax) (distinct l) Fa Fz Hn Hn2 g Eg Hg La Lz) as [_ B]. rewrite Ei.
  pose proof (g_pos g Hg) as G. pose proof u_small. pose proof u_pos. rabs B. nra.
Qed.

Lemma sound_index : forall l ax, sound_axis l ax -> forall x : f64, fin x -> near_axis l (B2R x) ->
  nltb FOps x (ax_min ax) = false /\ nltb FOps (ax_top ax) x = false /\
  nfloor FOps (ndiv FOps (nsub FOps x (ax_min ax)) (ax_incr ax)) = Some (cellnum ax (B2R x)) /\ 0 <= cellnum ax (B2R x) < ax_N ax.
Proof.
  intros l ax (g & Hn & Hn2 & Fa & Fz & (Eg & Hg & Ha & Hz & La & Lz) & [_ Lo] & [_ Hi] & EN & Ei & Em) x Fx (p & q & Hp & Hq & Hpq & Hx).
  unfold ax_top, cellnum. rewrite Em, Ei, EN.
  apply (index64 (ax_lo ax) (ax_hi ax) (distinct l) Fa Fz Hn Hn2 g Eg Hg Ha Hz La Lz x Fx).
  pose proof (g_pos g Hg) as G. pose proof u_pos as U0.
  destruct (N_bounds (ax_lo ax) (ax_hi ax) (distinct l) Fa Fz Hn Hn2) as [N1 N2].
  specialize (Lo p Hp). specialize (Hi q Hq).
  assert (A : (4 * u * (q - p) <= 4 * u * (IZR (distinct l) * g))%R) by (apply Rmult_le_compat_l; lra).
  assert (B : (u * ((IZR (distinct l) + 2) * g) <= / 1000000 * g)%R) by (rewrite <- Rmult_assoc; apply Rmult_le_compat_r; lra).
  assert (C : (u * (IZR (distinct l) * g) <= / 1000000 * g)%R) by nra.
  lra.
Qed.

Lemma cellnum_le : forall l ax, sound_axis l ax -> forall x y, (x <= y)%R -> cellnum ax x <= cellnum ax y.
Proof.
  intros l ax Ha x y H. pose proof (sound_incr _ _ Ha) as P. unfold cellnum. apply Zfloor_le, rne_le.
  unfold Rdiv. apply Rmult_le_compat_r; [left; apply Rinv_0_lt_compat; exact P|]. apply rne_le. lra.
Qed.

Lemma least_fun : forall a b l, least a l -> least b l -> a = b.
Proof. intros a b l [A1 A2] [B1 B2]. apply Rle_antisym; auto. Qed.
Lemma greatest_fun : forall a b l, greatest a l -> greatest b l -> a = b.
Proof. intros a b l [A1 A2] [B1 B2]. apply Rle_antisym; auto. Qed.

Lemma axis_sound : forall vs : list f64, Forall (fun x => fin x) vs -> vs <> [] -> resolved (map (fun x : f64 => B2R x) vs) ->
  distinct (map (fun x : f64 => B2R x) vs) + 2 <= int_max ->
  exists ax, axis_grid (O:=FOps) vs = Ok ax /\ sound_axis (map (fun x : f64 => B2R x) vs) ax.
Proof.
  intros vs Fv Hne (a0 & z0 & La & Lz & Hg & Hx) Hmax.
  destruct (axis_grid64 vs Fv Hne Hmax) as (a & z & Ia & Iz & Ha & Hz & E).
  pose proof (least_fun _ _ _ La Ha) as ->. pose proof (greatest_fun _ _ _ Lz Hz) as ->.
  eexists. split; [exact E|]. rewrite Forall_forall in Fv.
  assert (P : 0 < distinct (map (fun x : f64 => B2R x) vs)) by (eapply distinct_pos; apply La).
  assert (P' : (0 < IZR (distinct (map (fun x : f64 => B2R x) vs)))%R) by (apply IZR_lt; exact P).
  exists ((B2R z - B2R a) / IZR (distinct (map (fun x : f64 => B2R x) vs)))%R. cbn [ax_lo ax_hi ax_N ax_incr ax_min].
  split; [exact P|]. split; [exact Hmax|]. split; [auto|]. split; [auto|].
  split; [|auto 6].
  destruct (Hx _ (proj1 La)) as [A1 A2]. destruct (Hx _ (proj1 Lz)) as [B1 B2].
  repeat split; auto. field. lra.
Qed.

(** ** The mesh *)

Record meshed64 (pts : list (c2 FOps)) (cells : list (list Z)) (ax ay : axis FOps) (m : mesh FOps (quad_kind FOps)) : Prop := mkMeshed64 {
  m64_x : sound_axis (map fst (map point_value pts)) ax;
  m64_y : sound_axis (map snd (map point_value pts)) ay;
  m64_small : Forall (fun p => (Rabs (fst (point_value p)) <= bpow radix2 900)%R /\ (Rabs (snd (point_value p)) <= bpow radix2 900)%R) pts;
  m64_node : me_node m = pts;
  m64_built : cells_built pts 0 cells (me_interp m);
  m64_inv : bin_inv [ax_min ax; ax_min ay] [ax_incr ax; ax_incr ay] [ax_top ax; ax_top ay] [ax_N ax; ax_N ay] (me_bin m);
  m64_view : forall t, valid_index [ax_N ax; ax_N ay] t -> nd_at (bin_item (me_bin m)) t =
    Ok (filter (covers (K := quad_kind FOps) [ax_min ax; ax_min ay] [ax_incr ax; ax_incr ay] t) (me_interp m))
}.

Lemma columns_x : forall pts : list (c2 FOps), map (fun x : f64 => B2R x) (column (K := quad_kind FOps) pts 0) = map fst (map point_value pts).
Proof. intros pts. unfold column. rewrite !map_map. reflexivity. Qed.
Lemma columns_y : forall pts : list (c2 FOps), map (fun x : f64 => B2R x) (column (K := quad_kind FOps) pts 1) = map snd (map point_value pts).
Proof. intros pts. unfold column. rewrite !map_map. reflexivity. Qed.

Lemma binned64 : forall lx ly ax ay (x y : f64), sound_axis lx ax -> sound_axis ly ay -> fin x -> fin y ->
  near_axis lx (B2R x) -> near_axis ly (B2R y) ->
  binned (O := FOps) [ax_min ax; ax_min ay] [ax_incr ax; ax_incr ay] [ax_top ax; ax_top ay] [ax_N ax; ax_N ay] [x; y] /\
  index_of (O := FOps) [ax_min ax; ax_min ay] [ax_incr ax; ax_incr ay] [x; y] = [cellnum ax (B2R x); cellnum ay (B2R y)].
Proof.
  intros lx ly ax ay x y Hx Hy Fx Fy Nx Ny.
  destruct (sound_index _ _ Hx x Fx Nx) as (A1 & A2 & A3 & A4). destruct (sound_index _ _ Hy y Fy Ny) as (B1 & B2 & B3 & B4).
  assert (Lx : ax_N ax <= int_max) by (destruct Hx as (g & _ & H & _ & _ & _ & _ & _ & E & _); rewrite E; exact H).
  assert (Ly : ax_N ay <= int_max) by (destruct Hy as (g & _ & H & _ & _ & _ & _ & _ & E & _); rewrite E; exact H).
  unfold int_max in *.
  assert (H : has_index (O := FOps) [ax_min ax; ax_min ay] [ax_incr ax; ax_incr ay] [x; y] [cellnum ax (B2R x); cellnum ay (B2R y)]).
  { repeat constructor; auto; unfold in_int, INT_MIN, INT_MAX; lia. }
  pose proof (index_of_is _ _ _ _ _ H) as E. split; [|exact E]. unfold binned. rewrite E. split; [|split; [exact H|]].
  - repeat constructor; auto.
  - repeat constructor; lia.
Qed.


(** ** Rectangles *)

Definition side (l : list R) (lo hi : R) : Prop :=
  (fmt lo /\ fmt hi /\ lo < hi /\ Rabs lo <= bpow radix2 900 /\ Rabs hi <= bpow radix2 900)%R /\ In lo l /\ In hi l.

Definition small_points (pts : list (c2 FOps)) : Prop :=
  Forall (fun p => (Rabs (fst (point_value p)) <= bpow radix2 900)%R /\ (Rabs (snd (point_value p)) <= bpow radix2 900)%R) pts.

Lemma rect_sides : forall pts cell lo h, small_points pts -> cell_rect (map point_value pts) cell lo h ->
  side (map fst (map point_value pts)) (fst lo) (fst lo + fst h)%R /\ side (map snd (map point_value pts)) (snd lo) (snd lo + snd h)%R.
Proof.
  intros pts cell lo h Sm [[Px Py] Hc].
  destruct (Hc 0) as (n0 & _ & E0); [simpl; auto|]. destruct (Hc 2) as (n2 & _ & E2); [simpl; auto|].
  apply vget_in in E0. apply vget_in in E2. rewrite corner_poles in E0, E2. cbn [xpole ypole pole_at] in E0, E2.
  pose proof (in_map fst _ _ E0) as X0. pose proof (in_map snd _ _ E0) as Y0. pose proof (in_map fst _ _ E2) as X2. pose proof (in_map snd _ _ E2) as Y2.
  cbn [fst snd] in X0, Y0, X2, Y2.
  apply in_map_iff in E0. destruct E0 as (p0 & V0 & I0). apply in_map_iff in E2. destruct E2 as (p2 & V2 & I2).
  unfold small_points in Sm. rewrite Forall_forall in Sm. pose proof (Sm p0 I0) as [S0x S0y]. pose proof (Sm p2 I2) as [S2x S2y].
  rewrite V0 in S0x, S0y. rewrite V2 in S2x, S2y. cbn [fst snd] in S0x, S0y, S2x, S2y.
  assert (F0x : fmt (fst lo)) by (replace (fst lo) with (B2R (fst p0 : f64)) by exact (f_equal fst V0); apply f64_fmt).
  assert (F0y : fmt (snd lo)) by (replace (snd lo) with (B2R (snd p0 : f64)) by exact (f_equal snd V0); apply f64_fmt).
  assert (F2x : fmt (fst lo + fst h)%R) by (replace (fst lo + fst h)%R with (B2R (fst p2 : f64)) by exact (f_equal fst V2); apply f64_fmt).
  assert (F2y : fmt (snd lo + snd h)%R) by (replace (snd lo + snd h)%R with (B2R (snd p2 : f64)) by exact (f_equal snd V2); apply f64_fmt).
  split; (split; [|split; assumption]); repeat split; try assumption; lra.
Qed.

Lemma bpow_900_1000 : forall x : R, (Rabs x <= bpow radix2 900 -> Rabs x <= bpow radix2 1000)%R.
Proof. intros x H. eapply Rle_trans; [exact H|]. apply bpow_le. lia. Qed.

Lemma side_len : forall a d : R, d = (a + d - a)%R.
Proof. intros. ring. Qed.

(** The box of a corner. *)
Lemma corner_box : forall lx ly i cell lo h k it, side lx (fst lo) (fst lo + fst h)%R -> side ly (snd lo) (snd lo + snd h)%R ->
  corner_it i cell lo h k it ->
  (fin (fst (it_min it)) /\ B2R (fst (it_min it) : f64) = pole_lo (xpole k) (fst lo) (fst lo + fst h)%R) /\
  (fin (snd (it_min it)) /\ B2R (snd (it_min it) : f64) = pole_lo (ypole k) (snd lo) (snd lo + snd h)%R) /\
  (fin (fst (it_max it)) /\ B2R (fst (it_max it) : f64) = pole_hi (xpole k) (fst lo) (fst lo + fst h)%R) /\
  (fin (snd (it_max it)) /\ B2R (snd (it_max it) : f64) = pole_hi (ypole k) (snd lo) (snd lo + snd h)%R).
Proof.
  intros lx ly i cell lo h k it ((_ & _ & _ & Xa & Xb) & _) ((_ & _ & _ & Ya & Yb) & _) (Hk & n & p & w & _ & [Fpx Fpy] & Vp & [Fwx Fwy] & Vw & ->).
  apply bpow_900_1000 in Xa. apply bpow_900_1000 in Xb. apply bpow_900_1000 in Ya. apply bpow_900_1000 in Yb.
  unfold quad_values. rewrite (sign_poles k Hk). cbn [it_min it_max]. unfold quad_min, quad_max. cbn [fst snd].
  rewrite corner_poles in Vp.
  assert (Vx : B2R (fst p : f64) = pole_at (xpole k) (fst lo) (fst lo + fst h)%R) by exact (f_equal fst Vp).
  assert (Vy : B2R (snd p : f64) = pole_at (ypole k) (snd lo) (snd lo + snd h)%R) by exact (f_equal snd Vp).
  assert (Wx : B2R (fst w : f64) = rne (fst lo + fst h - fst lo)).
  { etransitivity; [exact (f_equal fst Vw)|]. exact (f_equal (fun t : R => rne t) (side_len (fst lo) (fst h))). }
  assert (Wy : B2R (snd w : f64) = rne (snd lo + snd h - snd lo)).
  { etransitivity; [exact (f_equal snd Vw)|]. exact (f_equal (fun t : R => rne t) (side_len (snd lo) (snd h))). }
  split; [exact (box_lo64 _ _ Xa Xb (fst p) (fst w) (fst p) (xpole k) Fpx Vx Fwx Wx Fpx)|].
  split; [exact (box_lo64 _ _ Ya Yb (snd p) (snd w) (snd p) (ypole k) Fpy Vy Fwy Wy Fpy)|].
  split; [exact (box_hi64 _ _ Xa Xb (fst p) (fst w) (fst p) (xpole k) Fpx Vx Fwx Wx Fpx)|].
  exact (box_hi64 _ _ Ya Yb (snd p) (snd w) (snd p) (ypole k) Fpy Vy Fwy Wy Fpy).
Qed.

Lemma pole_box : forall l lo hi p, side l lo hi ->
  near_axis l (pole_lo p lo hi) /\ near_axis l (pole_hi p lo hi) /\ (pole_lo p lo hi <= pole_hi p lo hi)%R.
Proof.
  intros l lo hi p ((F1 & F2 & L & _) & I1 & I2). pose proof u_pos as U. assert (D : (0 <= u * (hi - lo))%R) by nra.
  destruct p; cbn [pole_lo pole_hi].
  - pose proof (top_close lo hi F1 F2 L) as T. rabs T. split; [|split].
    + exists lo, hi. repeat split; auto; lra.
    + exists lo, hi. pose proof (top_above lo hi F1 F2 L). repeat split; auto; lra.
    + apply top_above; auto.
  - pose proof (bottom_close lo hi F1 F2 L) as T. rabs T. split; [|split].
    + exists lo, hi. pose proof (bottom_below lo hi F1 F2 L). repeat split; auto; lra.
    + exists lo, hi. repeat split; auto; lra.
    + apply bottom_below; auto.
Qed.

Lemma mesh_reads64 : forall pts cells, Forall finite_point pts -> rect_mesh (map point_value pts) cells ->
  resolved (map fst (map point_value pts)) -> resolved (map snd (map point_value pts)) ->
  exists ax ay m1 m, mesh_points (K := quad_kind FOps) pts mesh_new = RRet m1 tt /\ mesh_cells cells m1 = RRet m tt /\ meshed64 pts cells ax ay m.
Proof.
  intros pts cells Fp (Hne & Hrect & Hz & Hn) Rx Ry.
  assert (Sm : small_points pts).
  { apply Forall_forall. intros p Hp. destruct Rx as (? & ? & _ & _ & _ & Bx). destruct Ry as (? & ? & _ & _ & _ & By).
    split; [apply Bx|apply By]; apply in_map, in_map; exact Hp. }
  assert (Dx : 0 < distinct (map fst (map point_value pts))) by (destruct Rx as (? & ? & L & _); eapply distinct_pos; apply L).
  assert (Dy : 0 < distinct (map snd (map point_value pts))) by (destruct Ry as (? & ? & L & _); eapply distinct_pos; apply L).
  assert (Pne : pts <> []) by (intros ->; destruct Rx as (? & ? & [L _] & _); destruct L).
  assert (Cx : Forall (fun x : f64 => fin x) (column (K := quad_kind FOps) pts 0)).
  { unfold column. apply Forall_map. eapply Forall_impl; [|exact Fp]. intros p [F _]. exact F. }
  assert (Cy : Forall (fun x : f64 => fin x) (column (K := quad_kind FOps) pts 1)).
  { unfold column. apply Forall_map. eapply Forall_impl; [|exact Fp]. intros p [_ F]. exact F. }
  destruct (axis_sound (column (K := quad_kind FOps) pts 0) Cx) as (ax & Ex & Sx).
  { destruct pts; [congruence|discriminate]. }
  { rewrite columns_x. exact Rx. }
  { rewrite columns_x. unfold int_max in *. nia. }
  destruct (axis_sound (column (K := quad_kind FOps) pts 1) Cy) as (ay & Ey & Sy).
  { destruct pts; [congruence|discriminate]. }
  { rewrite columns_y. exact Ry. }
  { rewrite columns_y. unfold int_max in *. nia. }
  rewrite columns_x in Sx. rewrite columns_y in Sy.
  assert (ENx : ax_N ax = distinct (map fst (map point_value pts)) + 2) by (destruct Sx as (g & _ & _ & _ & _ & _ & _ & _ & E & _); exact E).
  assert (ENy : ax_N ay = distinct (map snd (map point_value pts)) + 2) by (destruct Sy as (g & _ & _ & _ & _ & _ & _ & _ & E & _); exact E).
  assert (HN : proper_shape [ax_N ax; ax_N ay]).
  { split; [discriminate|]. split; [repeat constructor; lia|]. unfold zprod. simpl. rewrite ENx, ENy. unfold int_max in *. lia. }
  destruct (bin_make_inv (T := interp FOps (c2 FOps)) [ax_min ax; ax_min ay] [ax_incr ax; ax_incr ay] [ax_top ax; ax_top ay] [ax_N ax; ax_N ay] HN eq_refl eq_refl eq_refl)
    as (b & Eb & Ib & Nb).
  set (m1 := @mkMesh FOps (quad_kind FOps) (Some [ax_lo ax; ax_lo ay]) (Some [ax_hi ax; ax_hi ay]) pts [] b).
  assert (E1 : mesh_points (K := quad_kind FOps) pts mesh_new = RRet m1 tt).
  { unfold mesh_points, mbind, mmod, mlift. cbn [kdim quad_kind seq omap]. rewrite Ex. cbn [obind]. rewrite Ey. cbn [obind map].
    change (kpoint (quad_kind FOps)) with (c2 FOps). rewrite Eb. reflexivity. }
  destruct (cells_loop_ok pts Fp Sm cells Hrect 0 m1 eq_refl) as (its & El & Bl).
  set (m2 := @mkMesh FOps (quad_kind FOps) (Some [ax_lo ax; ax_lo ay]) (Some [ax_hi ax; ax_hi ay]) pts its b).
  destruct (fill_bins FOps (quad_kind FOps) _ _ _ _ its m2 Ib) as (b' & E2 & Ib' & Vb).
  { apply Forall_forall. intros it Hit. destruct (built_block _ _ _ _ _ Bl Hit) as (_ & cell & lo & h & _ & Hc & Hits).
    assert (Hin : In it (filter (fun j => it_elem j =? it_elem it) its)) by (apply filter_In; split; [exact Hit|lia]).
    destruct (Forall2_in_r _ _ _ _ _ _ Hits Hin) as (k & _ & Hk).
    destruct (rect_sides pts cell lo h Sm Hc) as [Hsx Hsy].
    destruct (corner_box _ _ _ _ _ _ _ _ Hsx Hsy Hk) as ((A1 & A2) & (B1 & B2) & (C1 & C2) & (D1 & D2)).
    destruct (pole_box _ _ _ (xpole k) Hsx) as (P1 & P2 & P3). destruct (pole_box _ _ _ (ypole k) Hsy) as (Q1 & Q2 & Q3).
    pose proof (Rle_trans _ _ _ (Req_le _ _ A2) (Rle_trans _ _ _ P3 (Req_le _ _ (eq_sym C2)))) as P3'.
    pose proof (Rle_trans _ _ _ (Req_le _ _ B2) (Rle_trans _ _ _ Q3 (Req_le _ _ (eq_sym D2)))) as Q3'.
    pose proof (eq_ind_r (near_axis _) P1 A2) as P1'. pose proof (eq_ind_r (near_axis _) P2 C2) as P2'.
    pose proof (eq_ind_r (near_axis _) Q1 B2) as Q1'. pose proof (eq_ind_r (near_axis _) Q2 D2) as Q2'.
    destruct (binned64 _ _ _ _ (fst (it_min it)) (snd (it_min it)) Sx Sy A1 B1 P1' Q1') as [G1 G2].
    destruct (binned64 _ _ _ _ (fst (it_max it)) (snd (it_max it)) Sx Sy C1 D1 P2' Q2') as [G3 G4].
    cbn [kcoords quad_kind]. split; [exact G1|]. split; [exact G3|].
    refine (eq_ind_r (fun v => Forall2 Z.le v _) _ G2). refine (eq_ind_r (fun v => Forall2 Z.le _ v) _ G4).
    repeat constructor; eapply cellnum_le; eauto. }
  exists ax, ay, m1, (@mkMesh FOps (quad_kind FOps) (Some [ax_lo ax; ax_lo ay]) (Some [ax_hi ax; ax_hi ay]) pts its b').
  split; [exact E1|]. split.
  { unfold mesh_cells, mbind, mget. rewrite El. exact E2. }
  constructor; auto. intros t Ht. destruct (Vb t Ht) as (l & Hl1 & Hl2). cbn [me_bin m2] in Hl1. rewrite Nb in Hl1 by exact Ht.
  injection Hl1 as <-. exact Hl2.
Qed.
