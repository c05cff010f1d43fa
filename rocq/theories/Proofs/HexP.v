(** Fields on meshes of boxes: C22 and the 3D half of C25. *)
From Coquelicot Require Import Coquelicot.
From Coq Require Import ZArith List Bool Lia ZifyBool Reals Lra String.
From Verif Require Import Model.Outcome Model.Num Model.NumInst Model.PNDArray Model.Bin Model.PSimple Model.Interpolator
  Model.Quad Model.Hexahedron Model.Mesh Model.PField.
From Verif Require Import Spec.Tensor Spec.NDHistory Spec.Grid Spec.Funcs Spec.Shape Spec.Fields.
From Verif Require Import Proofs.OutcomeP Proofs.PNDArrayP Proofs.BinRP Proofs.ShapeP Proofs.FieldP Proofs.MeshReadP Proofs.AxisP Proofs.MeshRP Proofs.RectP.
From Flocq Require Import Core.
Import ListNotations.
Local Open Scope Z_scope.

(** ** Linear combinations and derivatives *)

Lemma partial3_plus : forall f g i r a b, partial3 f i r a -> partial3 g i r b -> partial3 (fun p => f p + g p)%R i r (a + b)%R.
Proof. intros f g i r a b Hf Hg. unfold partial3 in *. apply (is_derive_plus (K := R_AbsRing) (V := R_NormedModule)); auto. Qed.
Lemma partial3_scal : forall f i r a c, partial3 f i r a -> partial3 (fun p => f p * c)%R i r (a * c)%R.
Proof.
  intros f i r a c H. unfold partial3 in *.
  apply (is_derive_ext (fun t => c * f (upd3 r i t))%R); [intros; apply Rmult_comm|].
  rewrite Rmult_comm. apply (is_derive_scal (fun t => f (upd3 r i t))). exact H.
Qed.
Lemma partial3_const : forall i r c, partial3 (fun _ => c) i r 0%R.
Proof. intros i r c. unfold partial3. apply @is_derive_const. Qed.
Lemma partial3_ext : forall f g i r a, (forall p, f p = g p) -> partial3 f i r a -> partial3 g i r a.
Proof. intros f g i r a H Hf. unfold partial3 in *. eapply is_derive_ext; [|exact Hf]. intros; apply H. Qed.

Lemma second3_plus : forall f g i j r a b, second3 f i j r a -> second3 g i j r b -> second3 (fun p => f p + g p)%R i j r (a + b)%R.
Proof.
  intros f g i j r a b (D & H1 & H2) (E & H3 & H4). exists (fun p => D p + E p)%R. split.
  - intros p. apply partial3_plus; auto.
  - apply partial3_plus; auto.
Qed.
Lemma second3_scal : forall f i j r a c, second3 f i j r a -> second3 (fun p => f p * c)%R i j r (a * c)%R.
Proof.
  intros f i j r a c (D & H1 & H2). exists (fun p => D p * c)%R. split; [intros p|]; apply partial3_scal; auto.
Qed.
Lemma second3_const : forall i j r c, second3 (fun _ => c) i j r 0%R.
Proof. intros i j r c. exists (fun _ => 0%R). split; [intros p|]; apply partial3_const. Qed.
Lemma second3_ext : forall f g i j r a, (forall p, f p = g p) -> second3 f i j r a -> second3 g i j r a.
Proof. intros f g i j r a H (D & H1 & H2). exists D. split; auto. intros p. eapply partial3_ext; eauto. Qed.

Lemma quantity3_ext : forall f g q r a, (forall p, f p = g p) -> quantity3 f q r a -> quantity3 g q r a.
Proof.
  intros f g [|i|i j] r a H; simpl.
  - rewrite H; auto.
  - apply partial3_ext; auto.
  - apply second3_ext; auto.
Qed.

Lemma quantity3_unique : forall f q r v w, quantity3 f q r v -> quantity3 f q r w -> v = w.
Proof.
  intros f [|i|i j] r v w; simpl; [congruence|apply partial3_unique|apply second3_unique].
Qed.

Lemma quantity3_sum : forall (A : Type) (F : A -> point3 -> R) (g c : A -> R) q r l,
  (forall k, In k l -> quantity3 (F k) q r (g k)) ->
  quantity3 (fun p => rsum (fun k => F k p * c k)%R l) q r (rsum (fun k => g k * c k)%R l).
Proof.
  intros A F g c q r l. induction l as [|k l IH]; intros H; simpl.
  - destruct q; simpl; [auto|apply partial3_const|apply second3_const].
  - assert (H0 := H k (or_introl eq_refl)). assert (H1 : forall k, In k l -> quantity3 (F k) q r (g k)) by (intros; apply H; simpl; auto).
    specialize (IH H1). destruct q as [|i|i j]; simpl in *.
    + rewrite H0, IH. auto.
    + apply (partial3_plus (fun p => F k p * c k)%R); auto. apply partial3_scal; auto.
    + apply (second3_plus (fun p => F k p * c k)%R); auto. apply second3_scal; auto.
Qed.

(** ** Instances of the general facts *)

Definition hi3 (lo h : point3) : point3 := @mkC3 ROps (cx lo + cx h)%R (cy lo + cy h)%R (cz lo + cz h)%R.

Lemma positive_proper3 : forall h, positive3 h -> proper3 h.
Proof. intros h (H1 & H2 & H3). repeat split; lra. Qed.

Section Box.
Let K := hex_kind ROps.

Lemma x_dim : (0 < kdim K)%nat. Proof. simpl; lia. Qed.
Lemma x_coords : forall p : kpoint K, List.length (kcoords K p) = kdim K. Proof. reflexivity. Qed.
Lemma x_ks : @ks K = corners3. Proof. reflexivity. Qed.
Lemma x_far : In (kfar K) (@ks K) /\ In 0 (@ks K). Proof. rewrite x_ks. simpl. tauto. Qed.
Lemma x_ends : forall lo h : point3, corner3 lo h 0 = lo /\ corner3 lo h (kfar K) = hi3 lo h.
Proof. intros [a b c] [d e f]. unfold corner3, hi3; simpl. split; f_equal; ring. Qed.
Lemma x_diff : forall lo h : point3, kdiff K (corner3 lo h (kfar K)) (corner3 lo h 0) = h.
Proof. intros [a b c] [d e f]. unfold corner3; simpl. f_equal; ring. Qed.
Lemma x_box : forall nd el (lo h : point3) k, In k (@ks K) ->
  it_node (kvalues K nd el (corner3 lo h k) h k) = nd /\ it_elem (kvalues K nd el (corner3 lo h k) h k) = el /\
  it_min (kvalues K nd el (corner3 lo h k) h k) = lo /\ it_max (kvalues K nd el (corner3 lo h k) h k) = hi3 lo h.
Proof.
  intros nd el lo h k Hk. split; [reflexivity|]. split; [reflexivity|]. apply (hex_box nd el lo h k Hk).
Qed.
Lemma x_pos : forall lo h : point3, positive3 h -> Forall2 Rlt (kcoords K lo) (kcoords K (hi3 lo h)).
Proof. intros [a b c] [d e f] (H1 & H2 & H3). simpl in *. repeat constructor; lra. Qed.
Lemma x_indep : forall nd el (p h : point3) k,
  (forall q c, ask q c (kvalues K nd el p h k) = ask q c (kvalues K 0 0 p h k)) /\
  (forall c, it_range (kvalues K nd el p h k) c = it_range (kvalues K 0 0 p h k) c).
Proof. intros. split; intros; reflexivity. Qed.

Lemma between1_iff : forall a h x, (0 < h)%R -> between1 a h x <-> (a <= x <= a + h)%R.
Proof.
  intros a0 h0 x0 Hp. rewrite between1_ratio by lra. split.
  - intros [G1 G2]. apply (Rmult_le_compat_r h0) in G1; [|lra]. apply (Rmult_le_compat_r h0) in G2; [|lra].
    unfold Rdiv in G1, G2. rewrite Rmult_assoc, Rinv_l, Rmult_1_r in G1, G2 by lra. lra.
  - intros G. split; [apply Rdiv_le_0_compat; lra|]. apply Rmult_le_reg_r with h0; auto.
    unfold Rdiv. rewrite Rmult_assoc, Rinv_l by lra. lra.
Qed.

Lemma in_box_below : forall lo h r : point3, positive3 h -> in_box lo h r <->
  below (kcoords K lo) (kcoords K r) /\ below (kcoords K r) (kcoords K (hi3 lo h)).
Proof.
  intros [a b c] [d e f] [x y z] (H1 & H2 & H3). unfold in_box, below, hi3; simpl in *.
  rewrite !between1_iff by auto. split.
  - intros (G1 & G2 & G3). split; (constructor; [lra|constructor; [lra|constructor; [lra|constructor]]]).
  - intros [G1 G2]. inversion G1 as [|? ? ? ? I1 I2]; inversion I2 as [|? ? ? ? I3 I4]; inversion I4 as [|? ? ? ? I5 _]; subst.
    inversion G2 as [|? ? ? ? J1 J2]; inversion J2 as [|? ? ? ? J3 J4]; inversion J4 as [|? ? ? ? J5 _]; subst. lra.
Qed.

Definition box_meshed := meshed (K := K) corner3 positive3.

Lemma gcell_box : forall pts cell lo h, gcell (K := K) corner3 positive3 pts cell (lo, h) <-> cell_box pts cell lo h.
Proof. intros. unfold gcell, cell_box. rewrite x_ks. simpl. tauto. Qed.

Lemma cell_box_fun : forall pts cell lo h lo' h', cell_box pts cell lo h -> cell_box pts cell lo' h' -> lo = lo' /\ h = h'.
Proof.
  intros pts cell lo h lo' h' [_ H] [_ H'].
  assert (E : forall k, In k corners3 -> corner3 lo h k = corner3 lo' h' k).
  { intros k Hk. destruct (H k Hk) as (n & A & B). destruct (H' k Hk) as (n' & A' & B').
    assert (n' = n) by congruence. subst n'. pose proof (eq_trans (eq_sym B) B') as E.
    exact (f_equal (fun x => match x with Ok a => a | _ => corner3 lo h k end) E). }
  destruct (x_ends lo h) as [Q1 _]. destruct (x_ends lo' h') as [Q2 _].
  assert (E0 := E 0 (or_introl eq_refl)). assert (E2 : corner3 lo h 6 = corner3 lo' h' 6) by (apply E; simpl; tauto).
  split; [congruence|]. rewrite <- (x_diff lo h), <- (x_diff lo' h'). simpl kfar. rewrite E0, E2. reflexivity.
Qed.

Lemma box_elems : forall pts cells, Forall (fun cell => exists lo h, cell_box pts cell lo h) cells ->
  exists elems, Forall2 (gcell (K := K) corner3 positive3 pts) cells elems.
Proof.
  intros pts cells H. induction H as [|cell cells (lo & h & Hc) H (elems & IH)]; [exists []; constructor|].
  exists ((lo, h) :: elems). constructor; [apply gcell_box|]; auto.
Qed.

Lemma box_mesh_facts : forall pts cells, box_mesh pts cells -> pts <> [] /\
  (forall j, (j < kdim K)%nat -> 2 <= distinct (column (K := K) pts j)) /\ zprod (grid_shape (K := K) pts) <= int_max /\
  Z.of_nat (kcorners K) * Z.of_nat (List.length cells) <= int_max.
Proof.
  intros pts cells (Hne & Hc & Hz & Hn). destruct cells as [|cell cells]; [congruence|].
  inversion Hc as [|? ? (lo & h & Hp & Hcell) _]; subst.
  destruct (Hcell 0) as (n0 & _ & P0); [simpl; auto|]. destruct (Hcell 6) as (n2 & _ & P2); [simpl; tauto|].
  apply vget_in in P0. apply vget_in in P2. destruct Hp as (Hp1 & Hp2 & Hp3).
  split; [destruct pts; [destruct P0|congruence]|]. split.
  - intros j Hj. simpl in Hj.
    assert (Hcol : forall p : point3, In p pts -> In (nth j [cx p; cy p; cz p] 0%R) (column (K := K) pts j)).
    { intros p Hp. unfold column. apply in_map_iff. exists p. auto. }
    apply (distinct_two_of _ _ _ (Hcol _ P0) (Hcol _ P2)).
    destruct lo as [a b c], h as [d e f]; destruct j as [|[|[|]]]; simpl in *;
      [apply Rlt_not_eq; lra|apply Rlt_not_eq; lra|apply Rlt_not_eq; lra|lia].
  - split; [|exact Hn]. unfold grid_shape. simpl. rewrite !zprod_cons, zprod_nil. unfold column. simpl. rewrite Z.mul_1_r. exact Hz.
Qed.

(** The mesh of a well-formed file. *)
Lemma box_reads : forall pts cells, box_mesh pts cells -> exists m elems ax, mesh_of (K := K) pts cells m /\
  box_meshed pts cells elems ax m /\ (forall m', mesh_of (K := K) pts cells m' -> m' = m).
Proof.
  intros pts cells Hr. destruct (box_mesh_facts _ _ Hr) as (H1 & H2 & H3 & H4). destruct Hr as (_ & Hc & _).
  destruct (box_elems pts cells Hc) as (elems & He).
  destruct (mesh_reads (K := K) x_dim x_coords corner3 hi3 positive3 x_far x_diff x_box x_ends x_pos pts cells elems H1 H2 H3 He)
    as (ax & m1 & m & E1 & E2 & Hm).
  exists m, elems, ax. split; [exists m1; auto|]. split; [exact Hm|].
  intros m' (m1' & E1' & E2'). congruence.
Qed.

Lemma box_field_new : forall pts cells m data name, box_mesh pts cells -> mesh_of (K := K) pts cells m ->
  (List.length pts <= List.length data)%nat ->
  exists p0, pf_new (F := scalar_field ROps) name m data 0%R = Ok p0 /\ field_on m data 0%R p0.
Proof.
  intros pts cells m data name Hr Hm Hd. destruct (box_reads _ _ Hr) as (m0 & elems & ax & H1 & H2 & H3).
  rewrite (H3 _ Hm) in *. destruct (box_mesh_facts _ _ Hr) as (_ & _ & Hz & Hn).
  eapply (meshed_field (K := K) x_dim x_coords corner3 positive3); eauto.
  eapply mesh_of_read; eauto.
Qed.

(** The corner values of a cell. *)
Lemma cellv_data3 : forall pts cell lo h (data : list R), cell_box pts cell lo h -> (List.length pts <= List.length data)%nat ->
  cell_data data cell corners3 (cellv data cell).
Proof.
  intros pts cell lo h data [_ Hc] Hd k Hk. destruct (Hc k Hk) as (n & Hn & Pn). exists n. split; auto.
  assert (B : 0 <= n < Z.of_nat (List.length pts)) by (apply vget_ok_iff; eauto).
  destruct (proj2 (vget_ok_iff _ data n)) as (x & Hx); [lia|]. unfold cellv. rewrite Hn, Hx. auto.
Qed.

Lemma cell_data_fun3 : forall data cell v v', cell_data data cell corners3 v -> cell_data data cell corners3 v' ->
  forall k, In k corners3 -> v k = v' k.
Proof.
  intros data cell v v' H H' k Hk. destruct (H k Hk) as (n & E1 & E2). destruct (H' k Hk) as (n' & E1' & E2'). congruence.
Qed.

Lemma trilinear_ext : forall lo h v v' r, (forall k, In k corners3 -> v k = v' k) -> trilinear lo h v r = trilinear lo h v' r.
Proof.
  intros lo h v v' r H. unfold trilinear, bilinear. simpl.
  rewrite (H 0), (H 1), (H 2), (H 3), (H 4), (H 5), (H 6), (H 7) by (simpl; tauto). reflexivity.
Qed.

Definition shape3 (lo h : point3) (k : Z) : point3 -> R := it_val (hex_values ROps 0 0 (corner3 lo h k) h k).

Lemma trilinear_sum : forall lo h v r, proper3 h -> rsum (fun k => shape3 lo h k r * v k)%R corners3 = trilinear lo h v r.
Proof.
  intros lo h v r Hp. unfold shape3.
  rewrite (rsum_ext _ _ (fun k => side (fst (fst (unit3 k))) ((cx r - cx lo) / cx h) *
     side (snd (fst (unit3 k))) ((cy r - cy lo) / cy h) * side (snd (unit3 k)) ((cz r - cz lo) / cz h) * v k)%R).
  2:{ intros k Hk. rewrite shape3_form; auto. }
  unfold trilinear, bilinear. simpl. rewrite ?side0, ?side1. ring.
Qed.

Lemma kask3_quantity : forall q (r lo h : point3) k, proper3 h -> In k corners3 -> on_axes 3 q -> unmixed q ->
  quantity3 (shape3 lo h k) q r (kask (K := K) corner3 q r (lo, h) k).
Proof.
  intros q r lo h k Hp Hk Hq Hu. unfold kask. cbn [fst snd]. destruct q as [|i|i j]; cbn [ask on_axes quantity3 unmixed] in *.
  - reflexivity.
  - destruct (hex_grad_ok 0 0 (corner3 lo h k) h k r i Hp Hq) as (g & Eg & Hg).
    change (it_grad (kvalues K 0 0 (corner3 lo h k) h k) r i) with (it_grad (hex_values ROps 0 0 (corner3 lo h k) h k) r i).
    rewrite Eg. exact Hg.
  - subst j. destruct (hex_second_true 0 0 (corner3 lo h k) h k r i i Hp (proj1 Hq) (proj2 Hq)) as (g & Eg & Hg).
    change (it_hess (kvalues K 0 0 (corner3 lo h k) h k) r i i) with (it_hess (hex_values ROps 0 0 (corner3 lo h k) h k) r i i).
    rewrite Eg. rewrite Z.eqb_refl in Hg. exact Hg.
Qed.

(** ** The element used *)

Lemma axis_bin : forall a l, axis_good a -> ax_N a = distinct l + 2 -> least (ax_lo a) l -> greatest (ax_hi a) l ->
  forall x k, bin_number l x k <-> Zfloor ((x - ax_min a) / ax_incr a) = k.
Proof.
  intros a l (n & Hn & Hlt & HN & Hi & Hm) HN' Hl Hg x k. assert (n = distinct l) by lia. subst n.
  assert (Hp : (0 < ax_incr a)%R) by (rewrite Hi; apply Rdiv_lt_0_compat; [lra|apply IZR_lt; auto]).
  assert (U : forall a' z', least a' l -> greatest z' l -> a' = ax_lo a /\ z' = ax_hi a).
  { intros a' z' [A1 A2] [B1 B2]. destruct Hl as [L1 L2], Hg as [G1 G2].
    pose proof (A2 _ L1); pose proof (L2 _ A1); pose proof (B2 _ G1); pose proof (G2 _ B1). split; apply Rle_antisym; auto. }
  assert (E : bin_number l x k <-> (ax_lo a + ax_incr a * IZR (k - 1) <= x < ax_lo a + ax_incr a * IZR k)%R).
  { rewrite Hi. split.
    - intros (a' & z' & H1 & H2 & H). destruct (U _ _ H1 H2) as [-> ->]. exact H.
    - intros H. exists (ax_lo a), (ax_hi a). auto. }
  rewrite E, Hm, minus_IZR. split.
  - intros H. apply Zfloor_imp. rewrite plus_IZR. split.
    + apply (Rmult_le_reg_r (ax_incr a)); auto. unfold Rdiv. rewrite Rmult_assoc, Rinv_l by lra. lra.
    + apply (Rmult_lt_reg_r (ax_incr a)); auto. unfold Rdiv. rewrite Rmult_assoc, Rinv_l by lra. lra.
  - intros <-. pose proof (Zfloor_lb ((x - (ax_lo a - ax_incr a)) / ax_incr a)) as F1.
    pose proof (Zfloor_ub ((x - (ax_lo a - ax_incr a)) / ax_incr a)) as F2.
    set (f := IZR (Zfloor ((x - (ax_lo a - ax_incr a)) / ax_incr a))) in *.
    assert (Q : ((x - (ax_lo a - ax_incr a)) / ax_incr a * ax_incr a = x - (ax_lo a - ax_incr a))%R) by (field; lra).
    apply (Rmult_le_compat_r (ax_incr a)) in F1; [|lra]. apply (Rmult_lt_compat_r (ax_incr a)) in F2; [|lra].
    rewrite Q in F1, F2. lra.
Qed.

Lemma axis_meets : forall a l, axis_good a -> ax_N a = distinct l + 2 -> least (ax_lo a) l -> greatest (ax_hi a) l ->
  forall x0 x1 x, meets_bin l x0 x1 x <->
    Zfloor ((x0 - ax_min a) / ax_incr a) <= Zfloor ((x - ax_min a) / ax_incr a) <= Zfloor ((x1 - ax_min a) / ax_incr a).
Proof.
  intros a l H1 H2 H3 H4 x0 x1 x. unfold meets_bin. split.
  - intros (k0 & k & k1 & A & B & C & D). apply (axis_bin a l H1 H2 H3 H4) in A, B, C. lia.
  - intros D. exists (Zfloor ((x0 - ax_min a) / ax_incr a)), (Zfloor ((x - ax_min a) / ax_incr a)), (Zfloor ((x1 - ax_min a) / ax_incr a)).
    rewrite !(axis_bin a l H1 H2 H3 H4). auto.
Qed.

Lemma box_accepts : forall pts ax lo h r, axes_of (K := K) pts ax -> positive3 h ->
  accepts (K := K) corner3 hi3 ax r (lo, h) <-> in_column lo h r /\ shares_bin pts lo h r.
Proof.
  intros pts ax lo h r Hax Hp. unfold accepts. cbn [fst snd]. rewrite x_ks.
  pose proof (hex_range_iff (fun _ => 0) 0 lo h r Hp) as HR. cbv beta in HR. unfold in_column.
  change (kvalues K) with (hex_values ROps). rewrite HR. clear HR.
  pose proof (axes_length _ _ Hax) as Hl. destruct Hax as (HA & HN & HF). simpl in Hl.
  destruct ax as [|a0 [|a1 [|a2 [|? ?]]]]; simpl in Hl; try discriminate.
  simpl in HF. inversion HF as [|? ? ? ? [L0 G0] HF1]; subst. inversion HF1 as [|? ? ? ? [L1 G1] HF2]; subst.
  inversion HF2 as [|? ? ? ? [L2 G2] _]; subst. clear HF HF1 HF2.
  inversion HA as [|? ? A0 HA1]; subst. inversion HA1 as [|? ? A1 HA2]; subst. inversion HA2 as [|? ? A2 _]; subst. clear HA HA1 HA2.
  unfold grid_shape in HN. simpl in HN. injection HN as N0 N1 N2.
  unfold shares_bin.
  rewrite (axis_meets a0 (map cx pts) A0 N0 L0 G0), (axis_meets a1 (map cy pts) A1 N1 L1 G1), (axis_meets a2 (map cz pts) A2 N2 L2 G2).
  simpl. rewrite !andb_true_iff, !Z.leb_le. tauto.
Qed.

(** C22: the element used is the lowest-numbered one that shares a bin with the point and has it above, in or below. *)
Lemma box_field : forall pts cells m data name p0 r, box_mesh pts cells -> mesh_of (K := K) pts cells m ->
  (List.length pts <= List.length data)%nat -> pf_new (F := scalar_field ROps) name m data 0%R = Ok p0 ->
  in_mesh3 pts cells r ->
  exists j cell lo h v, nth_error cells j = Some cell /\ cell_box pts cell lo h /\ in_column lo h r /\ shares_bin pts lo h r /\
    (forall j' cell' lo' h', nth_error cells j' = Some cell' -> cell_box pts cell' lo' h' -> in_column lo' h' r ->
       shares_bin pts lo' h' r -> (j <= j')%nat) /\
    cell_data data cell corners3 v /\
    forall hist m' p', field_history (m, p0) hist (m', p') -> forall q, on_axes 3 q -> exists s,
      field_eval (K := K) q r (m', p') = RRet s (rsum (fun k => kask (K := K) corner3 q r (lo, h) k * v k)%R corners3).
Proof.
  intros pts cells m data name p0 r Hr Hof Hd Hp0 (cell0 & lo0 & h0 & Hin0 & Hcell0 & Hbox0).
  destruct (box_reads _ _ Hr) as (m0 & elems & ax & H1 & Hm & H3). rewrite <- (H3 _ Hof) in Hm. clear H3 H1 m0.
  destruct (box_field_new pts cells m data name Hr Hof Hd) as (p1 & Hp1 & Hon).
  assert (p1 = p0) by congruence. subst p1.
  pose proof (md_axes _ _ _ _ _ _ _ Hm) as Hax.
  assert (Hnum : forall j cell lo h, nth_error cells j = Some cell -> cell_box pts cell lo h ->
            nth_error elems j = Some (lo, h) /\ gcell (K := K) corner3 positive3 pts cell (lo, h)).
  { intros j cell lo h Ec Hc. destruct (built_nth _ _ _ _ _ _ _ (md_built _ _ _ _ _ _ _ Hm) Ec) as ([lo1 h1] & Ee).
    pose proof (nth_gcell _ _ _ _ _ _ _ _ (md_cells _ _ _ _ _ _ _ Hm) Ec Ee) as Hg.
    assert (Heq : lo1 = lo /\ h1 = h) by (apply gcell_box in Hg; eapply cell_box_fun; eauto).
    destruct Heq as [-> ->]. auto. }
  (* the containing element is accepted and the point is inside the grid *)
  apply In_nth_error in Hin0. destruct Hin0 as (j0 & Ec0). destruct (Hnum _ _ _ _ Ec0 Hcell0) as [Ee0 Hg0].
  assert (Hpos0 : positive3 h0) by (destruct Hcell0; auto).
  pose proof (proj1 (in_box_below lo0 h0 r Hpos0) Hbox0) as [Hb1 Hb2].
  destruct (proj2 (hex_range_iff (fun _ => 0) 0 lo0 h0 r Hpos0) (conj (proj1 Hbox0) (proj1 (proj2 Hbox0)))) as (k & Hk & Hkr).
  destruct (element_accepts (K := K) x_coords corner3 hi3 positive3 x_far x_ends pts cells elems ax m cell0 (lo0, h0) r k Hm Hg0 Hb1 Hb2 Hk Hkr)
    as (Hacc0 & _ & Hins).
  destruct (field_claimed (K := K) x_dim corner3 hi3 positive3 x_far x_box x_indep pts cells elems ax m data p0 r j0 (lo0, h0) Hm
     (hex_answering ROps) Hon Hins Ee0 Hacc0) as (j & cell & [lo h] & Hmin & Ec & Ee & Hg & Hacc & Hev).
  apply gcell_box in Hg. assert (Hpos : positive3 h) by (destruct Hg; auto).
  destruct (proj1 (box_accepts pts ax lo h r Hax Hpos) Hacc) as [Hcol Hbin].
  exists j, cell, lo, h, (cellv data cell). repeat (split; [assumption|]).
  split; [|split; [eapply cellv_data3; eauto|]].
  2:{ intros hist m' p' Hh q Hq. destruct (Hev hist m' p' q Hh Hq) as (s & Es). exists s. exact Es. }
  intros j' cell' lo' h' Ec' Hcell' Hcol' Hbin'. destruct (Hnum _ _ _ _ Ec' Hcell') as [Ee' Hg'].
  assert (Hpos' : positive3 h') by (destruct Hcell'; auto).
  exact (Hmin j' (lo', h') Ee' (proj2 (box_accepts pts ax lo' h' r Hax Hpos') (conj Hcol' Hbin'))).
Qed.

Lemma kask3_trilinear : forall lo h v r q, positive3 h -> on_axes 3 q -> unmixed q ->
  quantity3 (trilinear lo h v) q r (rsum (fun k => kask (K := K) corner3 q r (lo, h) k * v k)%R corners3).
Proof.
  intros lo h v r q Hp Hq Hu.
  apply quantity3_ext with (f := fun p => rsum (fun k => shape3 lo h k p * v k)%R corners3).
  { intros p. apply trilinear_sum. apply positive_proper3; auto. }
  apply quantity3_sum. intros k' Hk'. apply kask3_quantity; auto. apply positive_proper3; auto.
Qed.

Lemma box_chosen : forall pts cells m data name p0 r, box_mesh pts cells -> mesh_of (K := K) pts cells m ->
  (List.length pts <= List.length data)%nat -> pf_new (F := scalar_field ROps) name m data 0%R = Ok p0 ->
  in_mesh3 pts cells r ->
  exists j cell lo h v, nth_error cells j = Some cell /\ cell_box pts cell lo h /\ in_column lo h r /\ shares_bin pts lo h r /\
    (forall j' cell' lo' h', nth_error cells j' = Some cell' -> cell_box pts cell' lo' h' -> in_column lo' h' r ->
       shares_bin pts lo' h' r -> (j <= j')%nat) /\
    cell_data data cell corners3 v /\
    forall hist m' p', field_history (m, p0) hist (m', p') -> forall q, on_axes 3 q -> unmixed q ->
      exists s a, field_eval (K := K) q r (m', p') = RRet s a /\ quantity3 (trilinear lo h v) q r a.
Proof.
  intros pts cells m data name p0 r Hr Hof Hd Hp0 Hin.
  destruct (box_field pts cells m data name p0 r Hr Hof Hd Hp0 Hin) as (j & cell & lo & h & v & Ec & Hcell & H1 & H2 & H3 & Hv & Hev).
  exists j, cell, lo, h, v. repeat (split; [assumption|]).
  intros hist m' p' Hh q Hq Hu. destruct (Hev hist m' p' Hh q Hq) as (s & Es).
  exists s. eexists. split; [exact Es|]. apply kask3_trilinear; auto. apply Hcell.
Qed.

Lemma box_shares : forall pts lo h r cell, cell_box pts cell lo h -> forall cells m, box_mesh pts cells -> mesh_of (K := K) pts cells m ->
  In cell cells -> in_box lo h r -> shares_bin pts lo h r.
Proof.
  intros pts lo h r cell Hcell cells m Hr Hof Hin Hbox.
  destruct (box_reads _ _ Hr) as (m0 & elems & ax & H1 & Hm & H3). rewrite <- (H3 _ Hof) in Hm. clear H3 H1 m0.
  assert (Hpos : positive3 h) by (destruct Hcell; auto).
  pose proof (proj1 (in_box_below lo h r Hpos) Hbox) as [Hb1 Hb2].
  destruct (proj2 (hex_range_iff (fun _ => 0) 0 lo h r Hpos) (conj (proj1 Hbox) (proj1 (proj2 Hbox)))) as (k & Hk & Hkr).
  destruct (element_accepts (K := K) x_coords corner3 hi3 positive3 x_far x_ends pts cells elems ax m cell (lo, h) r k Hm
     (proj2 (gcell_box _ _ _ _) Hcell) Hb1 Hb2 Hk Hkr) as (Hacc & _).
  apply (box_accepts pts ax lo h r (md_axes _ _ _ _ _ _ _ Hm) Hpos) in Hacc. tauto.
Qed.

(** One layer of elements. *)
Lemma box_one_layer : forall pts cells m data name p0 r, box_mesh pts cells -> mesh_of (K := K) pts cells m ->
  (List.length pts <= List.length data)%nat -> pf_new (F := scalar_field ROps) name m data 0%R = Ok p0 ->
  one_layer pts cells -> in_mesh3 pts cells r ->
  exists cell lo h v, In cell cells /\ cell_box pts cell lo h /\ in_box lo h r /\ cell_data data cell corners3 v /\
    forall hist m' p', field_history (m, p0) hist (m', p') -> forall q, on_axes 3 q -> unmixed q ->
      exists s a, field_eval (K := K) q r (m', p') = RRet s a /\ quantity3 (trilinear lo h v) q r a.
Proof.
  intros pts cells m data name p0 r Hr Hof Hd Hp0 (z & dz & Hlay) Hin.
  destruct (box_field pts cells m data name p0 r Hr Hof Hd Hp0 Hin) as (j & cell & lo & h & v & Ec & Hcell & Hcol & _ & _ & Hv & Hev).
  destruct Hin as (cell0 & lo0 & h0 & Hin0 & Hcell0 & Hbox0).
  apply nth_error_In in Ec.
  destruct (Hlay _ _ _ Ec Hcell) as [Z1 Z2]. destruct (Hlay _ _ _ Hin0 Hcell0) as [Z3 Z4].
  exists cell, lo, h, v. split; [auto|]. split; [auto|]. split.
  { split; [apply Hcol|]. split; [apply Hcol|]. rewrite Z1, Z2, <- Z3, <- Z4. apply Hbox0. }
  split; [auto|]. intros hist m' p' Hh q Hq Hu. destruct (Hev hist m' p' Hh q Hq) as (s & Es).
  exists s. eexists. split; [exact Es|]. apply kask3_trilinear; auto. apply Hcell.
Qed.

(** Affine data are reproduced, whatever element is used. *)
Lemma kask3_affine : forall lo h v r q (al be ga de : R), positive3 h -> on_axes 3 q ->
  (forall k, In k corners3 -> v k = (al + be * cx (corner3 lo h k) + ga * cy (corner3 lo h k) + de * cz (corner3 lo h k))%R) ->
  quantity3 (fun p => al + be * cx p + ga * cy p + de * cz p)%R q r (rsum (fun k => kask (K := K) corner3 q r (lo, h) k * v k)%R corners3).
Proof.
  intros lo h v r q al be ga de Hp Hq Hv.
  destruct (positive_proper3 h Hp) as (P0 & P1 & P2).
  assert (T : forall p, trilinear lo h v p = (al + be * cx p + ga * cy p + de * cz p)%R).
  { intros [x y z]. unfold trilinear, bilinear. simpl.
    rewrite (Hv 0), (Hv 1), (Hv 2), (Hv 3), (Hv 4), (Hv 5), (Hv 6), (Hv 7) by (simpl; tauto).
    destruct lo as [a b c], h as [d e f]. unfold corner3; simpl in *. field. auto. }
  assert (D : unmixed q \/ exists i j, q = QHess i j /\ i <> j).
  { destruct q as [| |i j]; simpl; auto. destruct (Z.eq_dec i j); eauto. }
  destruct D as [D|(i & j & -> & Hij)].
  { eapply quantity3_ext; [exact T|]. apply kask3_trilinear; auto. }
  assert (E0 : rsum (fun k => kask (K := K) corner3 (QHess i j) r (lo, h) k * v k)%R corners3 = 0%R).
  { unfold kask. cbn [fst snd ask]. simpl rsum.
    rewrite (Hv 0), (Hv 1), (Hv 2), (Hv 3), (Hv 4), (Hv 5), (Hv 6), (Hv 7) by (simpl; tauto).
    destruct lo as [a b c], h as [d e f]. destruct Hq as [Hi Hj]. simpl in P0, P1, P2.
    assert (i = 0 \/ i = 1 \/ i = 2) as [-> | [-> | ->]] by lia; assert (j = 0 \/ j = 1 \/ j = 2) as [-> | [-> | ->]] by lia;
      try congruence; unfold hex_values, hex_ddvalue, corner3; simpl;
      unfold hex_hess_0_1, hex_hess_0_2, hex_hess_1_0, hex_hess_1_2, hex_hess_2_0, hex_hess_2_1; simpl; field; auto. }
  rewrite E0. simpl. destruct Hq as [Hi Hj].
  exists (fun _ => if i =? 0 then be else if i =? 1 then ga else de). split.
  - intros [x y z]. unfold partial3. assert (i = 0 \/ i = 1 \/ i = 2) as [-> | [-> | ->]] by lia; simpl; auto_derive; auto; ring.
  - apply partial3_const.
Qed.

Lemma box_affine : forall pts cells m data name p0 r (al be ga de : R), box_mesh pts cells -> mesh_of (K := K) pts cells m ->
  (List.length pts <= List.length data)%nat -> pf_new (F := scalar_field ROps) name m data 0%R = Ok p0 ->
  (forall n p x, vget pts n = Ok p -> vget data n = Ok x -> x = (al + be * cx p + ga * cy p + de * cz p)%R) ->
  in_mesh3 pts cells r ->
  forall hist m' p', field_history (m, p0) hist (m', p') -> forall q, on_axes 3 q ->
    exists s a, field_eval (K := K) q r (m', p') = RRet s a /\ quantity3 (fun p => al + be * cx p + ga * cy p + de * cz p)%R q r a.
Proof.
  intros pts cells m data name p0 r al be ga de Hr Hof Hd Hp0 Haf Hin hist m' p' Hh q Hq.
  destruct (box_field pts cells m data name p0 r Hr Hof Hd Hp0 Hin) as (j & cell & lo & h & v & Ec & Hcell & Hcol & _ & _ & Hv & Hev).
  destruct (Hev hist m' p' Hh q Hq) as (s & Es). exists s. eexists. split; [exact Es|].
  apply kask3_affine; auto; [apply Hcell|]. intros k Hk. destruct Hcell as [_ Hcs]. destruct (Hcs k Hk) as (n & An & Bn).
  destruct (Hv k Hk) as (n' & An' & Bn'). assert (n' = n) by congruence. subst n'. apply (Haf n); auto.
Qed.

(** ** C25 in 3D *)

Lemma box_covers : forall pts cells m, box_mesh pts cells -> mesh_of (K := K) pts cells m ->
  me_node m = pts /\
  (forall i, 0 <= i < 3 -> exists a z, mesh_min m i = Ok a /\ least a (map (fun p => nth3 p i) pts) /\
     mesh_max m i = Ok z /\ greatest z (map (fun p => nth3 p i) pts)) /\
  (forall r, (forall i a z, 0 <= i < 3 -> mesh_min m i = Ok a -> mesh_max m i = Ok z -> (a <= nth3 r i <= z)%R) ->
     (exists l, view (me_bin m) (kcoords K r) = Ok l) /\
     Forall3 (fun a x z => (a < x < z)%R) (bin_min (me_bin m)) (kcoords K r) (bin_max (me_bin m))) /\
  (forall r, in_mesh3 pts cells r -> forall i a z, 0 <= i < 3 -> mesh_min m i = Ok a -> mesh_max m i = Ok z -> (a <= nth3 r i <= z)%R).
Proof.
  intros pts cells m Hr Hof. destruct (box_reads _ _ Hr) as (m0 & elems & ax & H1 & Hm & H3). rewrite <- (H3 _ Hof) in Hm. clear H3 H1 m0.
  destruct (box_mesh_facts _ _ Hr) as (_ & _ & Hz & _).
  split; [exact (md_node _ _ _ _ _ _ _ Hm)|].
  pose proof (md_axes _ _ _ _ _ _ _ Hm) as Hax. pose proof Hax as (HA & _ & HF).
  pose proof (md_min _ _ _ _ _ _ _ Hm) as Emin. pose proof (md_max _ _ _ _ _ _ _ Hm) as Emax.
  pose proof (axes_length _ _ Hax) as Hl. simpl in Hl.
  destruct ax as [|a0 [|a1 [|a2 [|? ?]]]]; simpl in Hl; try discriminate.
  simpl in HF. inversion HF as [|? ? ? ? [L0 G0] HF']; subst. inversion HF' as [|? ? ? ? [L1 G1] HF2]; subst.
  inversion HF2 as [|? ? ? ? [L2 G2] _]; subst.
  assert (M : forall i, 0 <= i < 3 -> mesh_min m i = Ok (if i =? 0 then ax_lo a0 else if i =? 1 then ax_lo a1 else ax_lo a2) /\
                         mesh_max m i = Ok (if i =? 0 then ax_hi a0 else if i =? 1 then ax_hi a1 else ax_hi a2)).
  { intros i Hi. unfold mesh_min, mesh_max. rewrite Emin, Emax. assert (i = 0 \/ i = 1 \/ i = 2) as [->|[->| ->]] by lia; split; reflexivity. }
  split; [|split].
  - intros i Hi. destruct (M i Hi) as [M1 M2]. 
    exists (if i =? 0 then ax_lo a0 else if i =? 1 then ax_lo a1 else ax_lo a2), (if i =? 0 then ax_hi a0 else if i =? 1 then ax_hi a1 else ax_hi a2).
    split; [exact M1|]. rewrite M2.
    assert (i = 0 \/ i = 1 \/ i = 2) as [->|[->| ->]] by lia; simpl; auto.
  - intros r Hw.
    assert (W : within [a0; a1; a2] (kcoords K r)).
    { destruct (M 0) as [M1 M2]; [lia|]. destruct (M 1) as [M3 M4]; [lia|]. destruct (M 2) as [M5 M6]; [lia|].
      pose proof (Hw 0 _ _ ltac:(lia) M1 M2). pose proof (Hw 1 _ _ ltac:(lia) M3 M4). pose proof (Hw 2 _ _ ltac:(lia) M5 M6). simpl in *.
      repeat (constructor; [assumption|]). constructor. }
    pose proof (within_inside _ _ HA W) as Hins. split.
    + rewrite (md_view _ _ _ _ _ _ _ Hm (kcoords K r) Hins). eauto.
    + pose proof (axes_grid (K := K) x_dim x_coords _ _ Hax Hz) as Hgrid.
      destruct (reachable_inv _ _ _ _ Hgrid _ (md_bin _ _ _ _ _ _ _ Hm)) as (mx & Hinv & Hg & _).
      rewrite (BinP.inv_min _ _ _ _ _ Hinv), (BinP.inv_max _ _ _ _ _ Hinv).
      pose proof (good_within _ _ HA W) as G. clear -G Hg.
      simpl in *. inversion G as [|? ? ? ? ? ? ? ? E0 G']; subst. inversion G' as [|? ? ? ? ? ? ? ? E1 G'']; subst.
      inversion G'' as [|? ? ? ? ? ? ? ? E2 _]; subst.
      inversion Hg as [|? ? ? z0 ? ? ? mx' D0 Hg']; subst. inversion Hg' as [|? ? ? z1 ? ? ? mx2 D1 Hg2]; subst.
      inversion Hg2 as [|? ? ? z2 ? ? ? mx3 D2 Hg3]; subst. inversion Hg3; subst. repeat (constructor; [assumption|]). constructor.
  - intros r (cell & lo & h & Hin & Hcell & Hbox) i a z Hi Ha Hza.
    destruct (element_within (K := K) x_coords corner3 hi3 positive3 x_far x_ends pts [a0; a1; a2] cell (lo, h) Hax (proj2 (gcell_box _ _ _ _) Hcell)) as [W1 W2].
    assert (Hpos : positive3 h) by (destruct Hcell; auto).
    destruct (proj1 (in_box_below lo h r Hpos) Hbox) as [B1 B2].
    pose proof (between_within _ _ _ _ W1 W2 B1 B2) as W.
    inversion W as [|? ? ? ? V0 W']; subst. inversion W' as [|? ? ? ? V1 W'']; subst. inversion W'' as [|? ? ? ? V2 _]; subst.
    destruct (M i Hi) as [M1 M2]. rewrite M1 in Ha. rewrite M2 in Hza. injection Ha as <-. injection Hza as <-.
    assert (i = 0 \/ i = 1 \/ i = 2) as [->|[->| ->]] by lia; simpl; auto.
Qed.

End Box.
