(** Fields on meshes of rectangles: C18, C19, C25. *)
From Coquelicot Require Import Coquelicot.
From Coq Require Import ZArith List Bool Lia ZifyBool Reals Lra String.
From Verif Require Import Model.Outcome Model.Num Model.NumInst Model.PNDArray Model.Bin Model.PSimple Model.Interpolator
  Model.Quad Model.Hexahedron Model.Mesh Model.PField.
From Verif Require Import Spec.Tensor Spec.NDHistory Spec.Grid Spec.Funcs Spec.Shape Spec.Fields.
From Verif Require Import Proofs.OutcomeP Proofs.PNDArrayP Proofs.BinRP Proofs.ShapeP Proofs.FieldP Proofs.MeshReadP Proofs.AxisP Proofs.MeshRP.
Import ListNotations.
Local Open Scope Z_scope.

(** ** Linear combinations and derivatives *)

Lemma partial2_plus : forall f g i r a b, partial2 f i r a -> partial2 g i r b -> partial2 (fun p => f p + g p)%R i r (a + b)%R.
Proof. intros f g i r a b Hf Hg. unfold partial2 in *. apply (is_derive_plus (K := R_AbsRing) (V := R_NormedModule)); auto. Qed.
Lemma partial2_scal : forall f i r a c, partial2 f i r a -> partial2 (fun p => f p * c)%R i r (a * c)%R.
Proof.
  intros f i r a c H. unfold partial2 in *.
  apply (is_derive_ext (fun t => c * f (upd2 r i t))%R); [intros; apply Rmult_comm|].
  rewrite Rmult_comm. apply (is_derive_scal (fun t => f (upd2 r i t))). exact H.
Qed.
Lemma partial2_const : forall i r c, partial2 (fun _ => c) i r 0%R.
Proof. intros i r c. unfold partial2. apply @is_derive_const. Qed.
Lemma partial2_ext : forall f g i r a, (forall p, f p = g p) -> partial2 f i r a -> partial2 g i r a.
Proof. intros f g i r a H Hf. unfold partial2 in *. eapply is_derive_ext; [|exact Hf]. intros; apply H. Qed.
Lemma partial2_unique : forall f i r v w, partial2 f i r v -> partial2 f i r w -> v = w.
Proof. intros f i r v w Hv Hw. apply is_derive_unique in Hv. apply is_derive_unique in Hw. congruence. Qed.

Lemma second2_plus : forall f g i j r a b, second2 f i j r a -> second2 g i j r b -> second2 (fun p => f p + g p)%R i j r (a + b)%R.
Proof.
  intros f g i j r a b (D & H1 & H2) (E & H3 & H4). exists (fun p => D p + E p)%R. split.
  - intros p. apply partial2_plus; auto.
  - apply partial2_plus; auto.
Qed.
Lemma second2_scal : forall f i j r a c, second2 f i j r a -> second2 (fun p => f p * c)%R i j r (a * c)%R.
Proof.
  intros f i j r a c (D & H1 & H2). exists (fun p => D p * c)%R. split; [intros p|]; apply partial2_scal; auto.
Qed.
Lemma second2_const : forall i j r c, second2 (fun _ => c) i j r 0%R.
Proof. intros i j r c. exists (fun _ => 0%R). split; [intros p|]; apply partial2_const. Qed.
Lemma second2_ext : forall f g i j r a, (forall p, f p = g p) -> second2 f i j r a -> second2 g i j r a.
Proof. intros f g i j r a H (D & H1 & H2). exists D. split; auto. intros p. eapply partial2_ext; eauto. Qed.
Lemma second2_unique : forall f i j r v w, second2 f i j r v -> second2 f i j r w -> v = w.
Proof.
  intros f i j r v w (D & HD & H) (D' & HD' & H'). eapply partial2_unique; [exact H|].
  eapply partial2_ext; [|exact H']. intros p. eapply partial2_unique; [apply HD'|apply HD].
Qed.

Lemma quantity2_ext : forall f g q r a, (forall p, f p = g p) -> quantity2 f q r a -> quantity2 g q r a.
Proof.
  intros f g [|i|i j] r a H; simpl.
  - rewrite H; auto.
  - apply partial2_ext; auto.
  - apply second2_ext; auto.
Qed.

Lemma quantity2_unique : forall f q r v w, quantity2 f q r v -> quantity2 f q r w -> v = w.
Proof.
  intros f [|i|i j] r v w; simpl; [congruence|apply partial2_unique|apply second2_unique].
Qed.

Lemma quantity2_sum : forall (A : Type) (F : A -> point2 -> R) (g c : A -> R) q r l,
  (forall k, In k l -> quantity2 (F k) q r (g k)) ->
  quantity2 (fun p => rsum (fun k => F k p * c k)%R l) q r (rsum (fun k => g k * c k)%R l).
Proof.
  intros A F g c q r l. induction l as [|k l IH]; intros H; simpl.
  - destruct q; simpl; [auto|apply partial2_const|apply second2_const].
  - assert (H0 := H k (or_introl eq_refl)). assert (H1 : forall k, In k l -> quantity2 (F k) q r (g k)) by (intros; apply H; simpl; auto).
    specialize (IH H1). destruct q as [|i|i j]; simpl in *.
    + rewrite H0, IH. auto.
    + apply (partial2_plus (fun p => F k p * c k)%R); auto. apply partial2_scal; auto.
    + apply (second2_plus (fun p => F k p * c k)%R); auto. apply second2_scal; auto.
Qed.

(** ** Instances of the general facts *)

Definition hi2 (lo h : point2) : point2 := (fst lo + fst h, snd lo + snd h)%R.

Lemma positive_proper2 : forall h, positive2 h -> proper2 h.
Proof. intros h [H1 H2]. split; lra. Qed.

Section Rect.
Let K := quad_kind ROps.

Lemma q_dim : (0 < kdim K)%nat. Proof. simpl; lia. Qed.
Lemma q_coords : forall p : kpoint K, List.length (kcoords K p) = kdim K. Proof. reflexivity. Qed.
Lemma q_ks : @ks K = corners2. Proof. reflexivity. Qed.
Lemma q_far : In (kfar K) (@ks K) /\ In 0 (@ks K). Proof. rewrite q_ks. simpl. tauto. Qed.
Lemma q_ends : forall lo h : point2, corner2 lo h 0 = lo /\ corner2 lo h (kfar K) = hi2 lo h.
Proof. intros [a b] [c d]. unfold corner2, hi2; simpl. split; f_equal; ring. Qed.
Lemma q_diff : forall lo h : point2, kdiff K (corner2 lo h (kfar K)) (corner2 lo h 0) = h.
Proof. intros [a b] [c d]. unfold corner2; simpl. f_equal; ring. Qed.
Lemma q_box : forall nd el (lo h : point2) k, In k (@ks K) ->
  it_node (kvalues K nd el (corner2 lo h k) h k) = nd /\ it_elem (kvalues K nd el (corner2 lo h k) h k) = el /\
  it_min (kvalues K nd el (corner2 lo h k) h k) = lo /\ it_max (kvalues K nd el (corner2 lo h k) h k) = hi2 lo h.
Proof.
  intros nd el lo h k Hk. split; [reflexivity|]. split; [reflexivity|]. apply (quad_box nd el lo h k Hk).
Qed.
Lemma q_pos : forall lo h : point2, positive2 h -> Forall2 Rlt (kcoords K lo) (kcoords K (hi2 lo h)).
Proof. intros [a b] [c d] [H1 H2]. simpl in *. repeat constructor; lra. Qed.
Lemma q_indep : forall nd el (p h : point2) k,
  (forall q c, ask q c (kvalues K nd el p h k) = ask q c (kvalues K 0 0 p h k)) /\
  (forall c, it_range (kvalues K nd el p h k) c = it_range (kvalues K 0 0 p h k) c).
Proof. intros. split; intros; reflexivity. Qed.

Lemma in_rect_below : forall lo h r : point2, positive2 h -> in_rect lo h r <->
  below (kcoords K lo) (kcoords K r) /\ below (kcoords K r) (kcoords K (hi2 lo h)).
Proof.
  intros [a b] [c d] [x y] [H1 H2]. unfold in_rect, below, hi2; simpl in *.
  assert (B : forall a h x, (0 < h)%R -> between1 a h x <-> (a <= x <= a + h)%R).
  { intros a0 h0 x0 Hp. rewrite between1_ratio by lra. split.
    - intros [G1 G2]. apply (Rmult_le_compat_r h0) in G1; [|lra]. apply (Rmult_le_compat_r h0) in G2; [|lra].
      unfold Rdiv in G1, G2. rewrite Rmult_assoc, Rinv_l, Rmult_1_r in G1, G2 by lra. lra.
    - intros G. split; [apply Rdiv_le_0_compat; lra|]. apply Rmult_le_reg_r with h0; auto.
      unfold Rdiv. rewrite Rmult_assoc, Rinv_l by lra. lra. }
  rewrite !B by auto. split.
  - intros [G1 G2]. split; (constructor; [lra|constructor; [lra|constructor]]).
  - intros [G1 G2]. inversion G1 as [|? ? ? ? I1 I2]; inversion I2 as [|? ? ? ? I3 _]; subst.
    inversion G2 as [|? ? ? ? J1 J2]; inversion J2 as [|? ? ? ? J3 _]; subst. lra.
Qed.

Definition rect_meshed := meshed (K := K) corner2 positive2.

Lemma gcell_rect : forall pts cell lo h, gcell (K := K) corner2 positive2 pts cell (lo, h) <-> cell_rect pts cell lo h.
Proof. intros. unfold gcell, cell_rect. rewrite q_ks. simpl. tauto. Qed.

Lemma cell_rect_fun : forall pts cell lo h lo' h', cell_rect pts cell lo h -> cell_rect pts cell lo' h' -> lo = lo' /\ h = h'.
Proof.
  intros pts cell lo h lo' h' [_ H] [_ H'].
  assert (E : forall k, In k corners2 -> corner2 lo h k = corner2 lo' h' k).
  { intros k Hk. destruct (H k Hk) as (n & A & B). destruct (H' k Hk) as (n' & A' & B').
    assert (n' = n) by congruence. subst n'. pose proof (eq_trans (eq_sym B) B') as E.
    exact (f_equal (fun x => match x with Ok a => a | _ => corner2 lo h k end) E). }
  destruct (q_ends lo h) as [Q1 _]. destruct (q_ends lo' h') as [Q2 _].
  assert (E0 := E 0 (or_introl eq_refl)). assert (E2 : corner2 lo h 2 = corner2 lo' h' 2) by (apply E; simpl; tauto).
  split; [congruence|]. rewrite <- (q_diff lo h), <- (q_diff lo' h'). simpl kfar. rewrite E0, E2. reflexivity.
Qed.

Lemma rect_elems : forall pts cells, Forall (fun cell => exists lo h, cell_rect pts cell lo h) cells ->
  exists elems, Forall2 (gcell (K := K) corner2 positive2 pts) cells elems.
Proof.
  intros pts cells H. induction H as [|cell cells (lo & h & Hc) H (elems & IH)]; [exists []; constructor|].
  exists ((lo, h) :: elems). constructor; [apply gcell_rect|]; auto.
Qed.

Lemma rect_mesh_facts : forall pts cells, rect_mesh pts cells -> pts <> [] /\
  (forall j, (j < kdim K)%nat -> 2 <= distinct (column (K := K) pts j)) /\ zprod (grid_shape (K := K) pts) <= int_max /\
  Z.of_nat (kcorners K) * Z.of_nat (List.length cells) <= int_max.
Proof.
  intros pts cells (Hne & Hc & Hz & Hn). destruct cells as [|cell cells]; [congruence|].
  inversion Hc as [|? ? (lo & h & Hp & Hcell) _]; subst.
  destruct (Hcell 0) as (n0 & _ & P0); [simpl; auto|]. destruct (Hcell 2) as (n2 & _ & P2); [simpl; auto|].
  apply vget_in in P0. apply vget_in in P2. destruct Hp as [Hp1 Hp2].
  split; [destruct pts; [destruct P0|congruence]|]. split.
  - intros j Hj. simpl in Hj.
    assert (Hcol : forall p : point2, In p pts -> In (nth j [fst p; snd p] 0%R) (column (K := K) pts j)).
    { intros p Hp. unfold column. apply in_map_iff. exists p. auto. }
    apply (distinct_two_of _ _ _ (Hcol _ P0) (Hcol _ P2)).
    destruct lo as [a b], h as [c d]; destruct j as [|[|]]; simpl in *; [apply Rlt_not_eq; lra|apply Rlt_not_eq; lra|lia].
  - split; [|exact Hn]. unfold grid_shape. simpl. rewrite !zprod_cons, zprod_nil. unfold column. simpl. rewrite Z.mul_1_r. exact Hz.
Qed.

(** The mesh of a well-formed file. *)
Lemma rect_reads : forall pts cells, rect_mesh pts cells -> exists m elems ax, mesh_of (K := K) pts cells m /\
  rect_meshed pts cells elems ax m /\ (forall m', mesh_of (K := K) pts cells m' -> m' = m).
Proof.
  intros pts cells Hr. destruct (rect_mesh_facts _ _ Hr) as (H1 & H2 & H3 & H4). destruct Hr as (_ & Hc & _).
  destruct (rect_elems pts cells Hc) as (elems & He).
  destruct (mesh_reads (K := K) q_dim q_coords corner2 hi2 positive2 q_far q_diff q_box q_ends q_pos pts cells elems H1 H2 H3 He)
    as (ax & m1 & m & E1 & E2 & Hm).
  exists m, elems, ax. split; [exists m1; auto|]. split; [exact Hm|].
  intros m' (m1' & E1' & E2'). congruence.
Qed.

Lemma mesh_of_read : forall (O : NumOps) (K : kind O) pts cells (m : mesh O K), mesh_of pts cells m -> mesh_read m.
Proof. intros O K0 pts cells m (m1 & H1 & H2). eapply MeshCells; [|exact H2]. eapply MeshPoints; [constructor|exact H1]. Qed.

Lemma rect_field_new : forall pts cells m data name, rect_mesh pts cells -> mesh_of (K := K) pts cells m ->
  (List.length pts <= List.length data)%nat ->
  exists p0, pf_new (F := scalar_field ROps) name m data 0%R = Ok p0 /\ field_on m data 0%R p0.
Proof.
  intros pts cells m data name Hr Hm Hd. destruct (rect_reads _ _ Hr) as (m0 & elems & ax & H1 & H2 & H3).
  rewrite (H3 _ Hm) in *. destruct (rect_mesh_facts _ _ Hr) as (_ & _ & Hz & Hn).
  eapply (meshed_field (K := K) q_dim q_coords corner2 positive2); eauto.
  eapply mesh_of_read; eauto.
Qed.

(** The corner values of a cell. *)
Lemma cellv_data : forall pts cell lo h (data : list R), cell_rect pts cell lo h -> (List.length pts <= List.length data)%nat ->
  cell_data data cell corners2 (cellv data cell).
Proof.
  intros pts cell lo h data [_ Hc] Hd k Hk. destruct (Hc k Hk) as (n & Hn & Pn). exists n. split; auto.
  assert (B : 0 <= n < Z.of_nat (List.length pts)) by (apply vget_ok_iff; eauto).
  destruct (proj2 (vget_ok_iff _ data n)) as (x & Hx); [lia|]. unfold cellv. rewrite Hn, Hx. auto.
Qed.

Lemma cell_data_fun : forall data cell v v', cell_data data cell corners2 v -> cell_data data cell corners2 v' ->
  forall k, In k corners2 -> v k = v' k.
Proof.
  intros data cell v v' H H' k Hk. destruct (H k Hk) as (n & E1 & E2). destruct (H' k Hk) as (n' & E1' & E2'). congruence.
Qed.

Lemma bilinear_ext : forall lo h v v' r, (forall k, In k corners2 -> v k = v' k) -> bilinear lo h v r = bilinear lo h v' r.
Proof.
  intros lo h v v' r H. unfold bilinear. rewrite (H 0), (H 1), (H 2), (H 3) by (simpl; tauto). reflexivity.
Qed.

Definition shape (lo h : point2) (k : Z) : point2 -> R := it_val (quad_values ROps 0 0 (corner2 lo h k) h k).

Lemma bilinear_sum : forall lo h v r, proper2 h -> rsum (fun k => shape lo h k r * v k)%R corners2 = bilinear lo h v r.
Proof.
  intros lo h v r Hp. unfold shape.
  rewrite (rsum_ext _ _ (fun k => side (fst (unit2 k)) ((fst r - fst lo) / fst h) *
     side (snd (unit2 k)) ((snd r - snd lo) / snd h) * v k)%R).
  2:{ intros k Hk. rewrite shape2_form; auto. }
  unfold bilinear. simpl. rewrite ?side0, ?side1. ring.
Qed.

Lemma kask_quantity : forall q (r lo h : point2) k, proper2 h -> In k corners2 -> on_axes 2 q ->
  quantity2 (shape lo h k) q r (kask (K := K) corner2 q r (lo, h) k).
Proof.
  intros q r lo h k Hp Hk Hq. unfold kask. cbn [fst snd]. destruct q as [|i|i j]; cbn [ask on_axes quantity2] in *.
  - reflexivity.
  - destruct (quad_grad_ok 0 0 (corner2 lo h k) h k r i Hp Hq) as (g & Eg & Hg).
    change (it_grad (kvalues K 0 0 (corner2 lo h k) h k) r i) with (it_grad (quad_values ROps 0 0 (corner2 lo h k) h k) r i).
    rewrite Eg. exact Hg.
  - destruct (quad_hess_ok 0 0 (corner2 lo h k) h k r i j Hp (proj1 Hq) (proj2 Hq)) as (g & Eg & Hg).
    change (it_hess (kvalues K 0 0 (corner2 lo h k) h k) r i j) with (it_hess (quad_values ROps 0 0 (corner2 lo h k) h k) r i j).
    rewrite Eg. exact Hg.
Qed.

(** C18 *)
Lemma rect_field : forall pts cells m data name p0 r, rect_mesh pts cells -> mesh_of (K := K) pts cells m ->
  (List.length pts <= List.length data)%nat -> pf_new (F := scalar_field ROps) name m data 0%R = Ok p0 -> in_mesh2 pts cells r ->
  exists cell lo h v, In cell cells /\ cell_rect pts cell lo h /\ in_rect lo h r /\ cell_data data cell corners2 v /\
    forall hist m' p', field_history (m, p0) hist (m', p') -> forall q, on_axes 2 q ->
      exists s a, field_eval (K := K) q r (m', p') = RRet s a /\ quantity2 (bilinear lo h v) q r a.
Proof.
  intros pts cells m data name p0 r Hr Hof Hd Hp0 (cell & lo & h & Hin & Hcell & Hrect).
  destruct (rect_reads _ _ Hr) as (m0 & elems & ax & H1 & Hm & H3). rewrite <- (H3 _ Hof) in Hm. clear H3 H1 m0.
  destruct (rect_field_new pts cells m data name Hr Hof Hd) as (p1 & Hp1 & Hon).
  assert (p1 = p0) by congruence. subst p1.
  assert (Hj : exists j e, nth_error cells j = Some cell /\ nth_error elems j = Some e /\ gcell (K := K) corner2 positive2 pts cell e).
  { apply In_nth_error in Hin. destruct Hin as (j & Ej). destruct (built_nth _ _ _ _ _ _ _ (md_built _ _ _ _ _ _ _ Hm) Ej) as (e & Ee).
    exists j, e. split; auto. split; auto. exact (nth_gcell _ _ _ _ _ _ _ _ (md_cells _ _ _ _ _ _ _ Hm) Ej Ee). }
  destruct Hj as (j & [lo1 h1] & Ec & Ee & Hg).
  assert (Heq : lo1 = lo /\ h1 = h).
  { apply gcell_rect in Hg. eapply cell_rect_fun; eauto. }
  destruct Heq as [-> ->].
  assert (Hpos : positive2 h) by (destruct Hcell; auto).
  pose proof (proj1 (in_rect_below lo h r Hpos) Hrect) as [Hb1 Hb2].
  destruct (proj2 (quad_range_iff (fun _ => 0) 0 lo h r Hpos) Hrect) as (k & Hk & Hkr).
  destruct (element_accepts (K := K) q_coords corner2 hi2 positive2 q_far q_ends pts cells elems ax m cell (lo, h) r k Hm Hg Hb1 Hb2 Hk Hkr)
    as (Hacc & _ & Hins).
  destruct (field_claimed (K := K) q_dim corner2 hi2 positive2 q_far q_box q_indep pts cells elems ax m data p0 r j (lo, h) Hm
     (quad_answering ROps) Hon Hins Ee Hacc) as (j' & cell' & [lo' h'] & _ & Ec' & _ & Hg' & Hacc' & Hev).
  apply gcell_rect in Hg'.
  assert (Hpos' : positive2 h') by (destruct Hg'; auto).
  exists cell', lo', h', (cellv data cell'). split; [eapply nth_error_In; eauto|]. split; [auto|]. split.
  { apply (quad_range_iff (fun _ => 0) 0 lo' h' r Hpos'). destruct Hacc' as (_ & k' & Hk' & Hr'). exists k'. auto. }
  split; [eapply cellv_data; eauto|].
  intros hist m' p' Hh q Hq. destruct (Hev hist m' p' q Hh Hq) as (s & Es).
  exists s. eexists. split; [exact Es|]. rewrite q_ks.
  apply quantity2_ext with (f := fun p => rsum (fun k => shape lo' h' k p * cellv data cell' k)%R corners2).
  { intros p. apply bilinear_sum. apply positive_proper2; auto. }
  apply quantity2_sum. intros k' Hk'. apply kask_quantity; auto. apply positive_proper2; auto.
Qed.

(** ** C25 *)

Lemma rect_covers : forall pts cells m, rect_mesh pts cells -> mesh_of (K := K) pts cells m ->
  me_node m = pts /\
  (forall i, 0 <= i < 2 -> exists a z, mesh_min m i = Ok a /\ least a (map (fun p => nth2 p i) pts) /\
     mesh_max m i = Ok z /\ greatest z (map (fun p => nth2 p i) pts)) /\
  (forall r, (forall i a z, 0 <= i < 2 -> mesh_min m i = Ok a -> mesh_max m i = Ok z -> (a <= nth2 r i <= z)%R) ->
     (exists l, view (me_bin m) (kcoords K r) = Ok l) /\
     Forall3 (fun a x z => (a < x < z)%R) (bin_min (me_bin m)) (kcoords K r) (bin_max (me_bin m))) /\
  (forall r, in_mesh2 pts cells r -> forall i a z, 0 <= i < 2 -> mesh_min m i = Ok a -> mesh_max m i = Ok z -> (a <= nth2 r i <= z)%R).
Proof.
  intros pts cells m Hr Hof. destruct (rect_reads _ _ Hr) as (m0 & elems & ax & H1 & Hm & H3). rewrite <- (H3 _ Hof) in Hm. clear H3 H1 m0.
  destruct (rect_mesh_facts _ _ Hr) as (_ & _ & Hz & _).
  split; [exact (md_node _ _ _ _ _ _ _ Hm)|].
  pose proof (md_axes _ _ _ _ _ _ _ Hm) as Hax. pose proof Hax as (HA & _ & HF).
  pose proof (md_min _ _ _ _ _ _ _ Hm) as Emin. pose proof (md_max _ _ _ _ _ _ _ Hm) as Emax.
  pose proof (axes_length _ _ Hax) as Hl. simpl in Hl.
  destruct ax as [|a0 [|a1 [|? ?]]]; simpl in Hl; try discriminate.
  simpl in HF. inversion HF as [|? ? ? ? [L0 G0] HF']; subst. inversion HF' as [|? ? ? ? [L1 G1] _]; subst.
  assert (M : forall i, 0 <= i < 2 -> mesh_min m i = Ok (if i =? 0 then ax_lo a0 else ax_lo a1) /\
                         mesh_max m i = Ok (if i =? 0 then ax_hi a0 else ax_hi a1)).
  { intros i Hi. unfold mesh_min, mesh_max. rewrite Emin, Emax. assert (i = 0 \/ i = 1) as [->| ->] by lia; split; reflexivity. }
  split; [|split].
  - intros i Hi. destruct (M i Hi) as [M1 M2]. exists (if i =? 0 then ax_lo a0 else ax_lo a1), (if i =? 0 then ax_hi a0 else ax_hi a1).
    split; [auto|]. rewrite M2. assert (i = 0 \/ i = 1) as [->| ->] by lia; simpl; auto.
  - intros r Hw.
    assert (W : within [a0; a1] (kcoords K r)).
    { destruct (M 0) as [M1 M2]; [lia|]. destruct (M 1) as [M3 M4]; [lia|].
      pose proof (Hw 0 _ _ ltac:(lia) M1 M2). pose proof (Hw 1 _ _ ltac:(lia) M3 M4). simpl in *.
      constructor; [auto|]. constructor; [auto|]. constructor. }
    pose proof (within_inside _ _ HA W) as Hins. split.
    + rewrite (md_view _ _ _ _ _ _ _ Hm (kcoords K r) Hins). eauto.
    + pose proof (axes_grid (K := K) q_dim q_coords _ _ Hax Hz) as Hgrid.
      destruct (reachable_inv _ _ _ _ Hgrid _ (md_bin _ _ _ _ _ _ _ Hm)) as (mx & Hinv & Hg & _).
      rewrite (BinP.inv_min _ _ _ _ _ Hinv), (BinP.inv_max _ _ _ _ _ Hinv).
      pose proof (good_within _ _ HA W) as G. clear -G Hg.
      simpl in *. inversion G as [|? ? ? ? ? ? ? ? E0 G']; subst. inversion G' as [|? ? ? ? ? ? ? ? E1 _]; subst.
      inversion Hg as [|? ? ? z0 ? ? ? mx' D0 Hg']; subst. inversion Hg' as [|? ? ? z1 ? ? ? mx2 D1 Hg2]; subst.
      inversion Hg2; subst. repeat (constructor; [assumption|]). constructor.
  - intros r (cell & lo & h & Hin & Hcell & Hrect) i a z Hi Ha Hza.
    destruct (element_within (K := K) q_coords corner2 hi2 positive2 q_far q_ends pts [a0; a1] cell (lo, h) Hax (proj2 (gcell_rect _ _ _ _) Hcell)) as [W1 W2].
    assert (Hpos : positive2 h) by (destruct Hcell; auto).
    destruct (proj1 (in_rect_below lo h r Hpos) Hrect) as [B1 B2].
    pose proof (between_within _ _ _ _ W1 W2 B1 B2) as W.
    inversion W as [|? ? ? ? V0 W']; subst. inversion W' as [|? ? ? ? V1 _]; subst.
    destruct (M i Hi) as [M1 M2]. rewrite M1 in Ha. rewrite M2 in Hza. injection Ha as <-. injection Hza as <-.
    assert (i = 0 \/ i = 1) as [->| ->] by lia; simpl; auto.
Qed.

End Rect.
