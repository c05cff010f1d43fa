(** Meshes read from points and cells, over the reals. *)
From Coq Require Import ZArith List Bool Lia ZifyBool Reals Lra.
From Flocq Require Import Core.
From Verif Require Import Model.Outcome Model.Num Model.NumInst Model.PNDArray Model.Bin Model.PSimple Model.Interpolator
  Model.Quad Model.Hexahedron Model.Mesh Model.PField.
From Verif Require Import Spec.Tensor Spec.NDHistory Spec.Grid Spec.Funcs Spec.Shape Spec.Fields.
From Verif Require Import Proofs.OutcomeP Proofs.PNDArrayP Proofs.BinP Proofs.BinRP Proofs.BinLaterP Proofs.MeshP Proofs.FieldP
  Proofs.MeshReadP Proofs.AxisP.
Import ListNotations.
Local Open Scope Z_scope.

Lemma Forall2_len : forall (A B : Type) (P : A -> B -> Prop) l l', Forall2 P l l' -> List.length l = List.length l'.
Proof. intros A B P l l' H; induction H; simpl; auto. Qed.

Lemma Forall2_and : forall (A B : Type) (P Q : A -> B -> Prop) l l', Forall2 P l l' -> Forall2 Q l l' ->
  Forall2 (fun a b => P a b /\ Q a b) l l'.
Proof. intros A B P Q l l' H; induction H; intros H'; inversion H'; subst; constructor; auto. Qed.

Lemma Forall2_in_r : forall (A B : Type) (P : A -> B -> Prop) l l' b, Forall2 P l l' -> In b l' -> exists a, In a l /\ P a b.
Proof.
  intros A B P l l' b H; induction H as [|a b' l l' H1 H IH]; intros Hb; [destruct Hb|].
  destruct Hb as [->|Hb]; [exists a; simpl; auto|]. destruct (IH Hb) as (a' & Ha & HP). exists a'; simpl; auto.
Qed.

Lemma Forall2_in_l : forall (A B : Type) (P : A -> B -> Prop) l l' a, Forall2 P l l' -> In a l -> exists b, In b l' /\ P a b.
Proof.
  intros A B P l l' a H; induction H as [|a' b l l' H1 H IH]; intros Ha; [destruct Ha|].
  destruct Ha as [->|Ha]; [exists b; simpl; auto|]. destruct (IH Ha) as (b' & Hb & HP). exists b'; simpl; auto.
Qed.

Lemma vget_in : forall (A : Type) (l : list A) i a, vget l i = Ok a -> In a l.
Proof. intros A l i a H. apply vget_some in H. destruct H as [_ H]. eapply nth_error_In; eauto. Qed.

Lemma omap_total : forall (A B : Type) (f : A -> outcome B) l, (forall a, In a l -> exists b, f a = Ok b) ->
  exists r, omap f l = Ok r.
Proof.
  intros A B f l. induction l as [|a l IH]; intros H; simpl; [eauto|].
  destruct (H a (or_introl eq_refl)) as (b & ->). destruct IH as (r & ->); [intros; apply H; simpl; auto|].
  simpl. eauto.
Qed.

(** ** Cell numbers *)

Fixpoint cellof (mn inc c : list R) : list Z :=
  match mn, inc, c with
  | a :: mn', h :: inc', x :: c' => Zfloor ((x - a) / h) :: cellof mn' inc' c'
  | _, _, _ => []
  end.

Fixpoint boxb (lo hi t : list Z) : bool :=
  match lo, hi, t with
  | [], [], [] => true
  | l :: lo', h :: hi', k :: t' => (l <=? k) && (k <=? h) && boxb lo' hi' t'
  | _, _, _ => false
  end.

Lemma boxb_iff : forall lo hi t, boxb lo hi t = true <-> Forall3 (fun l h k => l <= k <= h) lo hi t.
Proof.
  induction lo as [|l lo IH]; intros [|h hi] [|k t]; simpl;
    try (split; [discriminate|intros H; inversion H]).
  - split; auto. intros _; constructor.
  - rewrite !andb_true_iff, IH. split.
    + intros [H1 H2]. constructor; auto. lia.
    + intros H; inversion H; subst. split; auto. lia.
Qed.

Lemma in_cell_cellof : forall mn inc N c, Forall (fun h => (0 < h)%R) inc -> inside mn inc N c ->
  in_cell mn inc (cellof mn inc c) c.
Proof.
  intros mn inc N c Hh H. induction H as [|a h n x mn inc N c Hx H IH]; simpl; [constructor|].
  inversion Hh; subst. constructor; [|apply IH; auto]. apply floor_cell; auto.
Qed.

Lemma cellof_le : forall mn inc c c', Forall (fun h => (0 < h)%R) inc -> List.length mn = List.length c ->
  List.length inc = List.length c -> below c c' -> Forall2 Z.le (cellof mn inc c) (cellof mn inc c').
Proof.
  induction mn as [|a mn IH]; intros [|h inc] c c' Hh L1 L2 H; inversion H as [|x x' c1 c1' Hx Hc]; subst; simpl in *;
    try discriminate; try constructor.
  - apply Zfloor_le. inversion Hh; subst. unfold Rdiv. apply Rmult_le_compat_r; [|lra].
    left. apply Rinv_0_lt_compat; auto.
  - inversion Hh; subst. apply IH; auto.
Qed.

Lemma boxb_between : forall lo hi t, Forall2 Z.le lo t -> Forall2 Z.le t hi -> boxb lo hi t = true.
Proof.
  intros lo hi t H. revert hi. induction H as [|l k lo t Hl H IH]; intros hi H'; inversion H' as [|? h ? hi' Hh H2]; subst; simpl; auto.
  rewrite IH by auto. rewrite andb_true_r. lia.
Qed.

(** ** Axes *)

Definition axis_good (a : axis ROps) : Prop :=
  exists n, 0 < n /\ (ax_lo a < ax_hi a)%R /\ ax_N a = n + 2 /\ ax_incr a = ((ax_hi a - ax_lo a) / IZR n)%R /\
    ax_min a = (ax_lo a - ax_incr a)%R.

(** Between the extreme coordinates on every axis. *)
Definition within (ax : list (axis ROps)) (c : list R) : Prop :=
  Forall2 (fun a x => (ax_lo a <= x <= ax_hi a)%R) ax c.

Lemma good_within : forall ax c, Forall axis_good ax -> within ax c ->
  Forall4 (fun a h n x => (a < x < a + h * IZR n)%R) (map ax_min ax) (map ax_incr ax) (map ax_N ax) c.
Proof.
  intros ax c Hg H. induction H as [|a x ax c Hx H IH]; simpl; [constructor|].
  inversion Hg as [|? ? Ha Hg']; subst. constructor; [|apply IH; auto].
  destruct Ha as (n & Hn & Hlt & HN & Hi & Hm). rewrite Hm, HN, Hi.
  apply (axis_covers _ _ n x Hlt Hn Hx).
Qed.

Lemma within_inside : forall ax c, Forall axis_good ax -> within ax c ->
  inside (map ax_min ax) (map ax_incr ax) (map ax_N ax) c.
Proof.
  intros ax c Hg H. pose proof (good_within ax c Hg H) as G. unfold inside.
  clear -G. induction G; constructor; auto. lra.
Qed.

Lemma good_incr : forall ax, Forall axis_good ax -> Forall (fun h => (0 < h)%R) (map ax_incr ax).
Proof.
  intros ax H. apply Forall_map. eapply Forall_impl; [|exact H].
  intros a (n & Hn & Hlt & HN & Hi & Hm). simpl. rewrite Hi.
  apply Rdiv_lt_0_compat; [lra|apply IZR_lt; auto].
Qed.

Lemma distinct_two : forall (l : list R) a z, 2 <= distinct l -> least a l -> greatest z l -> (a < z)%R.
Proof.
  intros l a z H [A1 A2] [B1 B2]. destruct (Rlt_or_le a z) as [Hl|Hl]; auto. exfalso.
  assert (E : forall x, In x l -> x = a) by (intros x Hx; specialize (A2 x Hx); specialize (B2 x Hx); lra).
  unfold distinct in H. pose proof (NoDup_nodup Req_EM_T l) as Hn.
  assert (E' : forall x, In x (nodup Req_EM_T l) -> x = a) by (intros x Hx; apply E; eapply nodup_In; eauto).
  destruct (nodup Req_EM_T l) as [|x [|y r]]; simpl in *; try lia.
  inversion Hn as [|? ? Hx _]; subst. apply Hx. left.
  rewrite (E' x), (E' y); auto.
Qed.

Lemma distinct_two_of : forall (l : list R) x y, In x l -> In y l -> x <> y -> 2 <= distinct l.
Proof.
  intros l x y Hx Hy Hn. unfold distinct.
  apply (nodup_In Req_EM_T) in Hx. apply (nodup_In Req_EM_T) in Hy.
  destruct (nodup Req_EM_T l) as [|a [|b r]]; simpl in *; try lia.
  destruct Hx as [<-|[]]. destruct Hy as [<-|[]]. congruence.
Qed.

Lemma list_as_map : forall (A : Type) (d : A) l n, List.length l = n -> l = map (fun j => nth j l d) (seq 0 n).
Proof.
  intros A d l n <-. induction l as [|x l IH]; simpl; auto. f_equal. rewrite <- seq_shift, map_map. exact IH.
Qed.

Section Real.
Context {K : kind ROps}.
Local Notation P := (kpoint K).
Local Notation ip := (interp ROps P).
Hypothesis Hdim : (0 < kdim K)%nat.
Hypothesis Hcoords : forall p : P, List.length (kcoords K p) = kdim K.

Definition grid_shape (pts : list P) : list Z := map (fun j => distinct (column pts j) + 2) (seq 0 (kdim K)).

(** What the axes of the points are. *)
Definition axes_of (pts : list P) (ax : list (axis ROps)) : Prop :=
  Forall axis_good ax /\ map ax_N ax = grid_shape pts /\
  Forall2 (fun j a => least (ax_lo a) (column pts j) /\ greatest (ax_hi a) (column pts j)) (seq 0 (kdim K)) ax.

Lemma axes_length : forall pts ax, axes_of pts ax -> List.length ax = kdim K.
Proof. intros pts ax (_ & _ & H). apply Forall2_len in H. rewrite seq_length in H. auto. Qed.

Lemma grid_shape_proper : forall pts, zprod (grid_shape pts) <= int_max -> proper_shape (grid_shape pts).
Proof.
  intros pts H. split; [|split; auto].
  - unfold grid_shape. destruct (kdim K); [lia|]. simpl. congruence.
  - unfold grid_shape. apply Forall_map, Forall_forall. intros j _. simpl. unfold distinct. lia.
Qed.

Lemma axes_grid : forall pts ax, axes_of pts ax -> zprod (grid_shape pts) <= int_max ->
  proper_grid (map ax_min ax) (map ax_incr ax) (map ax_N ax).
Proof.
  intros pts ax (H1 & H2 & _) Hz. split; [rewrite H2; apply grid_shape_proper; auto|].
  split; [rewrite !map_length; auto|]. split; [rewrite !map_length; auto|]. apply good_incr; auto.
Qed.

Lemma points_axes : forall pts, pts <> [] -> (forall j, (j < kdim K)%nat -> 2 <= distinct (column pts j)) ->
  zprod (grid_shape pts) <= int_max ->
  exists ax, omap (fun j => axis_grid (column pts j)) (seq 0 (kdim K)) = Ok ax /\ axes_of pts ax.
Proof.
  intros pts Hne H2 Hz.
  assert (Hax : forall j, (j < kdim K)%nat -> exists a, axis_grid (column pts j) = Ok a /\ axis_good a /\
             ax_N a = distinct (column pts j) + 2 /\
             least (ax_lo a) (column pts j) /\ greatest (ax_hi a) (column pts j)).
  { intros j Hj. pose proof (shape_entries_le _ (grid_shape_proper pts Hz)) as Hs.
    assert (Hn : distinct (column pts j) + 2 <= int_max).
    { rewrite Forall_forall in Hs. unfold int_max. apply (Hs (distinct (column pts j) + 2)).
      unfold grid_shape. apply in_map_iff. exists j. split; auto. apply in_seq. lia. }
    destruct (column pts j) as [|u l] eqn:E.
    { destruct pts; [congruence|discriminate]. }
    rewrite <- E in *. destruct (axis_grid_spec (column pts j) u) as (a & z & Ha & Hz' & Hg); auto.
    { rewrite E; simpl; auto. }
    eexists. split; [exact Hg|]. simpl.
    split; [|auto]. specialize (H2 j Hj). exists (distinct (column pts j)). simpl.
    split; [lia|]. split; [eapply distinct_two; eauto|]. split; auto. }
  destruct (omap_total _ _ (fun j => axis_grid (column pts j)) (seq 0 (kdim K))) as (ax & Hom).
  { intros j Hj. apply in_seq in Hj. destruct (Hax j) as (a & Ha & _); [lia|eauto]. }
  exists ax. split; auto. apply omap_ok in Hom.
  assert (HF : Forall2 (fun j a => axis_good a /\ ax_N a = distinct (column pts j) + 2 /\
             least (ax_lo a) (column pts j) /\ greatest (ax_hi a) (column pts j)) (seq 0 (kdim K)) ax).
  { assert (Hin : forall j, In j (seq 0 (kdim K)) -> (j < kdim K)%nat) by (intros j Hj; apply in_seq in Hj; lia).
    clear -Hom Hax Hin. induction Hom as [|j a js ax H Hs IH]; constructor.
    - destruct (Hax j) as (a' & E & R); [apply Hin; simpl; auto|].
      assert (a' = a) by (rewrite H in E; injection E as ->; auto). subst a'. exact R.
    - apply IH. intros; apply Hin; simpl; auto. }
  split; [|split].
  - clear -HF. induction HF as [|? ? ? ? H]; constructor; tauto.
  - unfold grid_shape. clear -HF. induction HF as [|? ? ? ? H]; simpl; auto. f_equal; tauto.
  - clear -HF. induction HF as [|? ? ? ? H]; constructor; tauto.
Qed.

Lemma point_within : forall pts ax p, axes_of pts ax -> In p pts -> within ax (kcoords K p).
Proof.
  intros pts ax p (_ & _ & H) Hp. rewrite (list_as_map _ 0%R (kcoords K p) (kdim K) (Hcoords p)).
  clear -H Hp. unfold within. generalize dependent ax. generalize (seq 0 (kdim K)) as js.
  intros js ax H. induction H as [|j a js ax [[A1 A2] [B1 B2]] H IH]; simpl; constructor; auto.
  assert (In (nth j (kcoords K p) 0%R) (column pts j)).
  { unfold column. apply in_map_iff. exists p. auto. }
  split; auto.
Qed.

(** Points between two points of the mesh. *)
Lemma between_within : forall ax c c' x, within ax c -> within ax c' -> below c x -> below x c' -> within ax x.
Proof.
  unfold within, below. intros ax c c' x H. revert c' x. induction H as [|a u ax c Hu H IH]; intros c' x Hc' Hcx Hxc.
  - inversion Hcx; subst. constructor.
  - inversion Hcx as [|? y ? x' Hy Hx]; subst. inversion Hxc as [|? v ? c1 Hv Hc]; subst.
    inversion Hc' as [|? ? ? ? Hv2 Hc2]; subst. constructor; [lra|]. eapply IH; eauto.
Qed.

(** ** Binning the interpolators *)

Definition teq (x y : ip) : bool := false.

Definition cov (mn inc : list R) (c : list R) (it : ip) : bool :=
  boxb (cellof mn inc (kcoords K (it_min it))) (cellof mn inc (kcoords K (it_max it))) (cellof mn inc c).

Lemma range_loop : forall mn inc N, proper_grid mn inc N -> forall (its : list ip) (m : mesh ROps K),
  bin_reachable teq mn inc N (me_bin m) ->
  Forall (fun it => inside mn inc N (kcoords K (it_min it)) /\ inside mn inc N (kcoords K (it_max it)) /\
                    below (kcoords K (it_min it)) (kcoords K (it_max it))) its ->
  exists b, mfor its (fun it => on_bin (bin_add_range it (kcoords K (it_min it)) (kcoords K (it_max it)))) m =
            RRet (mkMesh (me_min m) (me_max m) (me_node m) (me_interp m) b) tt /\
    bin_reachable teq mn inc N b /\
    forall c, inside mn inc N c -> exists l, view (me_bin m) c = Ok l /\ view b c = Ok (l ++ filter (cov mn inc c) its).
Proof.
  intros mn inc N Hgrid. destruct Hgrid as (HN & L1 & L2 & Hh).
  assert (Hgrid : proper_grid mn inc N) by (repeat split; auto; apply HN).
  induction its as [|it its IH]; intros m Hr Hf.
  - exists (me_bin m). split; [destruct m; reflexivity|]. split; auto. intros c Hc.
    destruct (bin_contents_spec teq mn inc N Hgrid (me_bin m) c Hr Hc) as (b' & l & Hb & _).
    exists l. unfold view. rewrite Hb. simpl. rewrite app_nil_r. auto.
  - inversion Hf as [|? ? (I1 & I2 & I3) Hf']; subst.
    destruct (bin_add_range_spec teq mn inc N Hgrid (me_bin m) it _ _ Hr I1 I2 I3) as (b1 & Hb1 & Hr1 & Hv1).
    destruct (IH (mkMesh (me_min m) (me_max m) (me_node m) (me_interp m) b1) Hr1 Hf') as (b & Hb & Hrb & Hvb).
    exists b. split.
    { cbn [mfor]. unfold mbind at 1. unfold on_bin at 1. rewrite Hb1. exact Hb. }
    split; auto. intros c Hc.
    destruct (Hv1 c _ _ _ Hc (in_cell_cellof _ _ _ _ Hh Hc) (in_cell_cellof _ _ _ _ Hh I1) (in_cell_cellof _ _ _ _ Hh I2))
      as (l & Hl & Hyes & Hno).
    exists l. split; auto. destruct (Hvb c Hc) as (l1 & Hl1 & Hl2). simpl in Hl1.
    cbn [filter]. unfold cov at 1.
    destruct (boxb _ _ _) eqn:E.
    + apply boxb_iff in E. specialize (Hyes E). rewrite Hl1 in Hyes. injection Hyes as ->.
      rewrite Hl2, <- app_assoc. reflexivity.
    + assert (Hn : ~ Forall3 (fun kl kh k => kl <= k <= kh) (cellof mn inc (kcoords K (it_min it)))
                     (cellof mn inc (kcoords K (it_max it))) (cellof mn inc c)).
      { intros HF. apply boxb_iff in HF. congruence. }
      specialize (Hno Hn). rewrite Hl1 in Hno. injection Hno as ->. auto.
Qed.

(** ** Cells *)

Variable corner : P -> P -> Z -> P.
Variable hi : P -> P -> P.
Variable pos : P -> Prop.
Definition ks : list Z := map Z.of_nat (seq 0 (kcorners K)).
Hypothesis Hfar : In (kfar K) ks /\ In 0 ks.
Hypothesis Hdiff : forall lo h, kdiff K (corner lo h (kfar K)) (corner lo h 0) = h.
Hypothesis Hbox : forall nd el lo h k, In k ks ->
  it_node (kvalues K nd el (corner lo h k) h k) = nd /\ it_elem (kvalues K nd el (corner lo h k) h k) = el /\
  it_min (kvalues K nd el (corner lo h k) h k) = lo /\ it_max (kvalues K nd el (corner lo h k) h k) = hi lo h.
Hypothesis Hends : forall lo h, corner lo h 0 = lo /\ corner lo h (kfar K) = hi lo h.
Hypothesis Hpos : forall lo h, pos h -> Forall2 Rlt (kcoords K lo) (kcoords K (hi lo h)).

Definition gcell (pts : list P) (cell : list Z) (e : P * P) : Prop :=
  pos (snd e) /\ forall k, In k ks -> exists n, vget cell k = Ok n /\ vget pts n = Ok (corner (fst e) (snd e) k).

(** The interpolators of cell [i]. *)
Definition block (i : Z) (cell : list Z) (e : P * P) (its : list ip) : Prop :=
  Forall2 (fun k it => In k ks /\ exists n, vget cell k = Ok n /\ it = kvalues K n i (corner (fst e) (snd e) k) (snd e) k) ks its.

Inductive built : Z -> list (list Z) -> list (P * P) -> list ip -> Prop :=
| BuiltNil : forall i, built i [] [] []
| BuiltCons : forall i cell e cells elems its rest, block i cell e its -> built (i + 1) cells elems rest ->
    built i (cell :: cells) (e :: elems) (its ++ rest).

Lemma cell_interp_block : forall pts i cell e, gcell pts cell e -> exists its, cell_interp pts i cell = Ok its /\ block i cell e its.
Proof.
  intros pts i cell [lo h] [Hp Hc]. simpl in *. destruct Hfar as [F1 F0].
  destruct (Hc _ F1) as (nf & Ef & Pf). destruct (Hc _ F0) as (n0 & E0 & P0).
  unfold cell_interp. rewrite Ef. cbn [obind]. rewrite Pf. cbn [obind]. rewrite E0. cbn [obind]. rewrite P0. cbn [obind].
  rewrite Hdiff.
  destruct (omap_total _ _ (fun j : nat => let* cj := vget cell (Z.of_nat j) in let* pj := vget pts cj in
     Ok (kvalues K cj i pj h (Z.of_nat j))) (seq 0 (kcorners K))) as (its & Hits).
  { intros j Hj. destruct (Hc (Z.of_nat j)) as (n & E & Pn); [apply in_map; auto|]. rewrite E. cbn [obind].
    rewrite Pn. cbn [obind]. eauto. }
  exists its. split; auto. apply omap_ok in Hits. unfold block.
  assert (Hin : forall j, In j (seq 0 (kcorners K)) -> In (Z.of_nat j) ks) by (intros; apply in_map; auto).
  change ks with (map Z.of_nat (seq 0 (kcorners K))) at 2.
  revert Hits Hin. generalize (seq 0 (kcorners K)) as js. intros js Hits Hin.
  induction Hits as [|j it js its H Hs IH]; simpl; constructor.
  - split; [apply Hin; simpl; auto|]. destruct (Hc (Z.of_nat j)) as (n & E & Pn); [apply Hin; simpl; auto|].
    exists n. split; auto. rewrite E in H. cbn [obind] in H. rewrite Pn in H. cbn [obind] in H.
    injection H as <-. reflexivity.
  - apply IH. intros; apply Hin; simpl; auto.
Qed.

Lemma cells_loop_built : forall pts cells elems, Forall2 (gcell pts) cells elems -> forall i (m : mesh ROps K), me_node m = pts ->
  exists its, cells_loop i cells m = RRet (mkMesh (me_min m) (me_max m) (me_node m) (me_interp m ++ its) (me_bin m)) tt /\
    built i cells elems its.
Proof.
  intros pts cells elems H. induction H as [|cell e cells elems Hc H IH]; intros i m Hm.
  - exists []. rewrite app_nil_r. split; [destruct m; reflexivity|constructor].
  - destruct (cell_interp_block pts i cell e Hc) as (its & E & B).
    destruct (IH (i + 1) (mkMesh (me_min m) (me_max m) (me_node m) (me_interp m ++ its) (me_bin m)) Hm) as (rest & R & BR).
    exists (its ++ rest). split; [|constructor; auto].
    cbn [cells_loop]. unfold mbind, mget, mlift, mput. rewrite Hm, E. rewrite <- Hm. rewrite R. simpl. rewrite app_assoc. reflexivity.
Qed.

Lemma built_cell : forall i cells elems its it, built i cells elems its -> In it its ->
  exists j cell e blk, nth_error cells j = Some cell /\ nth_error elems j = Some e /\ block (i + Z.of_nat j) cell e blk /\
    In it blk.
Proof.
  intros i cells elems its it H. induction H as [i|i cell e cells elems blk rest B H IH]; intros Hit; [destruct Hit|].
  apply in_app_or in Hit. destruct Hit as [Hit|Hit].
  - exists 0%nat, cell, e, blk. rewrite Z.add_0_r. auto.
  - destruct (IH Hit) as (j & c' & e' & blk' & H1 & H2 & H3 & H4). exists (S j), c', e', blk'.
    replace (i + Z.of_nat (S j)) with (i + 1 + Z.of_nat j) by lia. auto.
Qed.

Lemma block_item : forall i cell e blk it, block i cell e blk -> In it blk ->
  it_elem it = i /\ it_min it = fst e /\ it_max it = hi (fst e) (snd e) /\
  exists k n, In k ks /\ vget cell k = Ok n /\ it = kvalues K n i (corner (fst e) (snd e) k) (snd e) k /\ it_node it = n.
Proof.
  intros i cell e blk it B Hit. destruct (Forall2_in_r _ _ _ _ _ _ B Hit) as (k & _ & Hk & n & Hn & ->).
  destruct (Hbox n i (fst e) (snd e) k Hk) as (A1 & A2 & A3 & A4). eauto 10.
Qed.

Lemma filter_length_le : forall (A : Type) (f : A -> bool) l, (List.length (filter f l) <= List.length l)%nat.
Proof. intros A f l. induction l as [|x l IH]; simpl; auto. destruct (f x); simpl; lia. Qed.

Lemma filter_all : forall (A : Type) (f : A -> bool) l, (forall x, In x l -> f x = true) -> filter f l = l.
Proof.
  intros A f l. induction l as [|x l IH]; intros H; simpl; auto.
  rewrite (H x (or_introl eq_refl)). f_equal. apply IH. intros; apply H; simpl; auto.
Qed.

Lemma filter_none : forall (A : Type) (f : A -> bool) l, (forall x, In x l -> f x = false) -> filter f l = [].
Proof.
  intros A f l. induction l as [|x l IH]; intros H; simpl; auto.
  rewrite (H x (or_introl eq_refl)). apply IH. intros; apply H; simpl; auto.
Qed.

(** The interpolators with one element number are the block of that element. *)
Lemma built_filter : forall i cells elems its j cell e, built i cells elems its ->
  nth_error cells j = Some cell -> nth_error elems j = Some e ->
  block (i + Z.of_nat j) cell e (filter (fun it => it_elem it =? i + Z.of_nat j) its).
Proof.
  intros i cells elems its j cell e H. revert j. induction H as [i|i c0 e0 cells elems blk rest B H IH]; intros j Hc He.
  - destruct j; discriminate.
  - rewrite filter_app. destruct j as [|j]; simpl in Hc, He.
    + injection Hc as ->. injection He as ->. simpl Z.of_nat. rewrite Z.add_0_r.
      rewrite filter_all, filter_none, app_nil_r; auto.
      * intros it Hit. destruct (built_cell _ _ _ _ _ H Hit) as (j' & c' & e' & blk' & _ & _ & B' & Hin).
        destruct (block_item _ _ _ _ _ B' Hin) as (-> & _). lia.
      * intros it Hit. destruct (block_item _ _ _ _ _ B Hit) as (-> & _). lia.
    + rewrite filter_none; [|intros it Hit; destruct (block_item _ _ _ _ _ B Hit) as (-> & _); lia].
      replace (i + Z.of_nat (S j)) with (i + 1 + Z.of_nat j) by lia. apply IH; auto.
Qed.

Lemma built_nth : forall i cells elems its j cell, built i cells elems its -> nth_error cells j = Some cell ->
  exists e, nth_error elems j = Some e.
Proof.
  intros i cells elems its j cell H. revert j. induction H as [i|i c0 e0 cells elems blk rest B H IH]; intros [|j] Hc; simpl in *; eauto; discriminate.
Qed.

Lemma nth_gcell : forall pts cells elems j cell e, Forall2 (gcell pts) cells elems -> nth_error cells j = Some cell ->
  nth_error elems j = Some e -> gcell pts cell e.
Proof.
  intros pts cells elems j cell e H. revert j. induction H as [|a b l l' H0 H IH]; intros [|j] Ec Ee; simpl in *; try discriminate.
  - congruence.
  - eapply IH; eauto.
Qed.

(** The mesh after reading: nodes, extreme coordinates, interpolators, and what each bin holds. *)
Record meshed (pts : list P) (cells : list (list Z)) (elems : list (P * P)) (ax : list (axis ROps)) (m : mesh ROps K) : Prop := mkMeshed {
  md_axes : axes_of pts ax;
  md_cells : Forall2 (gcell pts) cells elems;
  md_node : me_node m = pts;
  md_min : me_min m = Some (map ax_lo ax);
  md_max : me_max m = Some (map ax_hi ax);
  md_built : built 0 cells elems (me_interp m);
  md_bin : bin_reachable teq (map ax_min ax) (map ax_incr ax) (map ax_N ax) (me_bin m);
  md_view : forall c, inside (map ax_min ax) (map ax_incr ax) (map ax_N ax) c ->
    view (me_bin m) c = Ok (filter (cov (map ax_min ax) (map ax_incr ax) c) (me_interp m))
}.

Lemma element_within : forall pts ax cell e, axes_of pts ax -> gcell pts cell e ->
  within ax (kcoords K (fst e)) /\ within ax (kcoords K (hi (fst e) (snd e))).
Proof.
  intros pts ax cell [lo h] Hax [Hp Hc]. simpl in *. destruct Hfar as [F1 F0]. destruct (Hends lo h) as [E0 E1].
  destruct (Hc _ F1) as (nf & _ & Pf). destruct (Hc _ F0) as (n0 & _ & P0). rewrite E1 in Pf. rewrite E0 in P0.
  split; eapply point_within; eauto; eapply vget_in; eauto.
Qed.

Lemma lt_below : forall c c', Forall2 Rlt c c' -> below c c'.
Proof. intros c c' H; induction H; constructor; auto. lra. Qed.

Lemma mesh_reads : forall pts cells elems, pts <> [] -> (forall j, (j < kdim K)%nat -> 2 <= distinct (column pts j)) ->
  zprod (grid_shape pts) <= int_max -> Forall2 (gcell pts) cells elems ->
  exists ax m1 m, mesh_points pts mesh_new = RRet m1 tt /\ mesh_cells cells m1 = RRet m tt /\ meshed pts cells elems ax m.
Proof.
  intros pts cells elems Hne H2 Hz Hc. destruct (points_axes pts Hne H2 Hz) as (ax & Hom & Hax).
  pose proof (axes_grid pts ax Hax Hz) as Hgrid.
  destruct (bin_make_spec teq _ _ _ Hgrid) as (b & Hb & Hr & Hem).
  set (m1 := @mkMesh ROps K (Some (map ax_lo ax)) (Some (map ax_hi ax)) pts [] b).
  assert (E1 : mesh_points pts mesh_new = RRet m1 tt).
  { unfold mesh_points, mbind, mmod, mlift. rewrite Hom, Hb. reflexivity. }
  destruct (cells_loop_built pts cells elems Hc 0 m1 eq_refl) as (its & Hl & HB).
  set (m2 := @mkMesh ROps K (Some (map ax_lo ax)) (Some (map ax_hi ax)) pts its b).
  destruct (range_loop _ _ _ Hgrid its m2 Hr) as (b' & Hb' & Hr' & Hv).
  { apply Forall_forall. intros it Hit.
    destruct (built_cell _ _ _ _ _ HB Hit) as (j & cell & e & blk & Ec & Ee & B & Hin).
    destruct (block_item _ _ _ _ _ B Hin) as (_ & -> & -> & _).
    assert (Hg : gcell pts cell e).
    { eapply nth_gcell; eauto. }
    destruct (element_within pts ax cell e Hax Hg) as [W1 W2]. destruct Hax as (HA & _).
    split; [apply within_inside; auto|]. split; [apply within_inside; auto|]. apply lt_below, Hpos, Hg. }
  exists ax, m1, (mkMesh (Some (map ax_lo ax)) (Some (map ax_hi ax)) pts its b'). split; auto. split.
  { unfold mesh_cells, mbind, mget. rewrite Hl. exact Hb'. }
  constructor; auto. intros c Hcin. destruct (Hv c Hcin) as (l & Hl1 & Hl2). simpl in Hl1.
  rewrite Hem in Hl1 by auto. injection Hl1 as <-. exact Hl2.
Qed.

(** ** Evaluation *)

Definition contrib (q : quantity) (c : P) (data : list R) (it : ip) : R :=
  match ask q c it, vget data (it_node it) with
  | Ok w, Ok v => (w * v)%R
  | _, _ => 0%R
  end.

Lemma wsum_contrib : forall q c (data : list R) el (its : list ip) ws vs z,
  Forall2 (fun it w => weigh (ask q c) el it = Ok w) its ws -> Forall2 (fun it v => vget data (it_node it) = Ok v) its vs ->
  @eq R (wsum (F := scalar_field ROps) z (combine ws vs))
        (z + rsum (contrib q c data) (filter (fun it => it_elem it =? el) its))%R.
Proof.
  intros q c data el its ws vs z H. revert vs z. induction H as [|it w its ws Hw H IH]; intros vs z Hv.
  - symmetry. apply Rplus_0_r.
  - inversion Hv as [|? v ? vs' Hv0 Hv']; subst. unfold wsum in *. simpl combine. cbn [fold_left].
    rewrite IH by auto. cbn [filter]. unfold weigh in Hw. destruct (it_elem it =? el).
    + simpl rsum. unfold contrib at 2. rewrite Hw, Hv0. simpl. apply Rplus_assoc.
    + injection Hw as <-. simpl. f_equal. eapply eq_trans; [|apply Rplus_0_r]. f_equal. apply Rmult_0_l.
Qed.

Lemma cov_block : forall mn inc c i cell e blk it it', block i cell e blk -> In it blk -> In it' blk ->
  cov mn inc c it = cov mn inc c it'.
Proof.
  intros mn inc c i cell e blk it it' B H H'. unfold cov.
  destruct (block_item _ _ _ _ _ B H) as (_ & -> & -> & _). destruct (block_item _ _ _ _ _ B H') as (_ & -> & -> & _). auto.
Qed.

Lemma filter_filter : forall (A : Type) (f g : A -> bool) l, filter f (filter g l) = filter g (filter f l).
Proof.
  intros A f g l. induction l as [|x l IH]; simpl; auto.
  destruct (g x) eqn:G; destruct (f x) eqn:E; simpl; rewrite ?G, ?E, IH; auto.
Qed.

(** The value of a field at a point whose bin holds an interpolator in range. *)
Lemma field_value : forall pts cells elems ax m data p0 h m' p' q c it0, meshed pts cells elems ax m ->
  answering (K:=K) -> field_on (F := scalar_field ROps) m data 0%R p0 -> inside (map ax_min ax) (map ax_incr ax) (map ax_N ax) (kcoords K c) ->
  find (fun it => it_range it c) (filter (cov (map ax_min ax) (map ax_incr ax) (kcoords K c)) (me_interp m)) = Some it0 ->
  field_history (m, p0) h (m', p') -> on_axes (kdim K) q ->
  exists j cell e blk s, nth_error cells j = Some cell /\ nth_error elems j = Some e /\ gcell pts cell e /\
    block (Z.of_nat j) cell e blk /\ In it0 blk /\
    field_eval q c (m', p') = RRet s (rsum (contrib q c data) blk).
Proof.
  intros pts cells elems ax m data p0 h m' p' q c it0 Hm Ha Hon Hc Hf Hh Hq.
  destruct (find_some _ _ Hf) as [Hin Hrange]. apply filter_In in Hin. destruct Hin as [Hin Hcov].
  destruct (built_cell _ _ _ _ _ (md_built _ _ _ _ _ Hm) Hin) as (j & cell & e & blk & Ec & Ee & B & Hblk).
  pose proof (built_filter _ _ _ _ _ _ _ (md_built _ _ _ _ _ Hm) Ec Ee) as B'. simpl in B, B'.
  destruct (block_item _ _ _ _ _ B Hblk) as (Eel & _).
  set (blk' := filter (fun it => it_elem it =? Z.of_nat j) (me_interp m)) in *.
  assert (Hin' : In it0 blk') by (apply filter_In; split; auto; lia).
  destruct (field_on_ok _ _ _ _ Ha Hon) as [Hok Hfk].
  pose proof (history_ok _ _ _ _ _ _ Hok Hfk Hh) as Hfk'.
  pose proof (field_eval_spec m data 0%R m' p' q c Hok Hfk' Hq) as S.
  rewrite (md_view _ _ _ _ _ Hm) in S by auto. destruct S as (m2 & p2 & a & S & _ & R & _).
  unfold result_is in R. rewrite Hf in R. destruct R as (ws & vs & R1 & R2 & ->).
  assert (Ed : pf_field p' = data) by exact (fk_field _ _ _ _ Hfk').
  assert (Ez : pf_zero p' = 0%R) by exact (fk_zero _ _ _ _ Hfk').
  rewrite Ed in R2. rewrite Ez in S. rewrite (wsum_contrib _ _ _ _ _ _ _ _ R1 R2) in S. rewrite Eel in S.
  rewrite filter_filter in S. fold blk' in S.
  rewrite (filter_all _ (cov _ _ _) blk') in S.
  2:{ intros it Hit. rewrite <- (cov_block _ _ _ _ _ _ _ _ _ B' Hin' Hit). exact Hcov. }
  rewrite Rplus_0_l in S.
  exists j, cell, e, blk', (m2, p2). split; [auto|]. split; [auto|]. split; [|auto].
  exact (nth_gcell _ _ _ _ _ _ (md_cells _ _ _ _ _ Hm) Ec Ee).
Qed.

(** Field construction succeeds. *)
Lemma meshed_field : forall pts cells elems ax m data name, meshed pts cells elems ax m -> mesh_read m ->
  zprod (grid_shape pts) <= int_max -> Z.of_nat (kcorners K) * Z.of_nat (List.length cells) <= int_max ->
  (List.length pts <= List.length data)%nat ->
  exists p0, pf_new (F := scalar_field ROps) name m data 0%R = Ok p0 /\ field_on m data 0%R p0.
Proof.
  intros pts cells elems ax m data name Hm Hr Hz Hn Hd.
  pose proof (axes_grid _ _ (md_axes _ _ _ _ _ Hm) Hz) as Hgrid.
  destruct (reachable_inv teq _ _ _ Hgrid _ (md_bin _ _ _ _ _ Hm)) as (mx & Hinv & Hg & Hs).
  assert (Hmax : exists mx, mesh_max_bin_size m = Ok mx /\ mx <= int_max).
  { destruct (max_size_spec _ _ _ _ _ Hinv) as (sz & Hsz & _ & Hatt). exists sz. split; auto.
    destruct Hatt as (t & l & Ht & Hl & <-).
    destruct (cell_point _ _ _ Hgrid t Ht) as (c & Hc & Hct).
    destruct (inside_view _ _ _ Hgrid mx _ c Hinv Hg Hc) as (t' & Hct' & _ & _ & _ & Hv).
    rewrite (in_cell_fun _ _ _ Hgrid _ _ _ Hct' Hct) in Hv. rewrite (md_view _ _ _ _ _ Hm c Hc), Hl in Hv.
    injection Hv as <-.
    eapply Z.le_trans; [|exact Hn]. eapply Z.le_trans; [apply inj_le, filter_length_le|].
    pose proof (md_built _ _ _ _ _ Hm) as HB. clear -HB. 
    induction HB as [|i cell e cells elems its rest B HB IH]; simpl List.length; [lia|].
    rewrite app_length. apply Forall2_len in B. unfold ks in B. rewrite map_length, seq_length in B. lia. }
  destruct Hmax as (sz & Hsz & Hle).
  eexists. split.
  - unfold pf_new. rewrite Hsz. reflexivity.
  - split; auto. split; [rewrite (md_node _ _ _ _ _ Hm); auto|]. split; [eauto|].
    exists name. unfold pf_new. rewrite Hsz. reflexivity.
Qed.

(** ** The element used *)

Definition cellv (data : list R) (cell : list Z) (k : Z) : R :=
  match vget cell k with
  | Ok n => match vget data n with Ok x => x | _ => 0%R end
  | _ => 0%R
  end.

Definition kask (q : quantity) (c : P) (e : P * P) (k : Z) : R :=
  match ask q c (kvalues K 0 0 (corner (fst e) (snd e) k) (snd e) k) with Ok w => w | _ => 0%R end.

Hypothesis Hindep : forall nd el p h k,
  (forall q c, ask q c (kvalues K nd el p h k) = ask q c (kvalues K 0 0 p h k)) /\
  (forall c, it_range (kvalues K nd el p h k) c = it_range (kvalues K 0 0 p h k) c).

Lemma block_sum : forall i cell e blk q c data, block i cell e blk ->
  rsum (contrib q c data) blk = rsum (fun k => kask q c e k * cellv data cell k)%R ks.
Proof.
  intros i cell e blk q c data B. unfold block in B. revert B. generalize ks at 2 3. intros js B.
  induction B as [|k it js its (Hk & n & Hn & ->) B IH]; simpl; auto. f_equal; auto.
  unfold contrib, kask, cellv. rewrite (proj1 (Hindep n i (corner (fst e) (snd e) k) (snd e) k)), Hn.
  destruct (Hbox n i (fst e) (snd e) k Hk) as (-> & _).
  destruct (ask q c _) as [w| | | |]; destruct (vget data n); ring.
Qed.

Lemma find_least : forall i cells elems its (f : ip -> bool) it0 it, built i cells elems its -> find f its = Some it0 ->
  In it its -> f it = true -> it_elem it0 <= it_elem it.
Proof.
  intros i cells elems its f it0 it H. induction H as [i|i cell e cells elems blk rest B H IH]; intros Hf Hin Hit; [destruct Hin|].
  destruct (find f blk) as [x|] eqn:E.
  - assert (x = it0).
    { clear -E Hf. induction blk as [|y blk IH]; simpl in *; [discriminate|]. destruct (f y); [congruence|auto]. }
    subst x. apply find_some in E. destruct E as [E _]. destruct (block_item _ _ _ _ _ B E) as (-> & _).
    apply in_app_or in Hin. destruct Hin as [Hin|Hin].
    + destruct (block_item _ _ _ _ _ B Hin) as (-> & _). lia.
    + destruct (built_cell _ _ _ _ _ H Hin) as (j & c' & e' & blk' & _ & _ & B' & Hb').
      destruct (block_item _ _ _ _ _ B' Hb') as (-> & _). lia.
  - apply in_app_or in Hin. destruct Hin as [Hin|Hin].
    + rewrite (find_none _ _ E it Hin) in Hit. discriminate.
    + apply IH; auto. clear -E Hf. induction blk as [|y blk IH]; simpl in *; [auto|]. destruct (f y); [discriminate|auto].
Qed.

Lemma find_filter : forall (A : Type) (f g : A -> bool) l, find f (filter g l) = find (fun x => g x && f x) l.
Proof.
  intros A f g l. induction l as [|x l IH]; simpl; auto. destruct (g x); simpl; [destruct (f x); auto|auto].
Qed.

(** Element [j] is registered in the bin of [c] and some of its corner tests accepts [c]. *)
Definition accepts (ax : list (axis ROps)) (c : P) (e : P * P) : Prop :=
  boxb (cellof (map ax_min ax) (map ax_incr ax) (kcoords K (fst e)))
       (cellof (map ax_min ax) (map ax_incr ax) (kcoords K (hi (fst e) (snd e))))
       (cellof (map ax_min ax) (map ax_incr ax) (kcoords K c)) = true /\
  exists k, In k ks /\ it_range (kvalues K 0 0 (corner (fst e) (snd e) k) (snd e) k) c = true.

Lemma field_claimed : forall pts cells elems ax m data p0 c j e, meshed pts cells elems ax m ->
  answering (K:=K) -> field_on (F := scalar_field ROps) m data 0%R p0 ->
  inside (map ax_min ax) (map ax_incr ax) (map ax_N ax) (kcoords K c) ->
  nth_error elems j = Some e -> accepts ax c e ->
  exists j' cell' e', (forall j2 e2, nth_error elems j2 = Some e2 -> accepts ax c e2 -> (j' <= j2)%nat) /\ nth_error cells j' = Some cell' /\ nth_error elems j' = Some e' /\
    gcell pts cell' e' /\ accepts ax c e' /\
    forall h m' p' q, field_history (m, p0) h (m', p') -> on_axes (kdim K) q ->
      exists s, field_eval q c (m', p') = RRet s (rsum (fun k => kask q c e' k * cellv data cell' k)%R ks).
Proof.
  intros pts cells elems ax m data p0 c j e Hm Ha Hon Hc Ee Hacc.
  set (f := fun it => cov (map ax_min ax) (map ax_incr ax) (kcoords K c) it && it_range it c).
  pose proof (md_built _ _ _ _ _ Hm) as HB.
  assert (Hfound : forall j e, nth_error elems j = Some e -> accepts ax c e ->
            exists it, In it (me_interp m) /\ it_elem it = Z.of_nat j /\ f it = true).
  { clear j e Ee Hacc. intros j e Ee [Hcv (k & Hk & Hr)].
    assert (Hcell : exists cell, nth_error cells j = Some cell).
    { pose proof (md_cells _ _ _ _ _ Hm) as Hcs. apply Forall2_len in Hcs.
      destruct (nth_error cells j) eqn:E; eauto. apply nth_error_None in E.
      assert (j < List.length elems)%nat by (apply nth_error_Some; congruence). lia. }
    destruct Hcell as (cell & Ec).
    pose proof (built_filter _ _ _ _ _ _ _ HB Ec Ee) as B. simpl in B.
    destruct (Forall2_in_l _ _ _ _ _ _ B Hk) as (it & Hit & _ & n & Hn & Eit).
    destruct (block_item _ _ _ _ _ B Hit) as (Eel & Emin & Emax & _).
    exists it. split; [apply filter_In in Hit; tauto|]. split; [exact Eel|].
    unfold f, cov. rewrite Emin, Emax, Hcv. rewrite Eit. rewrite (proj2 (Hindep n (Z.of_nat j) _ _ k)). exact Hr. }
  destruct (find f (me_interp m)) as [it0|] eqn:Ef.
  2:{ destruct (Hfound _ _ Ee Hacc) as (it & Hit & _ & Hfit). rewrite (find_none _ _ Ef it Hit) in Hfit. discriminate. }
  assert (Hle : forall j2 e2, nth_error elems j2 = Some e2 -> accepts ax c e2 -> it_elem it0 <= Z.of_nat j2).
  { intros j2 e2 E2 A2. destruct (Hfound _ _ E2 A2) as (it & Hit & Eel & Hfit). rewrite <- Eel.
    exact (find_least _ _ _ _ _ _ _ HB Ef Hit Hfit). }
  pose proof (find_some _ _ Ef) as [Hin0 Hf0].
  destruct (built_cell _ _ _ _ _ HB Hin0) as (j' & cell' & e' & blk & Ec' & Ee' & B' & Hblk).
  destruct (block_item _ _ _ _ _ B' Hblk) as (Eel0 & Emin0 & Emax0 & k0 & n0 & Hk0 & Hn0 & Eit0 & _). simpl in B', Eel0, Eit0.
  exists j', cell', e'. split; [intros j2 e2 E2 A2; specialize (Hle j2 e2 E2 A2); lia|]. split; [auto|]. split; [auto|].
  split; [exact (nth_gcell _ _ _ _ _ _ (md_cells _ _ _ _ _ Hm) Ec' Ee')|].
  apply andb_true_iff in Hf0. destruct Hf0 as [Hf1 Hf2].
  split.
  { split.
    - unfold cov in Hf1. rewrite Emin0, Emax0 in Hf1. exact Hf1.
    - exists k0. split; auto. rewrite Eit0 in Hf2. rewrite (proj2 (Hindep n0 (Z.of_nat j') _ _ k0)) in Hf2. exact Hf2. }
  intros h m' p' q Hh Hq.
  destruct (field_value pts cells elems ax m data p0 h m' p' q c it0 Hm Ha Hon Hc) as (j2 & cell2 & e2 & blk2 & s & Ec2 & Ee2 & _ & B2 & Hb2 & Hev); auto.
  { rewrite find_filter. exact Ef. }
  destruct (block_item _ _ _ _ _ B2 Hb2) as (Eel2 & _).
  assert (j2 = j') by lia. subst j2.
  assert (cell2 = cell') by congruence. assert (e2 = e') by congruence. subst cell2 e2.
  exists s. rewrite Hev. f_equal. eapply block_sum; eauto.
Qed.

Lemma element_accepts : forall pts cells elems ax m cell e c k, meshed pts cells elems ax m ->
  gcell pts cell e -> below (kcoords K (fst e)) (kcoords K c) -> below (kcoords K c) (kcoords K (hi (fst e) (snd e))) ->
  In k ks -> it_range (kvalues K 0 0 (corner (fst e) (snd e) k) (snd e) k) c = true ->
  accepts ax c e /\ within ax (kcoords K c) /\ inside (map ax_min ax) (map ax_incr ax) (map ax_N ax) (kcoords K c).
Proof.
  intros pts cells elems ax m cell e c k Hm Hg H1 H2 Hk Hr.
  pose proof (md_axes _ _ _ _ _ Hm) as Hax. pose proof (axes_length _ _ Hax) as Hl.
  pose proof (element_within _ _ _ _ Hax Hg) as [W1 W2]. destruct Hax as (HA & _).
  pose proof (between_within _ _ _ _ W1 W2 H1 H2) as W. pose proof (good_incr _ HA) as Hh.
  split; [split; [|eauto]|split; [auto|apply within_inside; auto]].
  apply boxb_between; apply cellof_le; auto; rewrite ?map_length, ?Hl, ?Hcoords; auto.
Qed.

(** ** Reading the same sections once more *)

Lemma vget_app : forall (A : Type) (l l' : list A) i a, vget l i = Ok a -> vget (l ++ l') i = Ok a.
Proof.
  intros A l l' i a H. apply vget_some in H. destruct H as [H0 H]. unfold vget.
  rewrite nth_error_app1 by (apply nth_error_Some; congruence). rewrite H. destruct (0 <=? i) eqn:E; [reflexivity|clear -H0 E; lia].
Qed.

Lemma axes_fun : forall pts ax ax', axes_of pts ax -> axes_of pts ax' -> ax = ax'.
Proof.
  intros pts ax ax' (H1 & H2 & H3) (H1' & H2' & H3'). rewrite <- H2' in H2. clear H2'.
  revert ax' H1' H2 H3'. induction H3 as [|j a js ax [L G] H3 IH]; intros ax' H1' H2 H3'.
  - inversion H3'; auto.
  - inversion H3' as [|? a' ? ax1 [L' G'] H4]; subst. inversion H1 as [|? ? Ha H1b]; subst. inversion H1' as [|? ? Ha' H1b']; subst.
    simpl in H2. injection H2 as E2 E3. f_equal; [|apply IH; auto].
    destruct Ha as (n & _ & _ & EN & Ei & Em). destruct Ha' as (n' & _ & _ & EN' & Ei' & Em').
    assert (n' = n) by lia. subst n'.
    assert (El : ax_lo a = ax_lo a') by (destruct L as [A1 A2], L' as [B1 B2]; apply Rle_antisym; auto).
    assert (Eh : ax_hi a = ax_hi a') by (destruct G as [A1 A2], G' as [B1 B2]; apply Rle_antisym; auto).
    destruct a as [mn N inc lo hg], a' as [mn' N' inc' lo' hg']. cbn [ax_min ax_N ax_incr ax_lo ax_hi] in *. subst. reflexivity.
Qed.

Lemma gcell_app : forall pts pts' cell e, gcell pts cell e -> gcell (pts ++ pts') cell e.
Proof.
  intros pts pts' cell e [Hp H]. split; [exact Hp|]. intros k Hk. destruct (H k Hk) as (n & E1 & E2). exists n.
  split; [exact E1|]. apply vget_app. exact E2.
Qed.

Lemma built_fun : forall i cells elems its its', built i cells elems its -> built i cells elems its' -> its = its'.
Proof.
  intros i cells elems its its' H. revert its'. induction H as [i|i cell e cells elems blk rest B H IH]; intros its' H'.
  - inversion H'; auto.
  - inversion H' as [|? ? ? ? ? blk' rest' B' HB']; subst. f_equal; [|apply IH; auto].
    clear -B B'. unfold block in *. revert blk' B'. revert B. generalize ks at 2 4. intros js B. induction B as [|k it js blk (_ & n & Hn & ->) B IH]; intros blk' B'.
    + inversion B'; auto.
    + inversion B' as [|? it' ? blk2 (_ & n' & Hn' & ->) B2]; subst. f_equal; [congruence|auto].
Qed.

Record meshed2 (pts : list P) (cells : list (list Z)) (ax : list (axis ROps)) (its : list ip) (m : mesh ROps K) : Prop := mkMeshed2 {
  md2_node : me_node m = pts ++ pts;
  md2_interp : me_interp m = its ++ its;
  md2_bin : bin_reachable teq (map ax_min ax) (map ax_incr ax) (map ax_N ax) (me_bin m);
  md2_view : forall c, inside (map ax_min ax) (map ax_incr ax) (map ax_N ax) c ->
    view (me_bin m) c = Ok (filter (cov (map ax_min ax) (map ax_incr ax) c) its ++ filter (cov (map ax_min ax) (map ax_incr ax) c) its)
}.

Lemma mesh_rereads : forall pts cells elems ax m m0, pts <> [] -> (forall j, (j < kdim K)%nat -> 2 <= distinct (column pts j)) ->
  zprod (grid_shape pts) <= int_max -> mesh_of pts cells m -> meshed pts cells elems ax m ->
  me_node m0 = me_node m -> me_interp m0 = me_interp m ->
  exists m', mesh_onto m0 pts cells m' /\ meshed2 pts cells ax (me_interp m) m'.
Proof.
  intros pts cells elems ax m m0 Hne H2 Hz (m1o & Ho & _) Hm Hn0 Hi0.
  pose proof (md_axes _ _ _ _ _ Hm) as Hax.
  assert (Hom : exists b, omap (fun j => axis_grid (column pts j)) (seq 0 (kdim K)) = Ok ax /\ bin_make (map ax_min ax) (map ax_incr ax) (map ax_N ax) = Ok b /\
     bin_reachable teq (map ax_min ax) (map ax_incr ax) (map ax_N ax) b /\
     forall c, inside (map ax_min ax) (map ax_incr ax) (map ax_N ax) c -> view (T := ip) b c = Ok []).
  { destruct (points_axes pts Hne H2 Hz) as (ax' & Hom & Hax').
    pose proof (axes_fun _ _ _ Hax' Hax) as ->.
    pose proof (axes_grid pts ax Hax Hz) as Hgrid.
    destruct (bin_make_spec teq _ _ _ Hgrid) as (b & Hb & Hr & Hem). exists b. auto. }
  destruct Hom as (b & Hom & Hb & Hr & Hem).
  pose proof (axes_grid pts ax Hax Hz) as Hgrid.
  set (m1 := @mkMesh ROps K (Some (map ax_lo ax)) (Some (map ax_hi ax)) (pts ++ pts) (me_interp m) b).
  assert (E1 : mesh_points pts m0 = RRet m1 tt).
  { unfold mesh_points, mbind, mmod, mlift. rewrite Hom, Hb. cbn [me_node me_interp me_bin].
    rewrite Hn0, Hi0, (md_node _ _ _ _ _ Hm). reflexivity. }
  pose proof (md_cells _ _ _ _ _ Hm) as Hc.
  assert (Hc2 : Forall2 (gcell (pts ++ pts)) cells elems).
  { clear -Hc. induction Hc; constructor; auto. apply gcell_app; auto. }
  destruct (cells_loop_built (pts ++ pts) cells elems Hc2 0 m1 eq_refl) as (its & Hl & HB).
  pose proof (built_fun _ _ _ _ _ HB (md_built _ _ _ _ _ Hm)) as ->. clear HB.
  set (m2 := @mkMesh ROps K (Some (map ax_lo ax)) (Some (map ax_hi ax)) (pts ++ pts) (me_interp m ++ me_interp m) b).
  destruct (range_loop _ _ _ Hgrid (me_interp m ++ me_interp m) m2 Hr) as (b' & Hb' & Hr' & Hv).
  { assert (HF : Forall (fun it => inside (map ax_min ax) (map ax_incr ax) (map ax_N ax) (kcoords K (it_min it)) /\
        inside (map ax_min ax) (map ax_incr ax) (map ax_N ax) (kcoords K (it_max it)) /\
        below (kcoords K (it_min it)) (kcoords K (it_max it))) (me_interp m)).
    { apply Forall_forall. intros it Hit.
      destruct (built_cell _ _ _ _ _ (md_built _ _ _ _ _ Hm) Hit) as (j & cell & e & blk & Ec & Ee & B & Hin).
      destruct (block_item _ _ _ _ _ B Hin) as (_ & -> & -> & _).
      assert (Hg : gcell pts cell e) by (eapply nth_gcell; eauto).
      destruct (element_within pts ax cell e Hax Hg) as [W1 W2]. destruct Hax as (HA & _).
      split; [apply within_inside; auto|]. split; [apply within_inside; auto|]. apply lt_below, Hpos, Hg. }
    apply Forall_app. auto. }
  exists (mkMesh (Some (map ax_lo ax)) (Some (map ax_hi ax)) (pts ++ pts) (me_interp m ++ me_interp m) b'). split.
  { exists m1. split; [exact E1|]. unfold mesh_cells, mbind, mget. rewrite Hl. exact Hb'. }
  constructor; auto. intros c Hcin. destruct (Hv c Hcin) as (l & Hl1 & Hl2). cbn [me_bin] in *.
  unfold m2 in Hl1. cbn [me_bin] in Hl1. rewrite Hem in Hl1 by auto. injection Hl1 as <-. rewrite Hl2, filter_app. reflexivity.
Qed.

End Real.
