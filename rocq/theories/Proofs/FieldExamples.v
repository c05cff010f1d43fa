(** Meshes used in the examples beside C18-C25, and the refutation of C22. *)
From Coq Require Import ZArith List Bool Lia ZifyBool Reals Lra String.
From Verif Require Import Model.Outcome Model.Num Model.NumInst Model.PNDArray Model.Bin Model.PSimple Model.Interpolator
  Model.Quad Model.Hexahedron Model.Mesh Model.PField.
From Verif Require Import Spec.Tensor Spec.Grid Spec.Funcs Spec.Shape Spec.Fields.
From Verif Require Import Proofs.OutcomeP Proofs.ShapeP Proofs.FieldP Proofs.MeshReadP Proofs.MeshRP Proofs.RectP Proofs.RectFieldP Proofs.HexP.
Import ListNotations.
Local Open Scope Z_scope.

Lemma distinct_eq : forall l l' : list R, NoDup l' -> (forall x, In x l <-> In x l') -> distinct l = Z.of_nat (List.length l').
Proof.
  intros l l' Hn He. unfold distinct. f_equal. apply Nat.le_antisymm.
  - apply NoDup_incl_length; [apply NoDup_nodup|]. intros x Hx. apply nodup_In in Hx. apply He; auto.
  - apply NoDup_incl_length; auto. intros x Hx. apply nodup_In. apply He; auto.
Qed.

Lemma forall_in : forall (A : Type) (P : A -> Prop) l, Forall P l -> forall x, In x l -> P x.
Proof. intros A P l H. rewrite Forall_forall in H. exact H. Qed.

(** ** Two rectangles side by side: [0,2] x [0,1] and [2,3] x [0,1] *)

Definition ex_pts : list point2 := [(0, 0); (2, 0); (3, 0); (0, 1); (2, 1); (3, 1)]%R.
Definition ex_cells : list (list Z) := [[0; 1; 4; 3]; [1; 2; 5; 4]].
Definition ex_data : list R := [1; 3; 0; 2; 5; 7]%R.

Lemma ex_rect0 : cell_rect ex_pts [0; 1; 4; 3] (0, 0)%R (2, 1)%R.
Proof.
  split; [split; simpl; lra|]. intros k Hk. cases2 Hk;
    [exists 0|exists 1|exists 4|exists 3]; (split; [reflexivity|]); unfold vget, ex_pts, corner2; simpl; f_equal; f_equal; ring.
Qed.
Lemma ex_rect1 : cell_rect ex_pts [1; 2; 5; 4] (2, 0)%R (1, 1)%R.
Proof.
  split; [split; simpl; lra|]. intros k Hk. cases2 Hk;
    [exists 1|exists 2|exists 5|exists 4]; (split; [reflexivity|]); unfold vget, ex_pts, corner2; simpl; f_equal; f_equal; ring.
Qed.

Lemma ex_distinct_x : distinct (map fst ex_pts) = 3.
Proof.
  apply (distinct_eq _ [0; 2; 3]%R).
  - repeat constructor; simpl; intros H; repeat (destruct H as [H|H]; [lra|]); auto.
  - intros x. simpl. tauto.
Qed.
Lemma ex_distinct_y : distinct (map snd ex_pts) = 2.
Proof.
  apply (distinct_eq _ [0; 1]%R).
  - repeat constructor; simpl; intros H; repeat (destruct H as [H|H]; [lra|]); auto.
  - intros x. simpl. tauto.
Qed.

Lemma ex_mesh : rect_mesh ex_pts ex_cells.
Proof.
  split; [discriminate|]. split.
  - constructor; [exists (0, 0)%R, (2, 1)%R; exact ex_rect0|]. constructor; [exists (2, 0)%R, (1, 1)%R; exact ex_rect1|constructor].
  - rewrite ex_distinct_x, ex_distinct_y. unfold int_max. split; [lia|simpl; lia].
Qed.

(** A point of the second element off every edge, and a point of the common edge. *)
Lemma ex_point : in_mesh2 ex_pts ex_cells (5/2, 1/4)%R.
Proof.
  exists [1; 2; 5; 4], (2, 0)%R, (1, 1)%R. split; [simpl; auto|]. split; [exact ex_rect1|].
  split; simpl; [exists (1/2)%R|exists (1/4)%R]; lra.
Qed.
Lemma ex_edge_point : in_mesh2 ex_pts ex_cells (2, 1/2)%R.
Proof.
  exists [1; 2; 5; 4], (2, 0)%R, (1, 1)%R. split; [simpl; auto|]. split; [exact ex_rect1|].
  split; simpl; [exists 0%R|exists (1/2)%R]; lra.
Qed.

Lemma ex_cell_cases : forall cell lo h, In cell ex_cells -> cell_rect ex_pts cell lo h ->
  (cell = [0; 1; 4; 3] /\ lo = (0, 0)%R /\ h = (2, 1)%R) \/ (cell = [1; 2; 5; 4] /\ lo = (2, 0)%R /\ h = (1, 1)%R).
Proof.
  intros cell lo h [<-|[<-|[]]] Hc.
  - left. destruct (cell_rect_fun _ _ _ _ _ _ Hc ex_rect0). auto.
  - right. destruct (cell_rect_fun _ _ _ _ _ _ Hc ex_rect1). auto.
Qed.

Lemma ex_conforming : conforming ex_pts ex_cells.
Proof.
  intros cell lo h n p Hc Hrect Hp Hin.
  assert (B : 0 <= n < 6) by (apply (vget_ok_iff _ ex_pts n); eauto).
  destruct (ex_cell_cases _ _ _ Hc Hrect) as [(-> & -> & ->)|(-> & -> & ->)];
    apply in_rect_iff in Hin; try (split; simpl; lra); destruct p as [x y]; simpl in Hin;
    assert (n = 0 \/ n = 1 \/ n = 2 \/ n = 3 \/ n = 4 \/ n = 5) as D by lia;
    destruct D as [->|[->|[->|[->|[->| ->]]]]]; unfold vget, ex_pts in Hp; simpl in Hp; injection Hp as <- <-; simpl in Hin;
    try (exfalso; lra);
    first [exists 0; split; [simpl; tauto|reflexivity]|exists 1; split; [simpl; tauto|reflexivity]
          |exists 2; split; [simpl; tauto|reflexivity]|exists 3; split; [simpl; tauto|reflexivity]].
Qed.

Lemma ex_face_to_face : face_to_face ex_pts ex_cells.
Proof.
  assert (E : forall r, in_rect (0, 0)%R (2, 1)%R r -> in_rect (2, 0)%R (1, 1)%R r ->
            fst r = 2%R /\ (0 <= snd r <= 1)%R).
  { intros [x y] H1 H2. apply in_rect_iff in H1; [|split; simpl; lra]. apply in_rect_iff in H2; [|split; simpl; lra]. simpl in *. lra. }
  intros cell lo h cell' lo' h' r Hc Hc' H H' I I'.
  destruct (ex_cell_cases _ _ _ Hc H) as [(-> & -> & ->)|(-> & -> & ->)];
    destruct (ex_cell_cases _ _ _ Hc' H') as [(-> & -> & ->)|(-> & -> & ->)]; auto; right; left.
  - destruct (E r I I') as [E1 E2]. exists 1, 2, 0, 3, 1, 4, (2, 0)%R, (2, 1)%R.
    split; [left; simpl; tauto|]. split; [left; simpl; tauto|]. do 6 (split; [reflexivity|]).
    exists (snd r). split; auto. destruct r as [x y]. simpl in *. subst x. f_equal; ring.
  - destruct (E r I' I) as [E1 E2]. exists 0, 3, 1, 2, 1, 4, (2, 0)%R, (2, 1)%R.
    split; [left; simpl; tauto|]. split; [left; simpl; tauto|]. do 6 (split; [reflexivity|]).
    exists (snd r). split; auto. destruct r as [x y]. simpl in *. subst x. f_equal; ring.
Qed.

(** The mesh object and a field on it exist. *)
Lemma ex_field : exists m p0, mesh_of (K := quad_kind ROps) ex_pts ex_cells m /\
  pf_new (F := scalar_field ROps) "f" m ex_data 0%R = Ok p0.
Proof.
  destruct (rect_reads _ _ ex_mesh) as (m & _ & _ & Hm & _).
  destruct (rect_field_new ex_pts ex_cells m ex_data "f" ex_mesh Hm) as (p0 & Hp & _); [simpl; lia|].
  exists m, p0. auto.
Qed.

Lemma rect_field_exists : forall pts cells (data : list R) name, rect_mesh pts cells -> (List.length pts <= List.length data)%nat ->
  exists m p0, mesh_of (K := quad_kind ROps) pts cells m /\ pf_new (F := scalar_field ROps) name m data 0%R = Ok p0.
Proof.
  intros pts cells data name Hr Hd. destruct (rect_reads _ _ Hr) as (m & _ & _ & Hm & _).
  destruct (rect_field_new pts cells m data name Hr Hm Hd) as (p0 & Hp & _). exists m, p0. auto.
Qed.

Lemma ex_node_point : in_mesh2 ex_pts ex_cells (2, 1)%R.
Proof.
  exists [1; 2; 5; 4], (2, 0)%R, (1, 1)%R. split; [simpl; auto|]. split; [exact ex_rect1|].
  split; simpl; [exists 0%R|exists 1%R]; lra.
Qed.

Definition ex_affine : list R := [1; 5; 7; -2; 2; 4]%R.
Lemma ex_affine_ok : forall n p x, vget ex_pts n = Ok p -> vget ex_affine n = Ok x -> x = (1 + 2 * fst p + -3 * snd p)%R.
Proof.
  intros n p x Hp Hx. assert (B : 0 <= n < 6) by (apply (vget_ok_iff _ ex_pts n); eauto).
  assert (n = 0 \/ n = 1 \/ n = 2 \/ n = 3 \/ n = 4 \/ n = 5) as D by lia.
  destruct D as [->|[->|[->|[->|[->| ->]]]]]; unfold vget, ex_pts, ex_affine in *; simpl in Hp, Hx; injection Hp as <-; injection Hx as <-; simpl; ring.
Qed.

Lemma ex_shared_edge : shared_edge ex_pts [0; 1; 4; 3] [1; 2; 5; 4] (2, 1/2)%R.
Proof.
  exists 1, 2, 0, 3, 1, 4, (2, 0)%R, (2, 1)%R.
  split; [left; simpl; tauto|]. split; [left; simpl; tauto|]. do 6 (split; [reflexivity|]).
  exists (1/2)%R. split; [lra|]. simpl. f_equal; lra.
Qed.
Lemma ex_shared_corner : shared_corner ex_pts [0; 1; 4; 3] [1; 2; 5; 4] (2, 1)%R.
Proof. exists 2, 3, 4. split; [simpl; tauto|]. split; [simpl; tauto|]. do 2 (split; [reflexivity|]). reflexivity. Qed.

Lemma ex_off_limit : exists (m : mesh ROps (quad_kind ROps)) (p0 : pfield (scalar_field ROps)),
  mesh_of (K := quad_kind ROps) ex_pts ex_cells m /\ pf_new (F := scalar_field ROps) "f" m ex_data 0%R = Ok p0 /\
  field_on (F := scalar_field ROps) m ex_data 0%R p0 /\ Forall2 (fun z x => x <> z) (bin_max (me_bin m)) [5/2; 1/4]%R.
Proof.
  destruct (rect_reads _ _ ex_mesh) as (m & _ & _ & Hm & _).
  destruct (rect_field_new ex_pts ex_cells m ex_data "f" ex_mesh Hm) as (p0 & Hp & Hon); [simpl; lia|].
  exists m, p0. split; [exact Hm|]. split; [exact Hp|]. split; [exact Hon|].
  destruct (rect_covers _ _ _ ex_mesh Hm) as (_ & _ & H1 & H2).
  destruct (H1 (5/2, 1/4)%R (H2 _ ex_point)) as [_ H]. clear -H. change (kcoords (quad_kind ROps) (5/2, 1/4)%R) with [5/2; 1/4]%R in H.
  revert H. generalize [5/2; 1/4]%R. intros l H. induction H as [|a x z la lx lz [_ H] _ IH]; constructor; auto. simpl in H. lra.
Qed.

(** ** Two boxes on top of each other: unit cubes at z = 0 and z = 1 *)

Local Notation c3r := (@mkC3 ROps).
Definition st_pts : list point3 :=
  [c3r 0 0 0; c3r 1 0 0; c3r 1 1 0; c3r 0 1 0;
   c3r 0 0 1; c3r 1 0 1; c3r 1 1 1; c3r 0 1 1;
   c3r 0 0 2; c3r 1 0 2; c3r 1 1 2; c3r 0 1 2]%R.
Definition st_cells : list (list Z) := [[0; 1; 2; 3; 4; 5; 6; 7]; [4; 5; 6; 7; 8; 9; 10; 11]].
Definition st_data : list R := [0; 0; 0; 0; 0; 0; 0; 0; 1; 1; 1; 1]%R.
Definition st_r : point3 := (c3r (1/2) (1/2) (5/4))%R.

Lemma st_box0 : cell_box st_pts [0; 1; 2; 3; 4; 5; 6; 7] (c3r 0 0 0)%R (c3r 1 1 1)%R.
Proof.
  split; [unfold positive3; simpl; lra|]. intros k Hk. exists k. cases3 Hk;
    (split; [reflexivity|]); unfold vget, st_pts, corner3; simpl; f_equal; f_equal; ring.
Qed.
Lemma st_box1 : cell_box st_pts [4; 5; 6; 7; 8; 9; 10; 11] (c3r 0 0 1)%R (c3r 1 1 1)%R.
Proof.
  split; [unfold positive3; simpl; lra|]. intros k Hk. exists (k + 4). cases3 Hk;
    (split; [reflexivity|]); unfold vget, st_pts, corner3; simpl; f_equal; f_equal; ring.
Qed.

Lemma st_distinct_x : distinct (map cx st_pts) = 2.
Proof.
  apply (distinct_eq _ [0; 1]%R).
  - repeat constructor; simpl; intros H; repeat (destruct H as [H|H]; [lra|]); auto.
  - intros x. simpl. tauto.
Qed.
Lemma st_distinct_y : distinct (map cy st_pts) = 2.
Proof.
  apply (distinct_eq _ [0; 1]%R).
  - repeat constructor; simpl; intros H; repeat (destruct H as [H|H]; [lra|]); auto.
  - intros x. simpl. tauto.
Qed.
Lemma st_distinct_z : distinct (map cz st_pts) = 3.
Proof.
  apply (distinct_eq _ [0; 1; 2]%R).
  - repeat constructor; simpl; intros H; repeat (destruct H as [H|H]; [lra|]); auto.
  - intros x. simpl. tauto.
Qed.

Lemma st_mesh : box_mesh st_pts st_cells.
Proof.
  split; [discriminate|]. split.
  - constructor; [eexists; eexists; exact st_box0|]. constructor; [eexists; eexists; exact st_box1|constructor].
  - rewrite st_distinct_x, st_distinct_y, st_distinct_z. unfold int_max. split; [lia|simpl; lia].
Qed.

Lemma st_in_box : in_box (c3r 0 0 1)%R (c3r 1 1 1)%R st_r.
Proof. unfold in_box, between1, st_r; simpl. repeat split; [exists (1/2)%R|exists (1/2)%R|exists (1/4)%R]; lra. Qed.
Lemma st_in_mesh : in_mesh3 st_pts st_cells st_r.
Proof. exists [4; 5; 6; 7; 8; 9; 10; 11], (c3r 0 0 1)%R, (c3r 1 1 1)%R. split; [simpl; auto|]. split; [exact st_box1|exact st_in_box]. Qed.

(** Only the upper cube contains the point. *)
Lemma st_only : forall cell lo h, In cell st_cells -> cell_box st_pts cell lo h -> in_box lo h st_r ->
  cell = [4; 5; 6; 7; 8; 9; 10; 11] /\ lo = c3r 0%R 0%R 1%R /\ h = c3r 1%R 1%R 1%R.
Proof.
  intros cell lo h [<-|[<-|[]]] Hc Hin.
  - destruct (cell_box_fun _ _ _ _ _ _ Hc st_box0) as [-> ->]. exfalso.
    destruct Hin as (_ & _ & (t & Ht & E)). simpl in *. lra.
  - destruct (cell_box_fun _ _ _ _ _ _ Hc st_box1) as [-> ->]. auto.
Qed.

Lemma bin_intro : forall l n a z x k, distinct l = n -> least a l -> greatest z l ->
  (a + (z - a) / IZR n * IZR (k - 1) <= x < a + (z - a) / IZR n * IZR k)%R -> bin_number l x k.
Proof. intros l n a z x k <- Ha Hz H. exists a, z. auto. Qed.

Lemma extreme : forall (P : R -> Prop) l a, In a l -> Forall P l -> In a l /\ forall x, In x l -> P x.
Proof. intros P l a H F. split; auto. apply forall_in. exact F. Qed.

Lemma st_least_x : least 0%R (map cx st_pts) /\ greatest 1%R (map cx st_pts).
Proof. split; apply extreme; simpl; try tauto; repeat (apply Forall_cons; [lra|]); apply Forall_nil. Qed.
Lemma st_least_y : least 0%R (map cy st_pts) /\ greatest 1%R (map cy st_pts).
Proof. split; apply extreme; simpl; try tauto; repeat (apply Forall_cons; [lra|]); apply Forall_nil. Qed.
Lemma st_least_z : least 0%R (map cz st_pts) /\ greatest 2%R (map cz st_pts).
Proof. split; apply extreme; simpl; try tauto; repeat (apply Forall_cons; [lra|]); apply Forall_nil. Qed.

Lemma st_bin_x : forall x k, (IZR (k - 1) <= 2 * x < IZR k)%R -> bin_number (map cx st_pts) x k.
Proof. intros x k H. destruct st_least_x. apply (bin_intro _ _ 0%R 1%R _ _ st_distinct_x); auto. lra. Qed.
Lemma st_bin_y : forall x k, (IZR (k - 1) <= 2 * x < IZR k)%R -> bin_number (map cy st_pts) x k.
Proof. intros x k H. destruct st_least_y. apply (bin_intro _ _ 0%R 1%R _ _ st_distinct_y); auto. lra. Qed.
Lemma st_bin_z : forall x k, (IZR (k - 1) <= 3 / 2 * x < IZR k)%R -> bin_number (map cz st_pts) x k.
Proof. intros x k H. destruct st_least_z. apply (bin_intro _ _ 0%R 2%R _ _ st_distinct_z); auto. lra. Qed.

(** The bins of the heights 2/3..4/3 straddle the two layers: the point shares one with the lower cube. *)
Lemma st_shares0 : shares_bin st_pts (c3r 0 0 0)%R (c3r 1 1 1)%R st_r.
Proof.
  split; [|split].
  - exists 1, 2, 3. repeat split; try lia; apply st_bin_x; simpl; lra.
  - exists 1, 2, 3. repeat split; try lia; apply st_bin_y; simpl; lra.
  - exists 1, 2, 2. repeat split; try lia; apply st_bin_z; simpl; lra.
Qed.

(** Two cubes side by side. *)
Definition sl_pts : list point3 :=
  [c3r 0 0 0; c3r 1 0 0; c3r 2 0 0; c3r 0 1 0; c3r 1 1 0; c3r 2 1 0;
   c3r 0 0 1; c3r 1 0 1; c3r 2 0 1; c3r 0 1 1; c3r 1 1 1; c3r 2 1 1]%R.
Definition sl_cells : list (list Z) := [[0; 1; 4; 3; 6; 7; 10; 9]; [1; 2; 5; 4; 7; 8; 11; 10]].
Definition sl_r : point3 := (c3r (3/2) (1/2) (1/4))%R.

Lemma sl_box0 : cell_box sl_pts [0; 1; 4; 3; 6; 7; 10; 9] (c3r 0 0 0)%R (c3r 1 1 1)%R.
Proof.
  split; [unfold positive3; simpl; lra|]. intros k Hk. cases3 Hk;
    (eexists; split; [reflexivity|]); unfold vget, sl_pts, corner3; simpl; f_equal; f_equal; ring.
Qed.
Lemma sl_box1 : cell_box sl_pts [1; 2; 5; 4; 7; 8; 11; 10] (c3r 1 0 0)%R (c3r 1 1 1)%R.
Proof.
  split; [unfold positive3; simpl; lra|]. intros k Hk. cases3 Hk;
    (eexists; split; [reflexivity|]); unfold vget, sl_pts, corner3; simpl; f_equal; f_equal; ring.
Qed.
Lemma sl_mesh : box_mesh sl_pts sl_cells.
Proof.
  assert (D : distinct (map cx sl_pts) = 3 /\ distinct (map cy sl_pts) = 2 /\ distinct (map cz sl_pts) = 2).
  { split; [apply (distinct_eq _ [0; 1; 2]%R)|split; apply (distinct_eq _ [0; 1]%R)];
      try (intros x; simpl; tauto); repeat constructor; simpl; intros H; repeat (destruct H as [H|H]; [lra|]); auto. }
  destruct D as (D1 & D2 & D3). split; [discriminate|]. split.
  - constructor; [eexists; eexists; exact sl_box0|]. constructor; [eexists; eexists; exact sl_box1|constructor].
  - rewrite D1, D2, D3. unfold int_max. split; [lia|simpl; lia].
Qed.
Lemma sl_layer : one_layer sl_pts sl_cells.
Proof.
  exists 0%R, 1%R. intros cell lo h [<-|[<-|[]]] Hc.
  - destruct (cell_box_fun _ _ _ _ _ _ Hc sl_box0) as [-> ->]. auto.
  - destruct (cell_box_fun _ _ _ _ _ _ Hc sl_box1) as [-> ->]. auto.
Qed.
Lemma sl_in_mesh : in_mesh3 sl_pts sl_cells sl_r.
Proof.
  exists [1; 2; 5; 4; 7; 8; 11; 10], (c3r 1 0 0)%R, (c3r 1 1 1)%R. split; [simpl; auto|]. split; [exact sl_box1|].
  unfold in_box, between1, sl_r; simpl. repeat split; [exists (1/2)%R|exists (1/2)%R|exists (1/4)%R]; lra.
Qed.

(** C22: at that point the field returns 0, the extrapolation of the lower cube; the interpolant is 1/4. *)
Lemma wrong_layer_refuted :
  exists pts cells m data p0 r s (a : R),
    box_mesh pts cells /\ mesh_of (K := hex_kind ROps) pts cells m /\ List.length data = List.length pts /\
    pf_new (F := scalar_field ROps) "f" m data 0%R = Ok p0 /\ in_mesh3 pts cells r /\
    field_eval (K := hex_kind ROps) QVal r (m, p0) = RRet s a /\
    forall cell lo h v, In cell cells -> cell_box pts cell lo h -> in_box lo h r -> cell_data data cell corners3 v ->
      a <> trilinear lo h v r.
Proof.
  destruct (box_reads _ _ st_mesh) as (m & _ & _ & Hm & _).
  destruct (box_field_new st_pts st_cells m st_data "f" st_mesh Hm) as (p0 & Hp & _); [simpl; lia|].
  destruct (box_field st_pts st_cells m st_data "f" p0 st_r st_mesh Hm) as (j & cell & lo & h & v & Ec & Hcell & _ & _ & Hmin & Hv & Hev);
    [simpl; lia|exact Hp|exact st_in_mesh|].
  destruct (Hev [] m p0 (FieldNone _) QVal I) as (s & Es).
  exists st_pts, st_cells, m, st_data, p0, st_r, s. eexists.
  split; [exact st_mesh|]. split; [exact Hm|]. split; [reflexivity|]. split; [exact Hp|]. split; [exact st_in_mesh|].
  split; [exact Es|].
  assert (j = 0%nat).
  { assert (j <= 0)%nat; [|lia]. apply (Hmin 0%nat [0; 1; 2; 3; 4; 5; 6; 7] (c3r 0 0 0)%R (c3r 1 1 1)%R); [reflexivity|exact st_box0| |exact st_shares0].
    split; unfold between1, st_r; simpl; exists (1/2)%R; lra. }
  subst j. simpl in Ec. injection Ec as <-.
  assert (Ez : rsum (fun k => kask (K := hex_kind ROps) corner3 QVal st_r (lo, h) k * v k)%R corners3 = 0%R).
  { assert (V : forall k, In k corners3 -> v k = 0%R).
    { intros k Hk. destruct (Hv k Hk) as (n & A & B). cases3 Hk; simpl in A; injection A as <-;
        unfold vget, st_data in B; simpl in B; injection B as <-; reflexivity. }
    simpl. rewrite !V by (simpl; tauto). ring. }
  rewrite Ez. intros cell' lo' h' v' Hc' Hb' Hin' Hv' E.
  destruct (st_only _ _ _ Hc' Hb' Hin') as (-> & -> & ->).
  assert (V : v' 0 = 0%R /\ v' 1 = 0%R /\ v' 2 = 0%R /\ v' 3 = 0%R /\ v' 4 = 1%R /\ v' 5 = 1%R /\ v' 6 = 1%R /\ v' 7 = 1%R).
  { assert (G : forall k, In k corners3 -> v' k = if k <? 4 then 0%R else 1%R).
    { intros k Hk. destruct (Hv' k Hk) as (n & A & B). cases3 Hk; simpl in A; injection A as <-;
        unfold vget, st_data in B; simpl in B; injection B as <-; reflexivity. }
    repeat split; [apply (G 0)|apply (G 1)|apply (G 2)|apply (G 3)|apply (G 4)|apply (G 5)|apply (G 6)|apply (G 7)]; simpl; tauto. }
  unfold trilinear, bilinear, st_r in E. simpl in E. destruct V as (V0 & V1 & V2 & V3 & V4 & V5 & V6 & V7).
  rewrite V0, V1, V2, V3, V4, V5, V6, V7 in E. lra.
Qed.
