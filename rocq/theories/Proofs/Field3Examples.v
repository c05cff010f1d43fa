(** Examples beside C21, C23 and C24 in three dimensions. *)
From Coq Require Import ZArith List Bool Lia ZifyBool Reals Lra String.
From Verif Require Import Model.Outcome Model.Num Model.NumInst Model.PNDArray Model.Bin Model.PSimple Model.Interpolator
  Model.Quad Model.Hexahedron Model.Mesh Model.PField.
From Verif Require Import Spec.Tensor Spec.NDHistory Spec.Grid Spec.Funcs Spec.Shape Spec.Fields.
From Verif Require Import Proofs.OutcomeP Proofs.FieldP Proofs.MeshReadP Proofs.HexP Proofs.FieldSafeP Proofs.FieldExamples.
Import ListNotations.
Local Open Scope Z_scope.

Local Notation d := f64_make.
Local Notation c3f := (@mkC3 FOps).
Definition f3_unit : list (c3 FOps) :=
  [c3f (d 0 0) (d 0 0) (d 0 0); c3f (d 1 0) (d 0 0) (d 0 0); c3f (d 1 0) (d 1 0) (d 0 0); c3f (d 0 0) (d 1 0) (d 0 0);
   c3f (d 0 0) (d 0 0) (d 1 0); c3f (d 1 0) (d 0 0) (d 1 0); c3f (d 1 0) (d 1 0) (d 1 0); c3f (d 0 0) (d 1 0) (d 1 0)].
Definition f3_cells : list (list Z) := [[0; 1; 2; 3; 4; 5; 6; 7]].
Definition f3_values : list f64 := [d 8 0; d 1 0; d 2 0; d 3 0; d 5 0; d 7 0; d 4 0; d 6 0].
Definition f3_inner : c3 FOps := c3f (d 1 (-2)) (d 1 (-1)) (d 3 (-2)).
Definition f3_far : c3 FOps := c3f (d 9 0) (d 9 0) (d 9 0).

Lemma f3_history : exists (m : mesh FOps (hex_kind FOps)) p0 h m' p' a,
  field_on (F := scalar_field FOps) m f3_values (nofZ FOps 0) p0 /\ claimed m f3_inner /\ field_history (m, p0) h (m', p') /\
  List.length h = 2%nat /\ latest h QVal = Some a /\ field_stored p' QVal = Ok a.
Proof.
  assert (H : with_field FOps (hex_kind FOps) f3_unit f3_cells f3_values (fun m p0 =>
                ready FOps (hex_kind FOps) f3_values m p0 && claims FOps (hex_kind FOps) f3_inner m &&
                returns_throws FOps (hex_kind FOps) f3_inner f3_far m p0) = true) by (vm_compute; reflexivity).
  apply with_field_spec in H. destruct H as (m & p0 & Hm & Hp & H). apply andb_true_iff in H. destruct H as [H H2].
  apply andb_true_iff in H. destruct H as [H1 H3].
  pose proof (ready_spec FOps (hex_kind FOps) f3_unit f3_cells f3_values m p0 Hm Hp H1) as Hon.
  destruct (returns_throws_spec FOps (hex_kind FOps) f3_values _ _ m p0 (hex_answering FOps) Hon H2) as (h & m' & p' & a & R1 & R2 & R3 & R4).
  exists m, p0, h, m', p', a. split; [exact Hon|]. split; [apply claims_spec; exact H3|]. auto.
Qed.

Local Notation c3r := (@mkC3 ROps).
Lemma st_off_limit : exists (m : mesh ROps (hex_kind ROps)) (p0 : pfield (scalar_field ROps)),
  mesh_of (K := hex_kind ROps) st_pts st_cells m /\ pf_new (F := scalar_field ROps) "f" m st_data 0%R = Ok p0 /\
  field_on (F := scalar_field ROps) m st_data 0%R p0 /\ Forall2 (fun z x => x <> z) (bin_max (me_bin m)) [1/2; 1/2; 5/4]%R.
Proof.
  destruct (box_reads _ _ st_mesh) as (m & _ & _ & Hm & _).
  destruct (box_field_new st_pts st_cells m st_data "f" st_mesh Hm) as (p0 & Hp & Hon); [simpl; lia|].
  exists m, p0. split; [exact Hm|]. split; [exact Hp|]. split; [exact Hon|].
  destruct (box_covers _ _ _ st_mesh Hm) as (_ & _ & H1 & H2).
  destruct (H1 st_r (H2 _ st_in_mesh)) as [_ H]. clear -H. change (kcoords (hex_kind ROps) st_r) with [1/2; 1/2; 5/4]%R in H.
  revert H. generalize [1/2; 1/2; 5/4]%R. intros l H. induction H as [|a x z la lx lz [_ H] _ IH]; constructor; auto. simpl in H. lra.
Qed.
