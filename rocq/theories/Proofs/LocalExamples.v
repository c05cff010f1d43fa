(** Meshes of doubles used beside C51. *)
From Flocq Require Import BinarySingleNaN.
From Coq Require Import ZArith List Bool Lia String Reals Lra.
From Verif Require Import Model.Outcome Model.Num Model.NumInst Model.PNDArray Model.Bin Model.PSimple Model.Interpolator
  Model.Quad Model.Hexahedron Model.Mesh Model.PField.
From Verif Require Import Spec.Tensor Spec.Grid Spec.Funcs Spec.Shape Spec.Fields Spec.Vtk.
From Verif Require Import Proofs.OutcomeP Proofs.FieldP Proofs.MeshReadP Proofs.RectP Proofs.HexP Proofs.FieldSafeP Proofs.FieldExamples Proofs.LocalP.
Import ListNotations.
Local Open Scope Z_scope.

Local Notation d := f64_make.
(** Two rectangles side by side: [0,2] x [0,1] and [2,3] x [0,1]. *)
Definition g_pts : list (f64 * f64) := [(d 0 0, d 0 0); (d 2 0, d 0 0); (d 3 0, d 0 0); (d 0 0, d 1 0); (d 2 0, d 1 0); (d 3 0, d 1 0)].
Definition g_cells : list (list Z) := [[0; 1; 4; 3]; [1; 2; 5; 4]].
Definition g_data1 : list f64 := [d 1 0; d 3 0; d 0 0; d 2 0; d 5 0; d 7 0].
Definition g_data2 : list f64 := [d 9 0; d 3 0; d 0 0; d 4 0; d 5 0; d 7 0].
Definition g_data3 : list f64 := [B754_infinity false; d 3 0; d 0 0; d 4 0; d 5 0; d 7 0].
Definition g_point : f64 * f64 := (d 5 (-1), d 1 (-2)).

Definition same_value (O : NumOps) (K : kind O) (c : kpoint K) (data2 : list (num O)) (ok : num O -> num O -> bool)
  (m : mesh O K) (p1 : pfield (scalar_field O)) : bool :=
  match pf_new (F := scalar_field O) "f" m data2 (nofZ O 0) with
  | Ok p2 => match field_eval (F := scalar_field O) QVal c (m, p1), field_eval (F := scalar_field O) QVal c (m, p2) with
             | RRet _ a1, RRet _ a2 => ready O K data2 m p2 && ok a1 a2
             | _, _ => false
             end
  | _ => false
  end.

(** Beside C51: two fields that differ at nodes of the other element, and a point of the second element. *)
Lemma g_case : exists (m : mesh FOps (quad_kind FOps)) p1 p2, mesh_of (K := quad_kind FOps) g_pts g_cells m /\ claimed m g_point /\
  field_on (F := scalar_field FOps) m g_data1 (nofZ FOps 0) p1 /\ field_on (F := scalar_field FOps) m g_data2 (nofZ FOps 0) p2 /\
  g_data1 <> g_data2.
Proof.
  assert (H : with_field FOps (quad_kind FOps) g_pts g_cells g_data1 (fun m p1 =>
     ready FOps (quad_kind FOps) g_data1 m p1 && claims FOps (quad_kind FOps) g_point m &&
     same_value FOps (quad_kind FOps) g_point g_data2 (fun _ _ => true) m p1) = true) by (vm_compute; reflexivity).
  apply with_field_spec in H. destruct H as (m & p1 & Hm & Hp & H). apply andb_true_iff in H. destruct H as [H H3].
  apply andb_true_iff in H. destruct H as [H1 H2].
  unfold same_value in H3. destruct (pf_new (F := scalar_field FOps) "f" m g_data2 (nofZ FOps 0)) as [p2| | | |] eqn:E2; try discriminate H3.
  destruct (field_eval _ _ (m, p1)) as [s1 a1| | | |]; try discriminate H3.
  destruct (field_eval _ _ (m, p2)) as [s2 a2| | | |]; try discriminate H3. apply andb_true_iff in H3. destruct H3 as [H3 _].
  exists m, p1, p2. split; [exact Hm|]. split; [apply claims_spec; exact H2|].
  split; [exact (ready_spec FOps (quad_kind FOps) g_pts g_cells g_data1 m p1 Hm Hp H1)|].
  split; [exact (ready_spec FOps (quad_kind FOps) g_pts g_cells g_data2 m p2 Hm E2 H3)|].
  intros E. assert (N : Beqb (d 1 0) (d 9 0) = true) by (injection E as E; vm_compute in E; discriminate E). vm_compute in N. discriminate N.
Qed.

(** C51: with an infinite datum at a node of another element, the result is not a number. *)
Lemma infinite_refuted : exists (m : mesh FOps (quad_kind FOps)) p1 p2 s1 (a1 : f64) s2 (a2 : f64), mesh_of (K := quad_kind FOps) g_pts g_cells m /\ claimed m g_point /\
  field_on (F := scalar_field FOps) m g_data2 (nofZ FOps 0) p1 /\ field_on (F := scalar_field FOps) m g_data3 (nofZ FOps 0) p2 /\
  (forall k n, 0 <= k < 4 -> vget [1; 2; 5; 4] k = Ok n -> vget g_data2 n = vget g_data3 n) /\
  field_eval (K := quad_kind FOps) QVal g_point (m, p1) = RRet s1 a1 /\ is_finite a1 = true /\
  field_eval (K := quad_kind FOps) QVal g_point (m, p2) = RRet s2 a2 /\ a2 = B754_nan.
Proof.
  assert (H : with_field FOps (quad_kind FOps) g_pts g_cells g_data2 (fun m p1 =>
     ready FOps (quad_kind FOps) g_data2 m p1 && claims FOps (quad_kind FOps) g_point m &&
     same_value FOps (quad_kind FOps) g_point g_data3 (fun a1 a2 : f64 => is_finite a1 && is_nan a2) m p1) = true) by (vm_compute; reflexivity).
  apply with_field_spec in H. destruct H as (m & p1 & Hm & Hp & H). apply andb_true_iff in H. destruct H as [H H3].
  apply andb_true_iff in H. destruct H as [H1 H2].
  unfold same_value in H3. destruct (pf_new (F := scalar_field FOps) "f" m g_data3 (nofZ FOps 0)) as [p2| | | |] eqn:E2; try discriminate H3.
  destruct (field_eval _ _ (m, p1)) as [s1 a1| | | |] eqn:V1; try discriminate H3.
  destruct (field_eval _ _ (m, p2)) as [s2 a2| | | |] eqn:V2; try discriminate H3. apply andb_true_iff in H3. destruct H3 as [H3 H4].
  apply andb_true_iff in H4. destruct H4 as [H4 H5].
  exists m, p1, p2, s1, a1, s2, a2. split; [exact Hm|]. split; [apply claims_spec; exact H2|].
  split; [exact (ready_spec FOps (quad_kind FOps) g_pts g_cells g_data2 m p1 Hm Hp H1)|].
  split; [exact (ready_spec FOps (quad_kind FOps) g_pts g_cells g_data3 m p2 Hm E2 H3)|].
  split.
  { intros k n Hk Hn. assert (k = 0 \/ k = 1 \/ k = 2 \/ k = 3) as [-> |[-> |[-> | ->]]] by lia; injection Hn as <-; reflexivity. }
  split; [exact V1|]. split; [exact H4|]. split; [exact V2|]. change (is_nan (a2 : f64) = true) in H5. destruct (a2 : f64); try discriminate H5. reflexivity.
Qed.

(** A case for each answer to a coordinate that is not finite: thrown out, or undefined. *)
Lemma not_finite_case : exists (m : mesh FOps (quad_kind FOps)) p0, mesh_of (K := quad_kind FOps) g_pts g_cells m /\
  field_on (F := scalar_field FOps) m g_data1 (nofZ FOps 0) p0 /\
  (exists s, field_eval (K := quad_kind FOps) QVal (B754_infinity false : f64, d 0 0) (m, p0) = RThrow s DomainError) /\
  field_eval (K := quad_kind FOps) QVal (d 1 0, B754_nan : f64) (m, p0) = RUB UBBadConversion.
Proof.
  assert (H : with_field FOps (quad_kind FOps) g_pts g_cells g_data1 (fun m p0 => ready FOps (quad_kind FOps) g_data1 m p0 &&
     match field_eval (F := scalar_field FOps) (K := quad_kind FOps) QVal (B754_infinity false : f64, d 0 0) (m, p0) with RThrow _ DomainError => true | _ => false end &&
     match field_eval (F := scalar_field FOps) (K := quad_kind FOps) QVal (d 1 0, B754_nan : f64) (m, p0) with RUB UBBadConversion => true | _ => false end) = true)
    by (vm_compute; reflexivity).
  apply with_field_spec in H. destruct H as (m & p0 & Hm & Hp & H). apply andb_true_iff in H. destruct H as [H H3].
  apply andb_true_iff in H. destruct H as [H1 H2]. exists m, p0. split; [exact Hm|].
  split; [exact (ready_spec FOps (quad_kind FOps) g_pts g_cells g_data1 m p0 Hm Hp H1)|]. split.
  - destruct (field_eval _ _ _) as [|s e| | |]; try discriminate H2. destruct e; try discriminate H2. eauto.
  - match goal with |- ?y = _ => match type of H3 with context [match ?x with _ => _ end] => change x with y in H3; destruct y as [| | |r|] end end; try discriminate H3.
    destruct r; try discriminate H3. reflexivity.
Qed.

(** Two unit cubes side by side, in doubles. *)
Definition k_pt (x y z : Z) : c3 FOps := @mkC3 FOps (d x 0) (d y 0) (d z 0).
Definition k_pts : list (c3 FOps) :=
  [k_pt 0 0 0; k_pt 1 0 0; k_pt 2 0 0; k_pt 0 1 0; k_pt 1 1 0; k_pt 2 1 0; k_pt 0 0 1; k_pt 1 0 1; k_pt 2 0 1; k_pt 0 1 1; k_pt 1 1 1; k_pt 2 1 1].
Definition k_data1 : list f64 := map (fun n => d n 0) [0; 1; 2; 3; 4; 5; 6; 7; 8; 9; 10; 11].
Definition k_data2 : list f64 := map (fun n => d n 0) [5; 1; 2; 7; 4; 5; 9; 7; 8; 0; 10; 11].
Definition k_point : c3 FOps := @mkC3 FOps (d 3 (-1)) (d 1 (-1)) (d 1 (-2)).

Lemma k_case : exists (m : mesh FOps (hex_kind FOps)) p1 p2, mesh_of (K := hex_kind FOps) k_pts sl_cells m /\ claimed m k_point /\
  field_on (F := scalar_field FOps) m k_data1 (nofZ FOps 0) p1 /\ field_on (F := scalar_field FOps) m k_data2 (nofZ FOps 0) p2.
Proof.
  assert (H : with_field FOps (hex_kind FOps) k_pts sl_cells k_data1 (fun m p1 =>
     ready FOps (hex_kind FOps) k_data1 m p1 && claims FOps (hex_kind FOps) k_point m &&
     same_value FOps (hex_kind FOps) k_point k_data2 (fun _ _ => true) m p1) = true) by (vm_compute; reflexivity).
  apply with_field_spec in H. destruct H as (m & p1 & Hm & Hp & H). apply andb_true_iff in H. destruct H as [H H3].
  apply andb_true_iff in H. destruct H as [H1 H2].
  unfold same_value in H3. destruct (pf_new (F := scalar_field FOps) "f" m k_data2 (nofZ FOps 0)) as [p2| | | |] eqn:E2; try discriminate H3.
  destruct (field_eval _ _ (m, p1)) as [s1 a1| | | |]; try discriminate H3.
  destruct (field_eval _ _ (m, p2)) as [s2 a2| | | |]; try discriminate H3. apply andb_true_iff in H3. destruct H3 as [H3 _].
  exists m, p1, p2. split; [exact Hm|]. split; [apply claims_spec; exact H2|].
  split; [exact (ready_spec FOps (hex_kind FOps) k_pts sl_cells k_data1 m p1 Hm Hp H1)|].
  exact (ready_spec FOps (hex_kind FOps) k_pts sl_cells k_data2 m p2 Hm E2 H3).
Qed.

(** Real numbers. *)
Lemma real_case_2d : exists (m : mesh ROps (quad_kind ROps)) p1 p2, rect_mesh ex_pts ex_cells /\ mesh_of (K := quad_kind ROps) ex_pts ex_cells m /\
  in_mesh2 ex_pts ex_cells (5/2, 1/4)%R /\ field_on (F := scalar_field ROps) m [1; 3; 0; 2; 5; 7]%R 0%R p1 /\
  field_on (F := scalar_field ROps) m [9; 3; 0; 4; 5; 7]%R 0%R p2.
Proof.
  destruct (rect_reads _ _ ex_mesh) as (m & elems & ax & Hm & _).
  destruct (rect_field_new ex_pts ex_cells m [1; 3; 0; 2; 5; 7]%R "f" ex_mesh Hm ltac:(simpl; lia)) as (p1 & _ & H1).
  destruct (rect_field_new ex_pts ex_cells m [9; 3; 0; 4; 5; 7]%R "f" ex_mesh Hm ltac:(simpl; lia)) as (p2 & _ & H2).
  exists m, p1, p2. split; [exact ex_mesh|]. split; [exact Hm|]. split; [exact ex_point|]. split; [exact H1|exact H2].
Qed.

Lemma real_case_3d : exists (m : mesh ROps (hex_kind ROps)) p1 p2, box_mesh sl_pts sl_cells /\ mesh_of (K := hex_kind ROps) sl_pts sl_cells m /\
  in_mesh3 sl_pts sl_cells sl_r /\ field_on (F := scalar_field ROps) m [0; 1; 2; 3; 4; 5; 6; 7; 8; 9; 10; 11]%R 0%R p1 /\
  field_on (F := scalar_field ROps) m [5; 1; 2; 7; 4; 5; 9; 7; 8; 0; 10; 11]%R 0%R p2.
Proof.
  destruct (box_reads _ _ sl_mesh) as (m & elems & ax & Hm & _).
  destruct (box_field_new sl_pts sl_cells m [0; 1; 2; 3; 4; 5; 6; 7; 8; 9; 10; 11]%R "f" sl_mesh Hm ltac:(simpl; lia)) as (p1 & _ & H1).
  destruct (box_field_new sl_pts sl_cells m [5; 1; 2; 7; 4; 5; 9; 7; 8; 0; 10; 11]%R "f" sl_mesh Hm ltac:(simpl; lia)) as (p2 & _ & H2).
  exists m, p1, p2. split; [exact sl_mesh|]. split; [exact Hm|]. split; [exact sl_in_mesh|]. split; [exact H1|exact H2].
Qed.
