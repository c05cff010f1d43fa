(** A file that is read, and what its body leaves behind. *)
From Coq Require Import ZArith List Bool Ascii String Lia.
From Verif Require Import Model.Outcome Model.Num Model.PNDArray Model.Interpolator Model.Quad Model.Hexahedron Model.Mesh Model.PField
  Model.Stream Model.Vtk Model.Life.
From Verif Require Import Spec.Fields Spec.Vtk Spec.Life.
From Verif Require Import Proofs.VtkSpecP Proofs.LifeP.
From Verif Require Import Model.NumInst Proofs.FieldExamples Proofs.VtkExamples.
From Verif Require Proofs.MeshRP Proofs.RectP Proofs.HexP.
Import ListNotations.

Lemma concat_length_all : forall (X : Type) n (parts : list (list X)), Forall (fun p => List.length p = n) parts ->
  List.length (List.concat parts) = n * List.length parts.
Proof.
  intros X n parts H. induction H as [|p parts Hp _ IH]; cbn [List.concat List.length]; [lia|]. rewrite app_length, IH, Hp. lia.
Qed.

Lemma interpolators_count : forall (O : NumOps) (K : kind O) pts cells its, all_interpolators (K := K) pts cells its ->
  List.length its = kcorners K * List.length cells.
Proof.
  intros O K pts cells its (parts & -> & L & H). rewrite <- L. apply concat_length_all. apply Forall_forall. intros part Hin.
  apply In_nth_error in Hin. destruct Hin as (k & Hk).
  destruct (nth_error cells k) as [cell|] eqn:Hc.
  - exact (proj1 (H k cell part Hc Hk)).
  - exfalso. apply nth_error_None in Hc. assert (Hlt : k < List.length parts) by (apply nth_error_Some; congruence). lia.
Qed.

(** A new body, into which one file with [n] interpolators and [k] fields is read, is then destroyed. *)
Definition use_once (n k : nat) : list life_op := [LNew; LRead 0 n k; LDelete 0].

Lemma use_once_ub : forall n k, 0 < n -> life_run false (use_once n k) life_start = UB UBBadDelete.
Proof. intros [|n] k H; [lia|]. reflexivity. Qed.

Lemma file_deleted_2d : forall (O : NumOps) num_text num_scanner pts cells fields t (m : mesh O (quad_kind O)) fuel,
  number_reader num_text num_scanner -> vtk_text num_text coords2 pts cells fields t -> mesh_of (K := quad_kind O) pts cells m ->
  cells <> [] -> (List.length t < fuel)%nat ->
  exists bo, body_read_vtk (quad_vkind O) num_scanner fuel (Some t) (body_new (quad_vkind O)) = RRet bo tt /\
    let n := List.length (me_interp (bo_mesh (quad_vkind O) bo)) in let k := List.length (bo_fields (quad_vkind O) bo) in
    n = 4 * List.length cells /\ k = List.length fields /\ life_run false [LNew; LRead 0 n k; LDelete 0] life_start = UB UBBadDelete.
Proof.
  intros O num_text sc pts cells fields t m fuel Hn Ht Hm Hc Hf.
  destruct (read2_ok O num_text sc pts cells fields t m fuel Hn Ht Hm Hf) as (ps & E & Hps & _ & _ & Hi).
  exists (mkBody (quad_vkind O) m ps). split; [exact E|]. cbn [bo_mesh bo_fields]. cbv zeta.
  pose proof (interpolators_count _ _ _ _ _ Hi) as L. change (kcorners (quad_kind O)) with 4 in L.
  split; [exact L|]. split; [symmetry; eapply MeshRP.Forall2_len; exact Hps|]. apply use_once_ub.
  refine (eq_ind_r (fun z => 0 < z) _ L). destruct cells; [congruence|]. cbn [List.length]. lia.
Qed.

Lemma file_deleted_3d : forall (O : NumOps) num_text num_scanner pts cells fields t (m : mesh O (hex_kind O)) fuel,
  number_reader num_text num_scanner -> vtk_text num_text coords3 pts cells fields t -> mesh_of (K := hex_kind O) pts cells m ->
  cells <> [] -> (List.length t < fuel)%nat ->
  exists bo, body_read_vtk (hex_vkind O) num_scanner fuel (Some t) (body_new (hex_vkind O)) = RRet bo tt /\
    let n := List.length (me_interp (bo_mesh (hex_vkind O) bo)) in let k := List.length (bo_fields (hex_vkind O) bo) in
    n = 8 * List.length cells /\ k = List.length fields /\ life_run false [LNew; LRead 0 n k; LDelete 0] life_start = UB UBBadDelete.
Proof.
  intros O num_text sc pts cells fields t m fuel Hn Ht Hm Hc Hf.
  destruct (read3_ok O num_text sc pts cells fields t m fuel Hn Ht Hm Hf) as (ps & E & Hps & _ & _ & Hi).
  exists (mkBody (hex_vkind O) m ps). split; [exact E|]. cbn [bo_mesh bo_fields]. cbv zeta.
  pose proof (interpolators_count _ _ _ _ _ Hi) as L. change (kcorners (hex_kind O)) with 8 in L.
  split; [exact L|]. split; [symmetry; eapply MeshRP.Forall2_len; exact Hps|]. apply use_once_ub.
  refine (eq_ind_r (fun z => 0 < z) _ L). destruct cells; [congruence|]. cbn [List.length]. lia.
Qed.

(** ** A concrete program *)

(** Two bodies; two files; fields of the first evaluated, one of them cloned, evaluated and deleted; everything deleted. *)
Definition two_bodies : list life_op :=
  [LNew; LRead 0 8 2; LNew; LEval 0 1 [3; 7]; LClone 0 0; LEvalClone 0 [0; 5]; LRead 1 4 1; LDeleteClone 0; LDelete 0; LEval 1 0 [2]; LDelete 1].

Lemma snoc_proper : forall os o l, l = os ++ [o] -> proper os -> careful os o -> proper l.
Proof. intros os o l -> H H'. constructor; assumption. Qed.

Ltac not_in := let H := fresh in intros H; cbn in H; repeat (destruct H as [H|H]; [discriminate|]); exact H.
Ltac alive := split; [vm_compute; lia|not_in].

Lemma two_bodies_start : proper (firstn 8 two_bodies).
Proof.
  unfold two_bodies. cbn [firstn].
  apply (snoc_proper [LNew; LRead 0 8 2; LNew; LEval 0 1 [3; 7]; LClone 0 0; LEvalClone 0 [0; 5]; LRead 1 4 1] (LDeleteClone 0)); [reflexivity| |alive].
  apply (snoc_proper [LNew; LRead 0 8 2; LNew; LEval 0 1 [3; 7]; LClone 0 0; LEvalClone 0 [0; 5]] (LRead 1 4 1)); [reflexivity| |alive].
  apply (snoc_proper [LNew; LRead 0 8 2; LNew; LEval 0 1 [3; 7]; LClone 0 0] (LEvalClone 0 [0; 5])); [reflexivity| |].
  2: { split; [alive|]. exists 0. split; [reflexivity|]. split; [alive|]. repeat constructor; vm_compute; lia. }
  apply (snoc_proper [LNew; LRead 0 8 2; LNew; LEval 0 1 [3; 7]] (LClone 0 0)); [reflexivity| |split; [alive|vm_compute; lia]].
  apply (snoc_proper [LNew; LRead 0 8 2; LNew] (LEval 0 1 [3; 7])); [reflexivity| |split; [alive|split; [vm_compute; lia|repeat constructor; vm_compute; lia]]].
  apply (snoc_proper [LNew; LRead 0 8 2] LNew); [reflexivity| |exact Logic.I].
  apply (snoc_proper [LNew] (LRead 0 8 2)); [reflexivity| |alive].
  apply (snoc_proper [] LNew); [reflexivity| |exact Logic.I]. constructor.
Qed.

Lemma two_bodies_proper : proper two_bodies.
Proof.
  apply (snoc_proper (firstn 8 two_bodies ++ [LDelete 0; LEval 1 0 [2]]) (LDelete 1)); [reflexivity| |alive].
  apply (snoc_proper (firstn 8 two_bodies ++ [LDelete 0]) (LEval 1 0 [2])); [reflexivity| |split; [alive|split; [vm_compute; lia|repeat constructor; vm_compute; lia]]].
  apply (snoc_proper (firstn 8 two_bodies) (LDelete 0)); [reflexivity| |alive]. exact two_bodies_start.
Qed.

Lemma two_bodies_facts : proper two_bodies /\ (forall a, a < bodies two_bodies -> In (LDelete a) two_bodies) /\
  (forall c, c < clones two_bodies -> In (LDeleteClone c) two_bodies) /\ ~ no_mesh_deleted two_bodies.
Proof.
  split; [exact two_bodies_proper|]. split; [|split].
  - intros [|[|a]] H; [cbn; tauto|cbn; tauto|vm_compute in H; lia].
  - intros [|c] H; [cbn; tauto|vm_compute in H; lia].
  - intros N. specialize (N (firstn 8 two_bodies) 0 [LEval 1 0 [2]; LDelete 1] eq_refl). discriminate.
Qed.

Lemma start_facts : let os := firstn 8 two_bodies in proper os /\ no_mesh_deleted os /\ live_body os 0 /\ live_body os 1 /\
  elements 0 os = 8 /\ elements 1 os = 4 /\ fields 0 os = 2 /\ bodies os = 2 /\ clones os = 1.
Proof.
  cbv zeta. split; [exact two_bodies_start|]. split.
  { intros os1 a os2 E. exfalso. assert (H : In (LDelete a) (firstn 8 two_bodies)) by (rewrite E; apply in_elt). revert H. not_in. }
  split; [alive|]. split; [alive|]. repeat split.
Qed.

Lemma file_case : number_reader whole_text (whole_scanner ROps) /\
  vtk_text whole_text coords2 (ex_points ROps) ex_cells (ex_fields ROps) ex_file /\
  (exists m, mesh_of (K := quad_kind ROps) (ex_points ROps) ex_cells m) /\ ex_cells <> [] /\
  vtk_text whole_text coords3 (st_points ROps) st_cells (st_fields ROps) st_file /\
  (exists m, mesh_of (K := hex_kind ROps) (st_points ROps) st_cells m) /\ st_cells <> [].
Proof.
  split; [exact (whole_reader ROps)|]. split; [exact (ex_vtk ROps)|]. split.
  { destruct (RectP.rect_reads _ _ ex_mesh) as (m & _ & _ & Hm & _). exists m. exact Hm. }
  split; [discriminate|]. split; [exact (st_vtk ROps)|]. split; [|discriminate].
  destruct (HexP.box_reads _ _ st_mesh) as (m & _ & _ & Hm & _). exists m. exact Hm.
Qed.

Lemma careless_case : ~ careful two_bodies (LRead 0 4 1) /\ (forall a, LRead 0 4 1 <> LCopy a) /\ (forall a b, LRead 0 4 1 <> LAssign a b).
Proof.
  split; [|split; discriminate]. intros [_ H]. apply H. destruct two_bodies_facts as (_ & D & _). apply D. vm_compute. lia.
Qed.
