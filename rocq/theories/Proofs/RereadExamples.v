(** Reading the same file twice end to end; concrete files. *)
From Coq Require Import ZArith QArith List Bool Ascii String Lia ZifyBool Reals.
From Verif Require Import Model.Outcome Model.Num Model.NumInst Model.PNDArray Model.Bin Model.PSimple Model.Interpolator Model.Quad
  Model.Hexahedron Model.Mesh Model.PField Model.Stream Model.Vtk.
From Verif Require Import Spec.Tensor Spec.Funcs Spec.Shape Spec.Fields Spec.Vtk Spec.Reread.
From Verif Require Import Proofs.OutcomeP Proofs.RectP Proofs.RectFieldP Proofs.FieldExamples Proofs.StreamP Proofs.VtkP
  Proofs.VtkSpecP Proofs.VtkLoopP Proofs.VtkExamples Proofs.RereadP.
Import ListNotations.
Local Open Scope Z_scope.

Local Notation QK := (quad_kind ROps).
Local Notation QV := (quad_vkind ROps).

Lemma find_first : forall (b : body QV) k p, nth_error (bo_fields QV b) k = Some p ->
  exists k' p', (k' <= k)%nat /\ find_scalar_field QV b (pf_name p) = Ok k' /\ nth_error (bo_fields QV b) k' = Some p'.
Proof.
  intros b k p Hp. destruct (find_scalar_field QV b (pf_name p)) as [k'|e| |u|] eqn:E.
  - destruct (proj1 (find_ok QV b _ _) E) as [(p' & Hp' & Hn) Hfirst].
    exists k', p'. split; [|split; [reflexivity|exact Hp']].
    destruct (Nat.le_gt_cases k' k) as [H|H]; [exact H|]. exfalso. exact (Hfirst k p H Hp eq_refl).
  - exfalso. unfold find_scalar_field in E. destruct (find_from_spec (bo_fields QV b) 0 (pf_name p)) as [(j & _ & _ & _ & _ & H)|[H _]]; [congruence|].
    rewrite Forall_forall in H. exact (H p (nth_error_In _ _ Hp) eq_refl).
  - exfalso. unfold find_scalar_field in E. destruct (find_from_spec (bo_fields QV b) 0 (pf_name p)) as [(j & _ & _ & _ & _ & H)|[H H']]; congruence.
  - exfalso. unfold find_scalar_field in E. destruct (find_from_spec (bo_fields QV b) 0 (pf_name p)) as [(j & _ & _ & _ & _ & H)|[H H']]; congruence.
  - exfalso. unfold find_scalar_field in E. destruct (find_from_spec (bo_fields QV b) 0 (pf_name p)) as [(j & _ & _ & _ & _ & H)|[H H']]; congruence.
Qed.

Lemma same_file_twice : forall num_text num_scanner pts cells fields t fuel,
  number_reader (A := R) num_text num_scanner -> vtk_text (O := ROps) num_text coords2 pts cells fields t -> rect_mesh pts cells ->
  8 * Z.of_nat (List.length cells) <= int_max ->
  Forall (fun f => (List.length pts <= List.length (snd f))%nat) fields -> (List.length t < fuel)%nat ->
  exists b1 b2, body_read_vtk QV num_scanner fuel (Some t) (body_new QV) = RRet b1 tt /\
    body_read_vtk QV num_scanner fuel (Some t) b1 = RRet b2 tt /\
    List.length (bo_fields QV b2) = (2 * List.length fields)%nat /\
    (forall k f r, nth_error fields k = Some f -> in_mesh2 pts cells r ->
      exists p, nth_error (bo_fields QV b2) (List.length fields + k) = Some p /\ named_field f p /\
      exists cell lo h v, In cell cells /\ cell_rect pts cell lo h /\ in_rect lo h r /\ cell_data (snd f) cell corners2 v /\
      forall q, on_axes 2 q -> exists s a, field_eval (K := QK) q r (bo_mesh QV b2, p) = RRet s (2 * a)%R /\ quantity2 (bilinear lo h v) q r a) /\
    (forall name, In name (map fst fields) ->
      exists k p r, find_scalar_field QV b2 (string_of_list_ascii name) = Ok k /\ nth_error (bo_fields QV b2) k = Some p /\ in_mesh2 pts cells r /\
      forall q, on_axes 2 q -> field_eval (K := QK) q r (bo_mesh QV b2, p) = RUB UBOutOfBounds).
Proof.
  intros num_text sc pts cells fields t fuel Hn Ht Hr Hc Hlen Hf.
  destruct (rect_reads _ _ Hr) as (m & _ & _ & Hm & _).
  destruct (read2_ok ROps num_text sc pts cells fields t m fuel Hn Ht Hm Hf) as (ps & E & Hps & Hnm & _).
  destruct (rect_rereads pts cells m m Hr Hm eq_refl eq_refl) as (_ & _ & m2 & Hon & _).
  destruct (onto2_ok ROps num_text sc pts cells fields t (mkBody QV m ps) m2 fuel Hn Ht (mesh_of_read _ _ _ _ _ Hm) Hon Hf) as (ps2 & E2 & Hps2).
  cbn [bo_fields] in E2. assert (L : List.length ps = List.length fields) by (symmetry; eapply MeshRP.Forall2_len; exact Hps).
  exists (mkBody QV m ps), (mkBody QV m2 (ps ++ ps2)). split; [exact E|]. split; [exact E2|]. cbn [bo_fields bo_mesh]. split; [|split].
  - rewrite app_length, L. apply MeshRP.Forall2_len in Hps2. exact (eq_trans (f_equal (Nat.add _) (eq_sym Hps2)) (eq_sym (f_equal (Nat.add _) (Nat.add_0_r _)))).
  - intros k f r Hk Hin. destruct (Forall2_nth' _ _ _ _ _ Hps2 k f Hk) as (p & Hp & Hnew).
    exists p. split; [rewrite nth_error_app2 by lia; rewrite <- L, Nat.add_comm, Nat.add_sub; exact Hp|].
    rewrite Forall_forall in Hlen. specialize (Hlen _ (nth_error_In _ _ Hk)).
    split. { unfold pf_new in Hnew. destruct (mesh_max_bin_size m2); try discriminate. cbn [obind] in Hnew. injection Hnew as <-. split; [reflexivity|split; [reflexivity|reflexivity]]. }
    destruct (rect_twice_value pts cells m m2 (snd f) _ p r Hr Hc Hm Hon Hlen Hnew Hin) as (cell & lo & h & v & H1 & H2 & H3 & H4 & H5).
    exists cell, lo, h, v. repeat (split; [assumption|]). intros q Hq. refine (H5 _ m2 p _ q Hq). constructor.
  - intros name Hin. apply in_map_iff in Hin. destruct Hin as (f & <- & Hin). apply In_nth_error in Hin. destruct Hin as (k & Hk).
    destruct (Forall2_nth' _ _ _ _ _ Hnm k f Hk) as (p & Hp & Hname & _).
    assert (Hlt : (k < List.length ps)%nat) by (apply nth_error_Some; congruence).
    assert (Hp' : nth_error (bo_fields QV (mkBody QV m2 (ps ++ ps2))) k = Some p) by (cbn [bo_fields]; rewrite nth_error_app1 by exact Hlt; exact Hp).
    destruct (find_first _ _ _ Hp') as (k1 & p1 & Hle & Hfind & Hp1). rewrite <- Hname.
    cbn [bo_fields] in Hp1. rewrite nth_error_app1 in Hp1 by lia.
    destruct (Forall2_nth _ _ _ _ _ Hps k1 p1 Hp1) as (f1 & Hf1 & Hnew).
    rewrite Forall_forall in Hlen. specialize (Hlen _ (nth_error_In _ _ Hf1)).
    destruct (rect_old_field pts cells m (snd f1) _ p1 Hr Hc Hm Hlen Hnew) as (r & Hrin & HUB).
    exists k1, p1, r. split; [exact Hfind|]. split; [rewrite nth_error_app1 by lia; exact Hp1|]. split; [exact Hrin|].
    intros q Hq. refine (HUB _ m p1 m2 _ Hon q Hq). constructor.
Qed.

(** ** Concrete files, in rational arithmetic *)

(** A square with one field. *)
Definition square_file (lo hi : string) : text := file
  ["POINTS 4 float"; lo ++ " " ++ lo ++ " 0"; hi ++ " " ++ lo ++ " 0"; lo ++ " " ++ hi ++ " 0"; hi ++ " " ++ hi ++ " 0"; "CELLS 1 5"; "4 0 1 3 2"; "CELL_TYPES 1"; "9";
   "POINT_DATA 4"; "SCALARS heat float 1"; "LOOKUP_TABLE default"; "1"; "2"; "3"; "4"]%string.

Local Notation WS := (whole_scanner QOps).
Local Notation A := (square_file "0" "1").
Local Notation B := (square_file "0" "2").
Local Notation C := (square_file "2" "3").

Lemma doubled : value_after WS 400 [A] 0 (1 # 2) (1 # 2) = Ok (5 # 2) /\ value_after WS 400 [A; A] 1 (1 # 2) (1 # 2) = Ok 5%Q /\
  value_after WS 400 [A; A] 0 (1 # 2) (1 # 2) = UB UBOutOfBounds.
Proof. vm_compute. auto. Qed.

Lemma other_geometry : value_after WS 400 [B] 0 (1 # 2) (1 # 2) = Ok (7 # 4) /\ value_after WS 400 [A; B] 1 (1 # 2) (1 # 2) = Ok 5%Q /\
  value_after WS 400 [B] 0 (3 # 2) (3 # 2) = Ok (13 # 4) /\ value_after WS 400 [A; B] 1 (3 # 2) (3 # 2) = Ok 0%Q.
Proof. vm_compute. auto. Qed.

Lemma threw : forall (S A : Type) (r : res S A), match r with RThrow _ DomainError => true | _ => false end = true -> exists s, r = RThrow s DomainError.
Proof. intros S A [| s [] | | |] H; try discriminate. exists s. reflexivity. Qed.

Lemma refused : value_after WS 400 [C] 0 (5 # 2) (5 # 2) = Ok (5 # 2) /\ value_after WS 400 [A] 0 (1 # 2) (1 # 2) = Ok (5 # 2) /\
  (exists b, read_all WS 400 [A; C] = RThrow b DomainError).
Proof. split; [vm_compute; reflexivity|]. split; [vm_compute; reflexivity|]. apply threw. vm_compute. reflexivity. Qed.

Lemma second_file : exists t1 t2 x y x' y',
  (exists v, value_after WS 400 [t1] 0 x y = Ok v) /\
  (exists v w, value_after WS 400 [t2] 0 x y = Ok v /\ value_after WS 400 [t1; t2] 1 x y = Ok w /\ ~ (v == w)%Q) /\
  (exists v, value_after WS 400 [t2] 0 x' y' = Ok v /\ ~ (v == 0)%Q /\ value_after WS 400 [t1; t2] 1 x' y' = Ok 0%Q).
Proof.
  destruct other_geometry as (H1 & H2 & H3 & H4). destruct doubled as (H0 & _).
  exists A, B, (1 # 2), (1 # 2), (3 # 2), (3 # 2). split; [exists (5 # 2); exact H0|]. split.
  - exists (7 # 4), 5%Q. split; [exact H1|]. split; [exact H2|]. unfold Qeq. cbn. lia.
  - exists (13 # 4). split; [exact H3|]. split; [unfold Qeq; cbn; lia|exact H4].
Qed.
Lemma second_refused : exists t1 t2 x y x' y', value_after WS 400 [t2] 0 x y = Ok (5 # 2) /\ value_after WS 400 [t1] 0 x' y' = Ok (5 # 2) /\
  (exists b, read_all WS 400 [t1; t2] = RThrow b DomainError).
Proof. exists A, C, (5 # 2), (5 # 2), (1 # 2), (1 # 2). exact refused. Qed.

Lemma ex_twice : number_reader whole_text (whole_scanner ROps) /\
  vtk_text whole_text coords2 (ex_points ROps) ex_cells (ex_fields ROps) ex_file /\ rect_mesh (ex_points ROps) ex_cells /\
  8 * Z.of_nat (List.length ex_cells) <= int_max /\
  Forall (fun f => (List.length (ex_points ROps) <= List.length (snd f))%nat) (ex_fields ROps) /\
  in_mesh2 (ex_points ROps) ex_cells (5/2, 1/4)%R.
Proof.
  split; [exact (whole_reader ROps)|]. split; [exact (ex_vtk ROps)|]. split; [exact ex_mesh|]. split; [vm_compute; discriminate|].
  split; [|exact ex_point]. constructor; [|constructor; [|constructor]]; cbn; lia.
Qed.
