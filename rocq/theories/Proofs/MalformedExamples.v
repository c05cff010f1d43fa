(** Malformed files in two and three dimensions; concrete files. *)
From Coq Require Import ZArith QArith List Bool Ascii String Lia ZifyBool Reals Lra.
From Verif Require Import Model.Outcome Model.Num Model.NumInst Model.PNDArray Model.Bin Model.PSimple Model.Interpolator Model.Quad
  Model.Hexahedron Model.Mesh Model.PField Model.Stream Model.Vtk.
From Verif Require Import Spec.Tensor Spec.Grid Spec.Funcs Spec.Shape Spec.Fields Spec.Vtk Spec.Reread Spec.Malformed.
From Verif Require Import Proofs.OutcomeP Proofs.MeshReadP Proofs.RectP Proofs.HexP Proofs.RectFieldP Proofs.FieldExamples Proofs.StreamP Proofs.VtkP
  Proofs.VtkSpecP Proofs.VtkLoopP Proofs.VtkExamples Proofs.MalformedP Proofs.ShortDataP.
Import ListNotations.
Local Open Scope Z_scope.

Lemma points_none : forall (O : NumOps) (K : kind O), (0 < kdim K)%nat -> mesh_points ([] : list (kpoint K)) (mesh_new (O := O) (K := K)) = RUB UBOutOfBounds.
Proof.
  intros O K H. unfold mesh_points, mbind, mmod, mlift. destruct (kdim K) as [|d]; [lia|]. reflexivity.
Qed.

Lemma points_nodes : forall (O : NumOps) (K : kind O) (m0 m1 : mesh O K) pts, mesh_points pts m0 = RRet m1 tt -> me_node m1 = me_node m0 ++ pts.
Proof. intros O K m0 m1 pts H. apply (mesh_points_node _ _ _ H). Qed.

Lemma bad_cell2 : forall (O : NumOps) num_text num_scanner pts cells rest t (m1 : mesh O (quad_kind O)) fuel,
  number_reader num_text num_scanner -> upto_cells num_text coords2 pts cells rest t -> mesh_points (K := quad_kind O) pts mesh_new = RRet m1 tt ->
  Exists (bad_cell 4 (List.length pts)) cells -> (List.length t < fuel)%nat ->
  body_read_vtk (quad_vkind O) num_scanner fuel (Some t) (body_new (quad_vkind O)) = RUB UBOutOfBounds.
Proof.
  intros O nt sc pts cells rest t m1 fuel Hn Ht Hm Hb Hf.
  refine (bad_cell_ub (quad_vkind O) nt sc coords2 Hn (coords2_point O) _ _ mesh_new pts cells rest t m1 fuel [] Ht Hf Hm _); [cbn; lia|cbn; lia|].
  pose proof (points_nodes _ _ _ _ _ Hm) as E. change (vk_kind (quad_vkind O)) with (quad_kind O). rewrite E. exact Hb.
Qed.

Lemma bad_cell3 : forall (O : NumOps) num_text num_scanner pts cells rest t (m1 : mesh O (hex_kind O)) fuel,
  number_reader num_text num_scanner -> upto_cells num_text coords3 pts cells rest t -> mesh_points (K := hex_kind O) pts mesh_new = RRet m1 tt ->
  Exists (bad_cell 8 (List.length pts)) cells -> (List.length t < fuel)%nat ->
  body_read_vtk (hex_vkind O) num_scanner fuel (Some t) (body_new (hex_vkind O)) = RUB UBOutOfBounds.
Proof.
  intros O nt sc pts cells rest t m1 fuel Hn Ht Hm Hb Hf.
  refine (bad_cell_ub (hex_vkind O) nt sc coords3 Hn (coords3_point O) _ _ mesh_new pts cells rest t m1 fuel [] Ht Hf Hm _); [cbn; lia|cbn; lia|].
  pose proof (points_nodes _ _ _ _ _ Hm) as E. change (vk_kind (hex_vkind O)) with (hex_kind O). rewrite E. exact Hb.
Qed.

Lemma bad_type2 : forall (O : NumOps) num_text num_scanner pts cells types rest t (m : mesh O (quad_kind O)) fuel,
  number_reader num_text num_scanner -> upto_types num_text coords2 pts cells types rest t -> mesh_of (K := quad_kind O) pts cells m ->
  Exists (fun k => ~ supported_type k) types -> (List.length t < fuel)%nat ->
  body_read_vtk (quad_vkind O) num_scanner fuel (Some t) (body_new (quad_vkind O)) = RExit.
Proof.
  intros O nt sc pts cells types rest t m fuel Hn Ht Hm Hb Hf. destruct (mesh_of_size _ _ _ (quad_answering O) Hm) as (mx & Hmx).
  refine (bad_type_exit (quad_vkind O) nt sc coords2 Hn (coords2_point O) _ _ mesh_new pts cells types rest t m mx fuel [] Ht Hf Hm Hmx Hb); cbn; lia.
Qed.

Lemma bad_type3 : forall (O : NumOps) num_text num_scanner pts cells types rest t (m : mesh O (hex_kind O)) fuel,
  number_reader num_text num_scanner -> upto_types num_text coords3 pts cells types rest t -> mesh_of (K := hex_kind O) pts cells m ->
  Exists (fun k => ~ supported_type k) types -> (List.length t < fuel)%nat ->
  body_read_vtk (hex_vkind O) num_scanner fuel (Some t) (body_new (hex_vkind O)) = RExit.
Proof.
  intros O nt sc pts cells types rest t m fuel Hn Ht Hm Hb Hf. destruct (mesh_of_size _ _ _ (hex_answering O) Hm) as (mx & Hmx).
  refine (bad_type_exit (hex_vkind O) nt sc coords3 Hn (coords3_point O) _ _ mesh_new pts cells types rest t m mx fuel [] Ht Hf Hm Hmx Hb); cbn; lia.
Qed.

Lemma no_points2 : forall (O : NumOps) num_text num_scanner cells rest t fuel,
  number_reader num_text num_scanner -> upto_cells num_text coords2 ([] : list (c2 O)) cells rest t -> (List.length t < fuel)%nat ->
  body_read_vtk (quad_vkind O) num_scanner fuel (Some t) (body_new (quad_vkind O)) = RUB UBOutOfBounds.
Proof.
  intros O nt sc cells rest t fuel Hn Ht Hf.
  refine (no_points_ub (quad_vkind O) nt sc coords2 Hn (coords2_point O) _ _ mesh_new [] cells rest t _ fuel [] Ht Hf _); [cbn; lia|cbn; lia|].
  apply (points_none O (quad_kind O)). cbn. lia.
Qed.

Lemma no_points3 : forall (O : NumOps) num_text num_scanner cells rest t fuel,
  number_reader num_text num_scanner -> upto_cells num_text coords3 ([] : list (c3 O)) cells rest t -> (List.length t < fuel)%nat ->
  body_read_vtk (hex_vkind O) num_scanner fuel (Some t) (body_new (hex_vkind O)) = RUB UBOutOfBounds.
Proof.
  intros O nt sc cells rest t fuel Hn Ht Hf.
  refine (no_points_ub (hex_vkind O) nt sc coords3 Hn (coords3_point O) _ _ mesh_new [] cells rest t _ fuel [] Ht Hf _); [cbn; lia|cbn; lia|].
  apply (points_none O (hex_kind O)). cbn. lia.
Qed.

Lemma short_eval2 : forall (O : NumOps) (F : FieldOps O) name (m0 : mesh O (quad_kind O)) (data : list (ft F)) zero p0 mx c l q h m p,
  mesh_read m0 -> mesh_max_bin_size m0 = Ok mx -> mx <= int_max -> pf_new name m0 data zero = Ok p0 ->
  Grid.view (me_bin m0) (kcoords (quad_kind O) c) = Ok l -> (exists it, In it l /\ it_range it c = true) ->
  (exists it, In it l /\ Z.of_nat (List.length data) <= it_node it) ->
  field_history (m0, p0) h (m, p) -> on_axes 2 q -> field_eval q c (m, p) = RUB UBOutOfBounds.
Proof.
  intros O F name m0 data zero p0 mx c l q h m p. exact (short_eval (K := quad_kind O) name m0 data zero p0 mx c l q h m p (quad_answering O)).
Qed.

Lemma short_eval3 : forall (O : NumOps) (F : FieldOps O) name (m0 : mesh O (hex_kind O)) (data : list (ft F)) zero p0 mx c l q h m p,
  mesh_read m0 -> mesh_max_bin_size m0 = Ok mx -> mx <= int_max -> pf_new name m0 data zero = Ok p0 ->
  Grid.view (me_bin m0) (kcoords (hex_kind O) c) = Ok l -> (exists it, In it l /\ it_range it c = true) ->
  (exists it, In it l /\ Z.of_nat (List.length data) <= it_node it) ->
  field_history (m0, p0) h (m, p) -> on_axes 3 q -> field_eval q c (m, p) = RUB UBOutOfBounds.
Proof.
  intros O F name m0 data zero p0 mx c l q h m p. exact (short_eval (K := hex_kind O) name m0 data zero p0 mx c l q h m p (hex_answering O)).
Qed.

(** ** Two rectangles, damaged *)

Definition bad_types (O : NumOps) (rest : text) : text :=
  lines [] ++ ls "POINTS 6 float" ++ newline :: ex_pt ++ lines [[]] ++ ls "CELLS 2 10" ++ newline :: ex_ct ++ lines [[]] ++ ls "CELL_TYPES 2" ++
  newline :: gaps [([" "%char], "9"); ([newline; " "%char], "8")]%string ++ newline :: rest.

Definition bad_ct : text := gaps [([" "%char], "4"); ([" "%char], "0"); ([" "%char], "1"); ([" "%char], "4"); ([" "%char], "3"); ([newline; " "%char], "4");
  ([" "%char], "1"); ([" "%char], "2"); ([" "%char], "6"); ([" "%char], "4")]%string.
Definition bad_cells_text (rest : text) : text :=
  lines [] ++ ls "POINTS 6 float" ++ newline :: ex_pt ++ lines [[]] ++ ls "CELLS 2 10" ++ newline :: bad_ct ++ newline :: rest.
Definition no_points_text (rest : text) : text :=
  lines [] ++ ls "POINTS 0 float" ++ newline :: [] ++ lines [] ++ ls "CELLS 0 0" ++ newline :: [] ++ rest.

Lemma ex_types_form : forall O rest, upto_types (O := O) whole_text coords2 (ex_points O) ex_cells [9; 8] (newline :: rest) (bad_types O rest).
Proof.
  intros O rest. exists [[]], (ls "CELL_TYPES 2"), (gaps [([" "%char], "9"); ([newline; " "%char], "8")]%string).
  split; [repeat (apply Forall_cons; [filler_line|]); apply Forall_nil|].
  split; [apply (count_ok _ _ "2" []); [reflexivity|no_line|dig|cbn; lia|after]|].
  split; [toks_ok; repeat (apply Forall2_cons; [ulong|]); apply Forall2_nil|].
  split; [right; after|]. split; [unfold int_max; cbn; lia|]. split; [right; after|].
  unfold bad_types. rewrite <- ?app_assoc.
  apply UptoCells with (xs := map (map (nofZ O)) [[0; 0; 0]; [2; 0; -1]; [3; 0; 0]; [0; 1; 0]; [2; 1; 0]; [3; 1; 0]]).
  - apply Forall_nil.
  - apply (count_ok _ _ "6" (ls " float")); [reflexivity|no_line|dig|cbn; lia|after].
  - repeat (apply Forall2_cons; [eexists; reflexivity|]). apply Forall2_nil.
  - toks_ok. repeat (apply Forall2_cons; [whole|]). apply Forall2_nil.
  - repeat (apply Forall_cons; [filler_line|]). apply Forall_nil.
  - right. after.
  - apply (count_ok _ _ "2" (ls " 10")); [reflexivity|no_line|dig|cbn; lia|after].
  - match goal with |- tokens _ _ ?l => let l' := eval vm_compute in l in change l with l' end.
    toks_ok. repeat (apply Forall2_cons; [ulong|]). apply Forall2_nil.
  - right. after.
  - unfold int_max; cbn; lia.
  - unfold int_max; cbn; lia.
  - repeat (apply Forall_cons; [unfold int_max; cbn; lia|]). apply Forall_nil.
Qed.

Lemma ex_cells_form : forall O rest, upto_cells (O := O) whole_text coords2 (ex_points O) [[0; 1; 4; 3]; [1; 2; 6; 4]] (newline :: rest) (bad_cells_text rest).
Proof.
  intros O rest. unfold bad_cells_text.
  apply UptoCells with (xs := map (map (nofZ O)) [[0; 0; 0]; [2; 0; -1]; [3; 0; 0]; [0; 1; 0]; [2; 1; 0]; [3; 1; 0]]).
  - apply Forall_nil.
  - apply (count_ok _ _ "6" (ls " float")); [reflexivity|no_line|dig|cbn; lia|after].
  - repeat (apply Forall2_cons; [eexists; reflexivity|]). apply Forall2_nil.
  - toks_ok. repeat (apply Forall2_cons; [whole|]). apply Forall2_nil.
  - repeat (apply Forall_cons; [filler_line|]). apply Forall_nil.
  - right. after.
  - apply (count_ok _ _ "2" (ls " 10")); [reflexivity|no_line|dig|cbn; lia|after].
  - match goal with |- tokens _ _ ?l => let l' := eval vm_compute in l in change l with l' end.
    toks_ok. repeat (apply Forall2_cons; [ulong|]). apply Forall2_nil.
  - right. after.
  - unfold int_max; cbn; lia.
  - unfold int_max; cbn; lia.
  - repeat (apply Forall_cons; [unfold int_max; cbn; lia|]). apply Forall_nil.
Qed.

Lemma ex_none_form : forall O rest, upto_cells (O := O) whole_text coords2 [] [] rest (no_points_text rest).
Proof.
  intros O rest. unfold no_points_text. apply UptoCells with (xs := []); try apply Forall_nil; try apply Forall2_nil; try apply TokNil; try (left; reflexivity);
    try (unfold int_max; cbn; lia).
  - apply (count_ok _ _ "0" (ls " float")); [reflexivity|no_line|dig|cbn; lia|after].
  - apply (count_ok _ _ "0" (ls " 0")); [reflexivity|no_line|dig|cbn; lia|after].
Qed.

Lemma ex_damaged : forall rest,
  (exists m1 m, mesh_points (K := quad_kind ROps) (ex_points ROps) mesh_new = RRet m1 tt /\ mesh_of (K := quad_kind ROps) (ex_points ROps) ex_cells m) /\
  upto_types (O := ROps) whole_text coords2 (ex_points ROps) ex_cells [9; 8] (newline :: rest) (bad_types ROps rest) /\
  Exists (fun k => ~ supported_type k) [9; 8] /\
  upto_cells (O := ROps) whole_text coords2 (ex_points ROps) [[0; 1; 4; 3]; [1; 2; 6; 4]] (newline :: rest) (bad_cells_text rest) /\
  Exists (bad_cell 4 (List.length (ex_points ROps))) [[0; 1; 4; 3]; [1; 2; 6; 4]] /\
  upto_cells (O := ROps) whole_text coords2 [] [] rest (no_points_text rest).
Proof.
  intros rest. rewrite ex_points_real at 1 2.
  destruct (rect_reads _ _ ex_mesh) as (m & _ & _ & (m1 & Hm1 & Hm2) & _).
  split; [exists m1, m; split; [exact Hm1|exists m1; auto]|]. split; [apply ex_types_form|].
  split; [apply Exists_cons_tl, Exists_cons_hd; intros [H|H]; discriminate|]. split; [apply ex_cells_form|].
  split; [|apply ex_none_form]. apply Exists_cons_tl, Exists_cons_hd. right. exists 2%nat, 6. split; [lia|]. split; [reflexivity|cbn; lia].
Qed.

(** ** Files of unit squares, computed *)

Definition square_with (cell type : string) (count : string) (data : list string) : text := file
  (List.app ["POINTS 4 float"; "0 0 0"; "1 0 0"; "0 1 0"; "1 1 0"; "CELLS 1 5"; cell; "CELL_TYPES 1"; type;
   "POINT_DATA " ++ count; "SCALARS heat float 1"; "LOOKUP_TABLE default"] data)%string.
Local Notation WS := (whole_scanner QOps).

Local Open Scope string_scope.
Lemma squares :
  value_after WS 400 [square_with "4 0 1 3 2" "9" "4" ["1"; "2"; "3"; "4"]] 0 (1 # 2) (1 # 2) = Ok (5 # 2) /\
  value_after WS 400 [square_with "4 0 1 3 2" "12" "4" ["1"; "2"; "3"; "4"]] 0 (1 # 2) (1 # 2) = Ok (5 # 2) /\
  value_after WS 400 [square_with "3 0 1 3" "9" "4" ["1"; "2"; "3"; "4"]] 0 (1 # 2) (1 # 2) = UB UBOutOfBounds /\
  value_after WS 400 [square_with "4 0 1 4 2" "9" "4" ["1"; "2"; "3"; "4"]] 0 (1 # 2) (1 # 2) = UB UBOutOfBounds /\
  value_after WS 400 [square_with "4 0 1 3 2" "8" "4" ["1"; "2"; "3"; "4"]] 0 (1 # 2) (1 # 2) = Exit /\
  value_after WS 400 [square_with "4 0 1 3 2" "9" "3" ["1"; "2"; "3"]] 0 (1 # 2) (1 # 2) = UB UBOutOfBounds.
Proof. vm_compute. repeat split. Qed.

Lemma ex_short_data : exists (m : mesh ROps (quad_kind ROps)) p0, mesh_of (K := quad_kind ROps) ex_pts ex_cells m /\
  pf_new (F := scalar_field ROps) "heat" m [1; 3; 0; 2; 5]%R 0%R = Ok p0 /\
  In [1; 2; 5; 4] ex_cells /\ cell_rect ex_pts [1; 2; 5; 4] (2, 0)%R (1, 1)%R /\ In 2 corners2 /\ vget [1; 2; 5; 4] 2 = Ok 5 /\
  in_rect (2, 0)%R (1, 1)%R (5/2, 1/4)%R.
Proof.
  destruct (rect_reads _ _ ex_mesh) as (m & _ & _ & Hm & _).
  destruct (rect_field_new ex_pts ex_cells m (repeat 0%R (List.length ex_pts)) "heat" ex_mesh Hm ltac:(rewrite repeat_length; apply le_n))
    as (p1 & _ & (_ & _ & (mx & Hmx & _) & _)).
  exists m. unfold pf_new. rewrite Hmx. cbn [obind]. eexists. split; [exact Hm|]. split; [reflexivity|].
  split; [right; left; reflexivity|]. split; [exact ex_rect1|]. split; [cbn; tauto|]. split; [reflexivity|].
  split; simpl; [exists (1/2)%R|exists (1/4)%R]; lra.
Qed.
