(** A file of decimal numbers that describes two boxes side by side. *)
From Coq Require Import ZArith List Bool Ascii String Reals Lra Lia.
From Flocq Require Import Core IEEE754.BinarySingleNaN.
From Verif Require Import Model.Outcome Model.Num Model.NumInst Model.PNDArray Model.Interpolator Model.Hexahedron Model.Mesh Model.PField Model.Stream Model.Vtk Model.SeriesIO Model.Decimal.
From Verif Require Import Spec.Tensor Spec.Funcs Spec.Shape Spec.Fields Spec.Vtk Spec.Rounding Spec.Rounding3 Spec.Decimal Spec.FileRounding Spec.FileRounding3.
From Verif Require Import Proofs.ShapeP Proofs.FieldExamples Proofs.HexP Proofs.VtkExamples Proofs.FloatExamples Proofs.FloatExamples3 Proofs.DecimalTextP Proofs.DecimalSeriesP Proofs.DecimalExamples Proofs.FileRoundP Proofs.FileRoundExamples
  Proofs.FileRound3P.
Import ListNotations.
Local Open Scope Z_scope.
Local Notation c3r := (@mkC3 ROps).
Local Notation c3d := (@mkC3 FOps).

Definition f3_file : text := file
  ["POINTS 12 double"; " -1 0 0 0.4 0 0 2 0 0"; " -1 1 0 0.4 1 0 2 1 0"; " -1 0 1 0.4 0 1 2 0 1"; " -1 1 1 0.4 1 1 2 1 1";
   "CELLS 2 18"; " 8 0 1 4 3 6 7 10 9"; " 8 1 2 5 4 7 8 11 10"; "CELL_TYPES 2"; " 12 12"; "POINT_DATA 12"; "SCALARS heat double"; "LOOKUP_TABLE default"; " 0.1 .7 -2.5 1 0 4e-1 1 0.1 -1 2 .7 1"]%string.
Definition f3_pts : list point3 := [c3r (-1) 0 0; c3r (2/5) 0 0; c3r (2) 0 0; c3r (-1) 1 0; c3r (2/5) 1 0; c3r (2) 1 0; c3r (-1) 0 1; c3r (2/5) 0 1; c3r (2) 0 1; c3r (-1) 1 1; c3r (2/5) 1 1; c3r (2) 1 1]%R.
Definition f3_data : list R := [1/10; 7/10; -5/2; 1; 0; 2/5; 1; 1/10; -1; 2; 7/10; 1]%R.
Definition f3_fields : list (text * list R) := [(ls "heat", f3_data)].

Local Notation s1 := [" "%char].
Local Notation n1 := [newline; " "%char].
Definition f3_pt : text := gaps [(s1, "-1"); (s1, "0"); (s1, "0"); (s1, "0.4"); (s1, "0"); (s1, "0"); (s1, "2"); (s1, "0"); (s1, "0"); (n1, "-1"); (s1, "1"); (s1, "0"); (s1, "0.4"); (s1, "1"); (s1, "0"); (s1, "2"); (s1, "1"); (s1, "0"); (n1, "-1"); (s1, "0"); (s1, "1"); (s1, "0.4"); (s1, "0"); (s1, "1"); (s1, "2"); (s1, "0"); (s1, "1"); (n1, "-1"); (s1, "1"); (s1, "1"); (s1, "0.4"); (s1, "1"); (s1, "1"); (s1, "2"); (s1, "1"); (s1, "1")]%string.
Definition f3_ct : text := gaps [(s1, "8"); (s1, "0"); (s1, "1"); (s1, "4"); (s1, "3"); (s1, "6"); (s1, "7"); (s1, "10"); (s1, "9"); (n1, "8"); (s1, "1"); (s1, "2"); (s1, "5"); (s1, "4"); (s1, "7"); (s1, "8"); (s1, "11"); (s1, "10")]%string.
Definition f3_tt : text := gaps [(s1, "12"); (s1, "12")]%string.
Definition f3_d : text := gaps [(s1, "0.1"); (s1, ".7"); (s1, "-2.5"); (s1, "1"); (s1, "0"); (s1, "4e-1"); (s1, "1"); (s1, "0.1"); (s1, "-1"); (s1, "2"); (s1, ".7"); (s1, "1")]%string.
Lemma f3_file_eq : f3_file =
  lines [] ++ ls "POINTS 12 double" ++ newline :: f3_pt ++ lines [[]] ++ ls "CELLS 2 18" ++ newline :: f3_ct ++ lines [[]] ++ ls "CELL_TYPES 2" ++ newline :: f3_tt ++
  [] ++ newline :: ls "POINT_DATA 12" ++ newline :: ls "SCALARS heat double" ++ newline :: ls "LOOKUP_TABLE default" ++ newline :: f3_d ++ [] ++ newline :: [].
Proof. reflexivity. Qed.

Lemma num_2 : small_numeral (ls "2") 2.
Proof. num (@nil ascii) (txt "2") (@nil ascii) (@nil ascii) 2 false 2%R. Qed.
Ltac a_num3 := first [exact num_2|exact num_0|exact num_1|exact num_m1|exact num_04|exact num_4e|exact num_01|exact num_07|exact num_25].

Lemma f3_vtk : vtk_text (O := ROps) small_numeral coords3 f3_pts sl_cells f3_fields f3_file.
Proof.
  rewrite f3_file_eq. apply VtkText with (xs := map (fun p => [cx p; cy p; cz p]) f3_pts) (types := [12; 12]).
  - apply Forall_nil.
  - apply (count_ok2 _ _ "12" (ls " double")); [reflexivity|no_line|dig2|cbn; lia|after].
  - repeat (apply Forall2_cons; [reflexivity|]). apply Forall2_nil.
  - toks3. repeat (apply Forall2_cons; [a_num3|]). apply Forall2_nil.
  - repeat (apply Forall_cons; [filler_line|]). apply Forall_nil.
  - right. after.
  - apply (count_ok2 _ _ "2" (ls " 18")); [reflexivity|no_line|dig2|cbn; lia|after].
  - match goal with |- tokens _ _ ?l => let l' := eval vm_compute in l in change l with l' end.
    toks3. repeat (apply Forall2_cons; [ulong2|]). apply Forall2_nil.
  - repeat (apply Forall_cons; [filler_line|]). apply Forall_nil.
  - right. after.
  - apply (count_ok2 _ _ "2" []); [reflexivity|no_line|dig2|cbn; lia|after].
  - repeat (apply Forall_cons; [auto|]). apply Forall_nil.
  - toks3. repeat (apply Forall2_cons; [ulong2|]). apply Forall2_nil.
  - right. after.
  - apply DataFiller; [filler_line|].
    apply DataCount with (n := 12); [apply (count_ok2 _ _ "12" []); [reflexivity|no_line|dig2|cbn; lia|after]|].
    apply DataField; [apply (name_ok _ "heat" (ls " double")); [reflexivity|no_line|wordy|after]|no_line|reflexivity|unfold int_max; lia| |right; after|].
    { toks3. repeat (apply Forall2_cons; [a_num3|]). apply Forall2_nil. }
    apply DataFiller; [filler_line|]. apply DataEnd. filler_line.
  - unfold int_max; cbn; lia.
  - unfold int_max; cbn; lia.
  - unfold int_max; cbn; lia.
  - repeat (apply Forall_cons; [unfold int_max; cbn; lia|]). apply Forall_nil.
Qed.

Lemma td_2 : to_double 2 = 2%R.
Proof. rewrite <- two_value. apply to_double_value. Qed.
Lemma f3_rounded : map rounded_point3 f3_pts = be_rpts.
Proof. unfold f3_pts, rounded_point3, be_rpts. cbn [map cx cy cz]. rewrite td_0, td_1, td_m1, td_04, td_2, d04_value. reflexivity. Qed.

Lemma f3_box0 : cell_box f3_pts [0; 1; 4; 3; 6; 7; 10; 9] (c3r (-1) 0 0)%R (c3r (7/5) 1 1)%R.
Proof.
  split; [unfold positive3; simpl; lra|]. intros k Hk. cases3 Hk;
    (eexists; split; [reflexivity|]); unfold vget, f3_pts, corner3; simpl; f_equal; f_equal; lra.
Qed.
Lemma f3_box1 : cell_box f3_pts [1; 2; 5; 4; 7; 8; 11; 10] (c3r (2/5) 0 0)%R (c3r (8/5) 1 1)%R.
Proof.
  split; [unfold positive3; simpl; lra|]. intros k Hk. cases3 Hk;
    (eexists; split; [reflexivity|]); unfold vget, f3_pts, corner3; simpl; f_equal; f_equal; lra.
Qed.
Lemma f3_distinct : distinct (map cx f3_pts) = 3 /\ distinct (map cy f3_pts) = 2 /\ distinct (map cz f3_pts) = 2.
Proof.
  split; [apply (distinct_eq _ [-1; 2/5; 2]%R)|split; apply (distinct_eq _ [0; 1]%R)];
    try (intros x; simpl; tauto); repeat constructor; simpl; intros H; repeat (destruct H as [H|H]; [lra|]); auto.
Qed.
Lemma f3_mesh : box_mesh f3_pts sl_cells.
Proof.
  destruct f3_distinct as (D1 & D2 & D3). split; [discriminate|]. split.
  - constructor; [eexists; eexists; exact f3_box0|]. constructor; [eexists; eexists; exact f3_box1|constructor].
  - rewrite D1, D2, D3. unfold int_max. split; [lia|simpl; lia].
Qed.
Lemma f3_layer : one_layer f3_pts sl_cells.
Proof.
  exists 0%R, 1%R. intros cell lo h [<-|[<-|[]]] Hc.
  - destruct (box_unique _ _ _ _ _ _ f3_box0 Hc) as [-> ->]. auto.
  - destruct (box_unique _ _ _ _ _ _ f3_box1 Hc) as [-> ->]. auto.
Qed.
Lemma f3_apart : apart3 f3_pts.
Proof.
  assert (E : (0 < value d04 < 2)%R) by (rewrite d04_value; lra).
  assert (B : forall l, (forall x, In x l -> x = 0 \/ x = 1)%R -> apart l).
  { intros l Hl x y Hx Hy H. destruct (Hl x Hx) as [-> | ->]; destruct (Hl y Hy) as [-> | ->]; try (exfalso; lra); rewrite td_0, td_1; lra. }
  split; [|split; apply B; intros x Hx; simpl in Hx; repeat (destruct Hx as [<-|Hx]; [lra|]); contradiction].
  assert (B' : forall l, (forall x, In x l -> x = -1 \/ x = 2/5 \/ x = 2)%R -> apart l).
  { intros l Hl x y Hx Hy H. destruct (Hl x Hx) as [-> | [-> | ->]]; destruct (Hl y Hy) as [-> | [-> | ->]]; try (exfalso; lra); rewrite ?td_m1, ?td_04, ?td_2; lra. }
  apply B'. intros x Hx. simpl in Hx. repeat (destruct Hx as [<-|Hx]; [lra|]). contradiction.
Qed.
Lemma f3_inside : in_mesh3 f3_pts sl_cells (point_value3 be_r).
Proof.
  exists [0; 1; 4; 3; 6; 7; 10; 9], (c3r (-1) 0 0)%R, (c3r (7/5) 1 1)%R. split; [simpl; auto|]. split; [exact f3_box0|].
  unfold point_value3, be_r. cbn [cx cy cz]. rewrite quarter_value, half_value. unfold in_box, between1. cbn [cx cy cz]. split; [|split; exists (1 / 2)%R; lra].
  exists (25/28)%R. lra.
Qed.
Lemma f3_case : vtk_text (O := ROps) small_numeral coords3 f3_pts sl_cells f3_fields f3_file /\ box_mesh f3_pts sl_cells /\ one_layer f3_pts sl_cells /\ apart3 f3_pts /\
  resolved3 (map rounded_point3 f3_pts) /\ In (ls "heat") (map fst f3_fields) /\
  Forall (fun f => (List.length f3_pts <= List.length (snd f))%nat) f3_fields /\ in_mesh3 f3_pts sl_cells (point_value3 be_r).
Proof.
  rewrite f3_rounded. repeat (split; [first [exact f3_vtk|exact f3_mesh|exact f3_layer|exact f3_apart|exact be_resolved|left; reflexivity|apply Forall_cons; [apply le_n|apply Forall_nil]]|]).
  exact f3_inside.
Qed.

(** What the program answers, with 17 digits. *)
Definition f3_run : outcome text :=
  match body_read_vtk (hex_vkind FOps) double_scanner 1000 (Some f3_file) (body_new (hex_vkind FOps)) with
  | RRet bo _ => match nth_error (bo_fields (hex_vkind FOps) bo) 0 with
                 | Some p => match field_eval (K := hex_kind FOps) (F := scalar_field FOps) QVal be_r (bo_mesh (hex_vkind FOps) bo, p) with
                             | RRet _ a => Ok (print_double 17 a)
                             | _ => Exit
                             end
                 | None => Exit
                 end
  | _ => Exit
  end.
