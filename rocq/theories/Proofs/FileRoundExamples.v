(** A file of decimal numbers. *)
From Coq Require Import ZArith List Bool Ascii String Reals Lra Lia.
From Flocq Require Import Core IEEE754.BinarySingleNaN.
From Verif Require Import Model.Outcome Model.Num Model.NumInst Model.PNDArray Model.Interpolator Model.Quad Model.Mesh Model.PField Model.Stream Model.Vtk Model.SeriesIO Model.Decimal.
From Verif Require Import Spec.Tensor Spec.Funcs Spec.Shape Spec.Fields Spec.Vtk Spec.Rounding Spec.Decimal Spec.FileRounding.
From Verif Require Import Proofs.FieldExamples Proofs.VtkExamples Proofs.FloatExamples Proofs.DecimalTextP Proofs.DecimalSeriesP Proofs.DecimalExamples Proofs.FileRoundP.
Import ListNotations.
Local Open Scope Z_scope.

Definition fr_file : text := file
  ["POINTS 4 double"; " -1 0 0 0.4 0 0"; " 4e-1 1 0 -1 1 0"; "CELLS 1 5"; " 4 0 1 2 3"; "CELL_TYPES 1"; " 9"; "POINT_DATA 4"; "SCALARS heat double"; "LOOKUP_TABLE default"; " 0.1 .7 -2.5 1"]%string.
Definition fr_pts : list point2 := [(-1, 0); (2/5, 0); (2/5, 1); (-1, 1)]%R.
Definition fr_data : list R := [1/10; 7/10; -5/2; 1]%R.
Definition fr_fields : list (text * list R) := [(ls "heat", fr_data)].

Local Notation s1 := [" "%char].
Local Notation n1 := [newline; " "%char].
Definition fr_pt : text := gaps [(s1, "-1"); (s1, "0"); (s1, "0"); (s1, "0.4"); (s1, "0"); (s1, "0"); (n1, "4e-1"); (s1, "1"); (s1, "0"); (s1, "-1"); (s1, "1"); (s1, "0")]%string.
Definition fr_ct : text := gaps [(s1, "4"); (s1, "0"); (s1, "1"); (s1, "2"); (s1, "3")]%string.
Definition fr_tt : text := gaps [(s1, "9")]%string.
Definition fr_d : text := gaps [(s1, "0.1"); (s1, ".7"); (s1, "-2.5"); (s1, "1")]%string.
Definition fr_rest : text :=
  [] ++ newline :: ls "POINT_DATA 4" ++ newline :: ls "SCALARS heat double" ++ newline :: ls "LOOKUP_TABLE default" ++ newline :: fr_d ++ [] ++ newline :: [].
Lemma fr_file_eq : fr_file =
  lines [] ++ ls "POINTS 4 double" ++ newline :: fr_pt ++ lines [[]] ++ ls "CELLS 1 5" ++ newline :: fr_ct ++ lines [[]] ++ ls "CELL_TYPES 1" ++ newline :: fr_tt ++ fr_rest.
Proof. reflexivity. Qed.

Ltac isdigits := apply digits_iff; split; [repeat (constructor; [match goal with |- isd ?c => exists (match digit c with Some d => d | None => 0 end); split; [vm_compute; split; discriminate|reflexivity] end|]); constructor|reflexivity].
Ltac num s i t f m neg y :=
  split; [exists neg, y; split; [exists s, i, t, f, (@nil ascii), m, 0; split; [reflexivity|]; split; [first [left; split; reflexivity|right; split; [left; reflexivity|reflexivity]]|];
    split; [first [left; split; reflexivity|right; reflexivity]|]; split; [left; auto|]; split; [isdigits|]; split; [discriminate|simpl; lra]|lra]|
    apply Rabs_le; assert (1 <= bpow radix2 1000)%R by (apply (bpow_le radix2 0 1000); discriminate); assert (8 <= bpow radix2 1000)%R by (replace 8%R with (bpow radix2 3) by (cbn; lra); apply bpow_le; discriminate); lra].

Lemma num_0 : small_numeral (ls "0") 0.
Proof. num (@nil ascii) (txt "0") (@nil ascii) (@nil ascii) 0 false 0%R. Qed.
Lemma num_1 : small_numeral (ls "1") 1.
Proof. num (@nil ascii) (txt "1") (@nil ascii) (@nil ascii) 1 false 1%R. Qed.
Lemma num_m1 : small_numeral (ls "-1") (-1).
Proof. num (txt "-") (txt "1") (@nil ascii) (@nil ascii) 1 true 1%R. Qed.
Lemma num_04 : small_numeral (ls "0.4") (2/5).
Proof. num (@nil ascii) (txt "0") (txt ".4") (txt "4") 4 false (2/5)%R. Qed.
Lemma num_01 : small_numeral (ls "0.1") (1/10).
Proof. num (@nil ascii) (txt "0") (txt ".1") (txt "1") 1 false (1/10)%R. Qed.
Lemma num_07 : small_numeral (ls ".7") (7/10).
Proof. num (@nil ascii) (@nil ascii) (txt ".7") (txt "7") 7 false (7/10)%R. Qed.
Lemma num_25 : small_numeral (ls "-2.5") (-5/2).
Proof. num (txt "-") (txt "2") (txt ".5") (txt "5") 25 true (5/2)%R. Qed.
Lemma num_4e : small_numeral (ls "4e-1") (2/5).
Proof.
  split; [|exact (proj2 num_04)]. exists false, (2/5)%R. split; [|reflexivity]. exists [], (txt "4"), [], [], (txt "e-1"), 4, (-1). split; [reflexivity|]. split; [right; auto|]. split; [left; auto|]. split.
  - right. exists "e"%char, (txt "-"), (txt "1"), true, 1. split; [reflexivity|]. split; [left; reflexivity|]. split; [left; auto|]. split; [exact (DecDigit 1 ltac:(lia))|reflexivity].
  - split; [isdigits|]. split; [discriminate|simpl; lra].
Qed.
Ltac a_num := first [exact num_0|exact num_1|exact num_m1|exact num_04|exact num_4e|exact num_01|exact num_07|exact num_25].

Lemma fr_vtk : vtk_text (O := ROps) small_numeral coords2 fr_pts fe_cells fr_fields fr_file.
Proof.
  rewrite fr_file_eq. apply VtkText with (xs := [[-1; 0; 0]; [2/5; 0; 0]; [2/5; 1; 0]; [-1; 1; 0]]%R) (types := [9]).
  - apply Forall_nil.
  - apply (count_ok _ _ "4" (ls " double")); [reflexivity|no_line|dig|cbn; lia|after].
  - repeat (apply Forall2_cons; [eexists; reflexivity|]). apply Forall2_nil.
  - toks_ok. repeat (apply Forall2_cons; [a_num|]). apply Forall2_nil.
  - repeat (apply Forall_cons; [filler_line|]). apply Forall_nil.
  - right. after.
  - apply (count_ok _ _ "1" (ls " 5")); [reflexivity|no_line|dig|cbn; lia|after].
  - match goal with |- tokens _ _ ?l => let l' := eval vm_compute in l in change l with l' end.
    toks_ok. repeat (apply Forall2_cons; [ulong|]). apply Forall2_nil.
  - repeat (apply Forall_cons; [filler_line|]). apply Forall_nil.
  - right. after.
  - apply (count_ok _ _ "1" []); [reflexivity|no_line|dig|cbn; lia|after].
  - repeat (apply Forall_cons; [auto|]). apply Forall_nil.
  - toks_ok. repeat (apply Forall2_cons; [ulong|]). apply Forall2_nil.
  - right. after.
  - unfold fr_rest. apply DataFiller; [filler_line|].
    apply DataCount with (n := 4); [apply (count_ok _ _ "4" []); [reflexivity|no_line|dig|cbn; lia|after]|].
    apply DataField; [apply (name_ok _ "heat" (ls " double")); [reflexivity|no_line|wordy|after]|no_line|reflexivity|unfold int_max; lia| |right; after|].
    { toks_ok. repeat (apply Forall2_cons; [a_num|]). apply Forall2_nil. }
    apply DataFiller; [filler_line|]. apply DataEnd. filler_line.
  - unfold int_max; cbn; lia.
  - unfold int_max; cbn; lia.
  - unfold int_max; cbn; lia.
  - repeat (apply Forall_cons; [unfold int_max; cbn; lia|]). apply Forall_nil.
Qed.

(** The points, rounded. *)
Lemma td_0 : to_double 0 = 0%R.
Proof. rewrite <- z0_value. apply to_double_value. Qed.
Lemma td_1 : to_double 1 = 1%R.
Proof. rewrite <- one_value. apply to_double_value. Qed.
Lemma td_m1 : to_double (-1) = (-1)%R.
Proof. rewrite <- m1_value. apply to_double_value. Qed.
Lemma td_04 : to_double (2/5) = value d04.
Proof.
  assert (D : decimal_text (ls "0.4") false (2/5)).
  { exists [], (txt "0"), (txt ".4"), (txt "4"), [], 4, 0. split; [reflexivity|]. split; [right; auto|]. split; [right; reflexivity|]. split; [left; auto|]. split; [isdigits|]. split; [discriminate|simpl; lra]. }
  pose proof (reads _ _ _ [] D (or_introl eq_refl)) as R. rewrite app_nil_r in R.
  assert (S : B2SF (fst (fst (double_scanner (ls "0.4")))) = B2SF d04) by (vm_compute; reflexivity). apply B2SF_inj in S.
  destruct (Rlt_bool (to_double (2/5)) (bpow radix2 1024)).
  - destruct R as (a & E & _ & _ & V). rewrite <- V. rewrite E in S. cbn [fst] in S. rewrite S. reflexivity.
  - exfalso. rewrite R in S. cbn [fst] in S. apply (f_equal B2SF) in S. vm_compute in S. discriminate S.
Qed.
Lemma fr_rounded : map rounded_point fr_pts = fe_rpts.
Proof. unfold fr_pts, rounded_point, fe_rpts. cbn [map fst snd]. rewrite td_0, td_1, td_m1, td_04, d04_value. reflexivity. Qed.

Lemma fr_rect : cell_rect fr_pts [0; 1; 2; 3] (-1, 0)%R (7/5, 1)%R.
Proof.
  split; [split; simpl; lra|]. intros k Hk. simpl in Hk. destruct Hk as [<-|[<-|[<-|[<-|[]]]]];
    [exists 0|exists 1|exists 2|exists 3]; (split; [reflexivity|]); unfold vget, fr_pts, corner2; simpl; f_equal; f_equal; lra.
Qed.
Lemma fr_mesh : rect_mesh fr_pts fe_cells.
Proof.
  split; [discriminate|]. split; [apply Forall_cons; [exists (-1, 0)%R, (7/5, 1)%R; exact fr_rect|apply Forall_nil]|]. split; [|unfold int_max; cbn; lia].
  assert (H : forall l : list R, distinct l <= Z.of_nat (List.length l)).
  { intros l. unfold distinct. apply inj_le. apply NoDup_incl_length; [apply NoDup_nodup|]. intros x Hx. apply nodup_In in Hx. exact Hx. }
  pose proof (H (map fst fr_pts)). pose proof (H (map snd fr_pts)). rewrite map_length in *. cbn [fr_pts List.length] in *.
  apply Z.le_trans with (6 * 6); [|unfold int_max; lia]. apply Z.mul_le_mono_nonneg; try lia; unfold distinct; lia.
Qed.
Lemma fr_apart_x : apart (map fst fr_pts).
Proof.
  intros x y Hx Hy H. cbn in Hx, Hy. assert (E : (0 < value d04)%R) by (rewrite d04_value; lra).
  repeat (destruct Hx as [<-|Hx]; [repeat (destruct Hy as [<-|Hy]; [try (exfalso; lra); rewrite ?td_m1, ?td_04; lra|]); contradiction|]). contradiction.
Qed.
Lemma fr_apart_y : apart (map snd fr_pts).
Proof.
  intros x y Hx Hy H. cbn in Hx, Hy.
  repeat (destruct Hx as [<-|Hx]; [repeat (destruct Hy as [<-|Hy]; [try (exfalso; lra); rewrite ?td_0, ?td_1; lra|]); contradiction|]). contradiction.
Qed.
Lemma fr_inside : in_mesh2 fr_pts fe_cells (point_value (quarter, half)).
Proof.
  exists [0; 1; 2; 3], (-1, 0)%R, (7/5, 1)%R. split; [simpl; auto|]. split; [exact fr_rect|]. unfold point_value. cbn [fst snd]. rewrite quarter_value, half_value.
  split; cbn [fst snd]; [exists (25/28)%R|exists (1/2)%R]; split; lra.
Qed.
Lemma fr_case : vtk_text (O := ROps) small_numeral coords2 fr_pts fe_cells fr_fields fr_file /\ rect_mesh fr_pts fe_cells /\ apart (map fst fr_pts) /\ apart (map snd fr_pts) /\
  resolved (map fst (map rounded_point fr_pts)) /\ resolved (map snd (map rounded_point fr_pts)) /\ In (ls "heat") (map fst fr_fields) /\
  Forall (fun f => (List.length fr_pts <= List.length (snd f))%nat) fr_fields /\ in_mesh2 fr_pts fe_cells (point_value (quarter, half)).
Proof.
  rewrite fr_rounded. repeat (split; [first [exact fr_vtk|exact fr_mesh|exact fr_apart_x|exact fr_apart_y|exact fe_resolved_x|exact fe_resolved_y|left; reflexivity|apply Forall_cons; [apply le_n|apply Forall_nil]]|]).
  exact fr_inside.
Qed.

(** What the program answers, with 17 digits. *)
Definition fr_run : outcome text :=
  match body_read_vtk (quad_vkind FOps) double_scanner 1000 (Some fr_file) (body_new (quad_vkind FOps)) with
  | RRet bo _ => match nth_error (bo_fields (quad_vkind FOps) bo) 0 with
                 | Some p => match field_eval (K := quad_kind FOps) (F := scalar_field FOps) QVal (quarter, half) (bo_mesh (quad_vkind FOps) bo, p) with
                             | RRet _ a => Ok (print_double 17 a)
                             | _ => Exit
                             end
                 | None => Exit
                 end
  | _ => Exit
  end.

(** Two different coordinates with the same double. *)
Definition fc_file : text := file
  ["POINTS 4 double"; " 1 0 0 1.00000000000000000001 0 0"; " 1.00000000000000000001 1 0 1 1 0"; "CELLS 1 5"; " 4 0 1 2 3"; "CELL_TYPES 1"; " 9"; "POINT_DATA 4"; "SCALARS heat double"; "LOOKUP_TABLE default"; " 0.1 .7 -2.5 1"]%string.
Local Notation nx := (100000000000000000001 / 100000000000000000000)%R.
Definition fc_pts : list point2 := [(1, 0); (nx, 0); (nx, 1); (1, 1)]%R.
Definition fc_pt : text := gaps [(s1, "1"); (s1, "0"); (s1, "0"); (s1, "1.00000000000000000001"); (s1, "0"); (s1, "0"); (n1, "1.00000000000000000001"); (s1, "1"); (s1, "0"); (s1, "1"); (s1, "1"); (s1, "0")]%string.
Lemma fc_file_eq : fc_file =
  lines [] ++ ls "POINTS 4 double" ++ newline :: fc_pt ++ lines [[]] ++ ls "CELLS 1 5" ++ newline :: fr_ct ++ lines [[]] ++ ls "CELL_TYPES 1" ++ newline :: fr_tt ++ fr_rest.
Proof. reflexivity. Qed.
Lemma num_next : small_numeral (ls "1.00000000000000000001") nx.
Proof. num (@nil ascii) (txt "1") (txt ".00000000000000000001") (txt "00000000000000000001") 100000000000000000001 false (100000000000000000001 / 100000000000000000000)%R. Qed.
Ltac a_num ::= first [exact num_0|exact num_1|exact num_m1|exact num_04|exact num_4e|exact num_01|exact num_07|exact num_25|exact num_next].
Lemma fc_vtk : vtk_text (O := ROps) small_numeral coords2 fc_pts fe_cells fr_fields fc_file.
Proof.
  rewrite fc_file_eq. apply VtkText with (xs := [[1; 0; 0]; [nx; 0; 0]; [nx; 1; 0]; [1; 1; 0]]%R) (types := [9]).
  - apply Forall_nil.
  - apply (count_ok _ _ "4" (ls " double")); [reflexivity|no_line|dig|cbn; lia|after].
  - repeat (apply Forall2_cons; [eexists; reflexivity|]). apply Forall2_nil.
  - toks_ok. repeat (apply Forall2_cons; [a_num|]). apply Forall2_nil.
  - repeat (apply Forall_cons; [filler_line|]). apply Forall_nil.
  - right. after.
  - apply (count_ok _ _ "1" (ls " 5")); [reflexivity|no_line|dig|cbn; lia|after].
  - match goal with |- tokens _ _ ?l => let l' := eval vm_compute in l in change l with l' end.
    toks_ok. repeat (apply Forall2_cons; [ulong|]). apply Forall2_nil.
  - repeat (apply Forall_cons; [filler_line|]). apply Forall_nil.
  - right. after.
  - apply (count_ok _ _ "1" []); [reflexivity|no_line|dig|cbn; lia|after].
  - repeat (apply Forall_cons; [auto|]). apply Forall_nil.
  - toks_ok. repeat (apply Forall2_cons; [ulong|]). apply Forall2_nil.
  - right. after.
  - unfold fr_rest. apply DataFiller; [filler_line|].
    apply DataCount with (n := 4); [apply (count_ok _ _ "4" []); [reflexivity|no_line|dig|cbn; lia|after]|].
    apply DataField; [apply (name_ok _ "heat" (ls " double")); [reflexivity|no_line|wordy|after]|no_line|reflexivity|unfold int_max; lia| |right; after|].
    { toks_ok. repeat (apply Forall2_cons; [a_num|]). apply Forall2_nil. }
    apply DataFiller; [filler_line|]. apply DataEnd. filler_line.
  - unfold int_max; cbn; lia.
  - unfold int_max; cbn; lia.
  - unfold int_max; cbn; lia.
  - repeat (apply Forall_cons; [unfold int_max; cbn; lia|]). apply Forall_nil.
Qed.
Lemma fc_mesh : rect_mesh fc_pts fe_cells.
Proof.
  split; [discriminate|]. split.
  - apply Forall_cons; [|apply Forall_nil]. exists (1, 0)%R, (1/100000000000000000000, 1)%R. split; [split; simpl; lra|]. intros k Hk. simpl in Hk. destruct Hk as [<-|[<-|[<-|[<-|[]]]]];
    [exists 0|exists 1|exists 2|exists 3]; (split; [reflexivity|]); unfold vget, fc_pts, corner2; simpl; f_equal; f_equal; lra.
  - split; [|unfold int_max; cbn; lia].
    assert (H : forall l : list R, distinct l <= Z.of_nat (List.length l)).
    { intros l. unfold distinct. apply inj_le. apply NoDup_incl_length; [apply NoDup_nodup|]. intros x Hx. apply nodup_In in Hx. exact Hx. }
    pose proof (H (map fst fc_pts)). pose proof (H (map snd fc_pts)). rewrite map_length in *. cbn [fc_pts List.length] in *.
    apply Z.le_trans with (6 * 6); [|unfold int_max; lia]. apply Z.mul_le_mono_nonneg; try lia; unfold distinct; lia.
Qed.
Definition ub_of {S A : Type} (r : res S A) : option ub_reason := match r with RUB u => Some u | _ => None end.
Lemma ub_of_some (S A : Type) (r : res S A) u : ub_of r = Some u -> r = RUB u.
Proof. destruct r; cbn; intros H; try discriminate H. injection H as <-. reflexivity. Qed.
Lemma close_coordinates : exists pts cells fields t, vtk_text (O := ROps) small_numeral coords2 pts cells fields t /\ rect_mesh pts cells /\
  Forall (fun f => (List.length pts <= List.length (snd f))%nat) fields /\
  body_read_vtk (quad_vkind FOps) double_scanner (S (List.length t)) (Some t) (body_new (quad_vkind FOps)) = RUB UBBadConversion.
Proof.
  exists fc_pts, fe_cells, fr_fields, fc_file. split; [exact fc_vtk|]. split; [exact fc_mesh|]. split; [apply Forall_cons; [apply le_n|apply Forall_nil]|]. apply ub_of_some. vm_compute. reflexivity.
Qed.
