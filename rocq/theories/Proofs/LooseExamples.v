(** Two rectangles with data whose header lines lack a count or a name. *)
From Coq Require Import ZArith QArith List Bool Ascii String Lia ZifyBool Reals.
From Verif Require Import Model.Outcome Model.Num Model.NumInst Model.PNDArray Model.Bin Model.PSimple Model.Interpolator Model.Quad
  Model.Hexahedron Model.Mesh Model.PField Model.Stream Model.Vtk.
From Verif Require Import Spec.Tensor Spec.Funcs Spec.Shape Spec.Fields Spec.Vtk Spec.Malformed.
From Verif Require Import Proofs.OutcomeP Proofs.RectP Proofs.RectFieldP Proofs.FieldExamples Proofs.StreamP Proofs.VtkP
  Proofs.VtkSpecP Proofs.VtkLoopP Proofs.VtkExamples Proofs.LooseP.
Import ListNotations.
Local Open Scope Z_scope.

Definition two_types (rest : text) : text :=
  lines [] ++ ls "POINTS 6 float" ++ newline :: ex_pt ++ lines [[]] ++ ls "CELLS 2 10" ++ newline :: ex_ct ++ lines [[]] ++ ls "CELL_TYPES 2" ++
  newline :: gaps [([" "%char], "9"); ([newline; " "%char], "9")]%string ++ newline :: rest.
Definition six (a b c d e f : string) : text :=
  gaps [([" "%char], a); ([" "%char], b); ([" "%char], c); ([" "%char], d); ([" "%char], e); ([" "%char], f)].
(** A first field without a name, two with, one without, and in between a POINT_DATA line without count. *)
Definition loose_rest : text :=
  [] ++ newline :: ls "POINT_DATA 6" ++ newline ::
  ls "SCALARS" ++ newline :: ls "LOOKUP_TABLE default" ++ newline :: six "1" "2" "3" "4" "5" "6" ++ [] ++ newline ::
  ls "SCALARS heat float 1" ++ newline :: ls "LOOKUP_TABLE default" ++ newline :: six "6" "5" "4" "3" "2" "1" ++ [] ++ newline ::
  ls "POINT_DATA " ++ newline ::
  ls "SCALARS  " ++ newline :: ls "LOOKUP_TABLE default" ++ newline :: six "0" "7" "0" "7" "0" "7" ++ [] ++ newline :: [].
Definition uncounted_rest : text :=
  lines [[]; ls "POINT_DATA"] ++ ls "SCALARS heat float 1" ++ newline :: ls "LOOKUP_TABLE default" ++ newline :: six "1" "2" "3" "4" "5" "6".

Lemma two_types_form : forall O rest, upto_types (O := O) whole_text coords2 (ex_points O) ex_cells [9; 9] (newline :: rest) (two_types rest).
Proof.
  intros O rest. exists [[]], (ls "CELL_TYPES 2"), (gaps [([" "%char], "9"); ([newline; " "%char], "9")]%string).
  split; [repeat (apply Forall_cons; [filler_line|]); apply Forall_nil|].
  split; [apply (count_ok _ _ "2" []); [reflexivity|no_line|dig|cbn; lia|after]|].
  split; [toks_ok; repeat (apply Forall2_cons; [ulong|]); apply Forall2_nil|].
  split; [right; after|]. split; [unfold int_max; cbn; lia|]. split; [right; after|].
  unfold two_types. rewrite <- ?app_assoc.
  apply UptoCells with (xs := map (map (nofZ O)) [[0; 0; 0]; [2; 0; -1]; [3; 0; 0]; [0; 1; 0]; [2; 1; 0]; [3; 1; 0]]).
  - apply Forall_nil.
  - apply (count_ok _ _ "6" (ls " float")); [reflexivity|no_line|dig|cbn; lia|after].
  - repeat (apply Forall2_cons; [eexists; reflexivity|]). apply Forall2_nil.
  - toks_ok. repeat (apply Forall2_cons; [whole|]). apply Forall2_nil.
  - repeat (apply Forall_cons; [filler_line|]). apply Forall_nil.
  - right. after.
  - apply (count_ok _ _ "2" (ls " 10")); [reflexivity|no_line|dig|cbn; lia|after].
  - match goal with |- tokens _ _ ?l => let l' := eval vm_compute in l in change l with l' end.
    toks_ok. repeat (apply Forall2_cons; [ulong|]). apply Forall2_nil.
  - right. after.
  - unfold int_max; cbn; lia.
  - unfold int_max; cbn; lia.
  - repeat (apply Forall_cons; [unfold int_max; cbn; lia|]). apply Forall_nil.
Qed.

Lemma bare_ok : forall kw b, forallb space b = true -> ~ In newline (ls kw ++ b) -> bare_line kw (ls kw ++ b).
Proof.
  intros kw b Hb Hn. split; [exact Hn|]. exists [], b. split; [reflexivity|]. split; [constructor|].
  apply Forall_forall. intros c Hc. apply space_blank. rewrite forallb_forall in Hb. auto.
Qed.
Ltac bare kw b := apply (bare_ok kw b); [reflexivity|no_line].

Definition loose_fields (O : NumOps) : list (text * list (num O)) :=
  [([], map (nofZ O) [1; 2; 3; 4; 5; 6]); (ls "heat", map (nofZ O) [6; 5; 4; 3; 2; 1]); (ls "heat", map (nofZ O) [0; 7; 0; 7; 0; 7])].
Lemma loose_form : forall O, loose_data (O := O) whole_text None [] (loose_fields O) (newline :: loose_rest).
Proof.
  intros O. unfold loose_rest, loose_fields. apply (LooseFiller _ _ _ []); [filler_line|]. apply LooseFiller; [filler_line|].
  apply LooseCount with (n := 6); [apply (count_ok _ _ "6" []); [reflexivity|no_line|dig|cbn; lia|after]|].
  apply LooseNoName; [bare "SCALARS"%string (@nil ascii)|no_line|reflexivity|unfold int_max; lia| |right; after|].
  { toks_ok. repeat (apply Forall2_cons; [whole|]). apply Forall2_nil. }
  apply LooseFiller; [filler_line|].
  apply LooseField; [apply (name_ok _ "heat" (ls " float 1")); [reflexivity|no_line|wordy|after]|no_line|reflexivity|unfold int_max; lia| |right; after|].
  { toks_ok. repeat (apply Forall2_cons; [whole|]). apply Forall2_nil. }
  apply LooseFiller; [filler_line|].
  apply LooseNoCount; [bare "POINT_DATA"%string [" "%char]|].
  apply LooseNoName; [bare "SCALARS"%string [" "%char; " "%char]|no_line|reflexivity|unfold int_max; lia| |right; after|].
  { toks_ok. repeat (apply Forall2_cons; [whole|]). apply Forall2_nil. }
  apply LooseFiller; [filler_line|]. apply LooseEnd. filler_line.
Qed.

Lemma ex_loose : (exists m, mesh_of (K := quad_kind ROps) (ex_points ROps) ex_cells m) /\
  upto_types (O := ROps) whole_text coords2 (ex_points ROps) ex_cells [9; 9] (newline :: loose_rest) (two_types loose_rest) /\
  Forall supported_type [9; 9] /\ loose_data (O := ROps) whole_text None [] (loose_fields ROps) (newline :: loose_rest) /\
  upto_types (O := ROps) whole_text coords2 (ex_points ROps) ex_cells [9; 9] (lines [[]; []; ls "POINT_DATA"] ++ ls "SCALARS heat float 1" ++ newline :: ls "LOOKUP_TABLE default" ++
    newline :: six "1" "2" "3" "4" "5" "6") (two_types uncounted_rest) /\
  Forall (fun l => data_filler l \/ bare_line "POINT_DATA" l) [[]; []; ls "POINT_DATA"].
Proof.
  rewrite ex_points_real at 1. destruct (rect_reads _ _ ex_mesh) as (m & _ & _ & Hm & _).
  split; [exists m; exact Hm|]. split; [apply two_types_form|]. split; [repeat constructor|]. split; [apply loose_form|].
  split; [apply (two_types_form ROps uncounted_rest)|]. repeat (apply Forall_cons; [left; filler_line|]). apply Forall_cons; [|apply Forall_nil].
  right. bare "POINT_DATA"%string (@nil ascii).
Qed.

(** The same files read with whole numbers as rationals: the names, what is found, and the reading without a count. *)
Definition names_read (t : text) : outcome (list string * list (outcome nat)) :=
  match body_read_vtk (quad_vkind QOps) (whole_scanner QOps) 400 (Some t) (body_new (quad_vkind QOps)) with
  | RRet b _ => Ok (map pf_name (bo_fields _ b), map (find_scalar_field _ b) [""; "heat"; "cold"]%string)
  | RThrow _ e => Throw e | RExit => Exit | RUB r => UB r | RNoFuel => NoFuel
  end.
Lemma loose_names : names_read (two_types loose_rest) = Ok ([""; "heat"; "heat"]%string, [Ok 0%nat; Ok 1%nat; Throw InvalidArgument]) /\
  names_read (two_types uncounted_rest) = UB UBUninit.
Proof. vm_compute. auto. Qed.
