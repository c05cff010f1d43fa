(** Files with signed counts and node numbers. *)
From Coq Require Import ZArith QArith Lia List Bool Ascii String.
From Verif Require Import Model.Outcome Model.Num Model.NumInst Model.PNDArray Model.Interpolator Model.Quad Model.Mesh Model.Stream Model.Vtk.
From Verif Require Import Spec.Tensor Spec.Vtk Spec.Reread Spec.Malformed.
From Verif Require Import Proofs.StreamP Proofs.VtkExamples Proofs.MalformedExamples.
Import ListNotations.
Local Open Scope Z_scope.

Local Notation s1 := [" "%char].
Local Notation n1 := [newline; " "%char].
(** -1 instead of 5, and a plus sign. *)
Definition neg_ct : text := gaps [(s1, "4"); (s1, "0"); (s1, "+1"); (s1, "4"); (s1, "3"); (n1, "4"); (s1, "1"); (s1, "2"); (s1, "-1"); (s1, "4")]%string.
Definition neg_text (rest : text) : text :=
  lines [] ++ ls "POINTS 6 float" ++ newline :: ex_pt ++ lines [[]] ++ ls "CELLS 2 10" ++ newline :: neg_ct ++ newline :: rest.

Lemma neg_one : ulong_text (ls "-1") (2 ^ 64 - 1).
Proof. exists (ls "1"), 1. split; [exact (DecDigit 1 ltac:(lia))|]. split; [unfold ulong_max; lia|]. right. split; reflexivity. Qed.
Lemma plus_one : ulong_text (ls "+1") 1.
Proof. exists (ls "1"), 1. split; [exact (DecDigit 1 ltac:(lia))|]. split; [unfold ulong_max; lia|]. left. split; [right; reflexivity|reflexivity]. Qed.

Lemma neg_form : forall O rest, upto_cells (O := O) whole_text coords2 (ex_points O) [[0; 1; 4; 3]; [1; 2; 2 ^ 64 - 1; 4]] (newline :: rest) (neg_text rest) /\
  Exists (bad_cell 4 (List.length (ex_points O))) [[0; 1; 4; 3]; [1; 2; 2 ^ 64 - 1; 4]].
Proof.
  intros O rest. split.
  2:{ right. left. right. exists 2%nat, (2 ^ 64 - 1). split; [lia|]. split; [reflexivity|]. cbn [ex_points List.length]. vm_compute. discriminate. }
  unfold neg_text.
  apply UptoCells with (xs := map (map (nofZ O)) [[0; 0; 0]; [2; 0; -1]; [3; 0; 0]; [0; 1; 0]; [2; 1; 0]; [3; 1; 0]]).
  - apply Forall_nil.
  - apply (count_ok _ _ "6" (ls " float")); [reflexivity|no_line|dig|cbn; lia|after].
  - repeat (apply Forall2_cons; [eexists; reflexivity|]). apply Forall2_nil.
  - toks_ok. repeat (apply Forall2_cons; [whole|]). apply Forall2_nil.
  - repeat (apply Forall_cons; [filler_line|]). apply Forall_nil.
  - right. after.
  - apply (count_ok _ _ "2" (ls " 10")); [reflexivity|no_line|dig|cbn; lia|after].
  - match goal with |- tokens _ _ ?l => let l' := eval vm_compute in l in change l with l' end.
    toks_ok. repeat (apply Forall2_cons; [first [exact neg_one|exact plus_one|ulong]|]). apply Forall2_nil.
  - right. after.
  - unfold int_max; cbn; lia.
  - unfold int_max; cbn; lia.
  - repeat (apply Forall_cons; [unfold int_max; cbn; lia|]). apply Forall_nil.
Qed.

Lemma neg_count : count_line "POINTS" (2 ^ 64 - 1) (ls "POINTS -1 float") /\ Forall mesh_filler [ls "# vtk DataFile Version 2.0"; []].
Proof.
  split; [|repeat (apply Forall_cons; [filler_line|]); apply Forall_nil]. split; [no_line|]. exists s1, (ls "-1"), (ls " float").
  split; [reflexivity|]. split; [discriminate|]. split; [exact (proj2 sp_gap)|]. split; [exact neg_one|after].
Qed.

Lemma neg_squares : let WS := whole_scanner QOps in let four := ["1"; "2"; "3"; "4"]%string in
  value_after WS 400 [square_with "+4 0 1 3 -18446744073709551614" "9" "4" four] 0 (1 # 2) (1 # 2) = Ok (5 # 2)%Q /\
  value_after WS 400 [square_with "4 0 1 3 2" "-9" "4" four] 0 (1 # 2) (1 # 2) = Exit /\
  value_after WS 400 [square_with "4 0 1 3 2" "9" "-4" four] 0 (1 # 2) (1 # 2) = Throw LengthError.
Proof. vm_compute. repeat split. Qed.
