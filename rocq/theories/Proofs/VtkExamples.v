(** Reading files end to end; concrete files. *)
From Coq Require Import ZArith QArith List Bool Ascii String Lia ZifyBool Reals.
From Verif Require Import Model.Outcome Model.Num Model.NumInst Model.PNDArray Model.Bin Model.PSimple Model.Interpolator Model.Quad
  Model.Hexahedron Model.Mesh Model.PField Model.Stream Model.Vtk.
From Verif Require Import Spec.Tensor Spec.Funcs Spec.Shape Spec.Fields Spec.Vtk.
From Verif Require Import Proofs.OutcomeP Proofs.RectP Proofs.RectFieldP Proofs.FieldExamples Proofs.StreamP Proofs.VtkP
  Proofs.VtkSpecP Proofs.VtkLoopP.
Import ListNotations.
Local Open Scope Z_scope.

(** ** From a file to values *)

Lemma string_inj : forall a b, string_of_list_ascii a = string_of_list_ascii b -> a = b.
Proof.
  intros a b H. rewrite <- (list_ascii_of_string_of_list_ascii a), <- (list_ascii_of_string_of_list_ascii b). congruence.
Qed.

Lemma Forall2_nth : forall (A B : Type) (R : A -> B -> Prop) l l', Forall2 R l l' -> forall k b, nth_error l' k = Some b ->
  exists a, nth_error l k = Some a /\ R a b.
Proof. induction 1 as [|a b l l' H HF IH]; intros [|k] x Hx; try discriminate; [injection Hx as <-; exists a; auto|apply IH, Hx]. Qed.
Lemma Forall2_nth' : forall (A B : Type) (R : A -> B -> Prop) l l', Forall2 R l l' -> forall k a, nth_error l k = Some a ->
  exists b, nth_error l' k = Some b /\ R a b.
Proof. induction 1 as [|a b l l' H HF IH]; intros [|k] x Hx; try discriminate; [injection Hx as <-; exists b; auto|apply IH, Hx]. Qed.

Local Notation QK := (quad_kind ROps).
Local Notation QV := (quad_vkind ROps).

Lemma value_from_file : forall num_text num_scanner pts cells fields t fuel name r,
  number_reader (A := R) num_text num_scanner -> vtk_text (O := ROps) num_text coords2 pts cells fields t -> rect_mesh pts cells ->
  In name (map fst fields) -> Forall (fun f => (List.length pts <= List.length (snd f))%nat) fields ->
  (List.length t < fuel)%nat -> in_mesh2 pts cells r ->
  exists bo k p data, body_read_vtk QV num_scanner fuel (Some t) (body_new QV) = RRet bo tt /\
    find_scalar_field QV bo (string_of_list_ascii name) = Ok k /\ nth_error (bo_fields QV bo) k = Some p /\
    nth_error fields k = Some (name, data) /\ (forall k' f, (k' < k)%nat -> nth_error fields k' = Some f -> fst f <> name) /\
    exists cell lo h v, In cell cells /\ cell_rect pts cell lo h /\ in_rect lo h r /\ cell_data data cell corners2 v /\
    forall q, on_axes 2 q -> exists s a, field_eval (K := QK) q r (bo_mesh QV bo, p) = RRet s a /\ quantity2 (bilinear lo h v) q r a.
Proof.
  intros num_text sc pts cells fields t fuel name r Hn Ht Hr Hin Hlen Hf Hp.
  destruct (rect_reads _ _ Hr) as (m & _ & _ & Hm & _).
  destruct (read2_ok ROps num_text sc pts cells fields t m fuel Hn Ht Hm Hf) as (ps & E & Hps & Hnm & _).
  assert (Hk : exists k, find_scalar_field QV (mkBody QV m ps) (string_of_list_ascii name) = Ok k).
  { unfold find_scalar_field. destruct (find_from_spec ps 0 (string_of_list_ascii name)) as [(k & _ & _ & _ & _ & H)|[H _]].
    - exists (0 + k)%nat. exact H.
    - exfalso. apply in_map_iff in Hin. destruct Hin as (f & Ef & Hin). apply In_nth_error in Hin. destruct Hin as (k & Hk).
      destruct (Forall2_nth' _ _ _ _ _ Hnm k f Hk) as (p & Hp' & Hname & _). rewrite Forall_forall in H.
      apply (H p (nth_error_In _ _ Hp')). rewrite Hname, Ef. reflexivity. }
  destruct Hk as (k & Hk). destruct (proj1 (find_ok QV _ _ _) Hk) as [(p & Hp' & Hname) Hfirst]. cbn [bo_fields] in *.
  destruct (Forall2_nth _ _ _ _ _ Hps k p Hp') as ((name' & data) & Hfd & Hnew).
  destruct (Forall2_nth _ _ _ _ _ Hnm k p Hp') as (f' & Hfd' & Hname' & _).
  assert (name' = name). { assert (Ef := eq_trans (eq_sym Hfd) Hfd'). injection Ef as <-. apply string_inj. cbn [fst] in Hname'. congruence. } subst name'.
  exists (mkBody QV m ps), k, p, data. split; [exact E|]. split; [exact Hk|]. split; [exact Hp'|]. split; [exact Hfd|]. split.
  - intros k' f Hlt Hf' En. destruct (Forall2_nth' _ _ _ _ _ Hnm k' f Hf') as (p' & Hpp & Hn' & _).
    apply (Hfirst k' p' Hlt Hpp). rewrite Hn', En. reflexivity.
  - rewrite Forall_forall in Hlen. specialize (Hlen _ (nth_error_In _ _ Hfd)). cbn [snd fst] in Hlen, Hnew.
    destruct (rect_field pts cells m data (string_of_list_ascii name) p r Hr Hm Hlen Hnew Hp) as (cell & lo & h & v & H1 & H2 & H3 & H4 & H5).
    exists cell, lo, h, v. repeat (split; [assumption|]). intros q Hq. cbn [bo_mesh]. refine (H5 _ m p _ q Hq). constructor.
Qed.

(** ** A number notation: whole numbers, with an optional minus sign *)
Definition whole_scanner (O : NumOps) : scanner (num O) :=
  fun t => match scan_signed t with (neg, (v, any, r)) => (nofZ O (if (neg : bool) then - v else v), any, r) end.
Inductive whole_text {O : NumOps} : text -> num O -> Prop :=
| Whole : forall t n, decimal t n -> whole_text t (nofZ O n)
| WholeNeg : forall t n, decimal t n -> whole_text ("-"%char :: t) (nofZ O (- n)).

Lemma whole_reader : forall O, number_reader (whole_text (O := O)) (whole_scanner O).
Proof.
  intros O t a [t' n H|t' n H].
  - split; [eapply decimal_word; eauto|]. intros r Hr. unfold whole_scanner. rewrite (scan_signed_decimal _ _ _ H (blank_no_digit _ Hr)). reflexivity.
  - destruct (decimal_word _ _ H) as [_ W]. split.
    + split; [discriminate|]. constructor; [|exact W]. intros B. cbn in B. repeat (destruct B as [B|B]; [discriminate|]). exact B.
    + intros r Hr. unfold whole_scanner, scan_signed. cbn [app]. change (Ascii.eqb "-" "-") with true. cbn iota.
      rewrite (scan_decimal _ _ _ H (blank_no_digit _ Hr)). reflexivity.
Qed.
Lemma whole_consumes : forall O, consumes (whole_scanner O).
Proof.
  intros O t. unfold whole_scanner, scan_signed. destruct t as [|c t]; [cbn; lia|].
  assert (H1 := scan_digits_length t 0 false). assert (H2 := scan_digits_length (c :: t) 0 false).
  destruct (Ascii.eqb c "-"); [|destruct (Ascii.eqb c "+")].
  - destruct (scan_digits 0 false t) as [[v any] r]. cbn in *. lia.
  - destruct (scan_digits 0 false t) as [[v any] r]. cbn in *. lia.
  - destruct (scan_digits 0 false (c :: t)) as [[v any] r]. cbn in *. lia.
Qed.

(** ** A file with two rectangles and two fields *)
Definition file (ls : list string) : text := lines (map list_ascii_of_string ls).
Definition ex_file : text := file
  ["# vtk DataFile Version 2.0"; "two rectangles"; "ASCII"; "DATASET UNSTRUCTURED_GRID"; "POINTS 6 float";
   " 0 0 0"; " 2 0 -1"; " 3 0 0"; " 0 1 0"; " 2 1 0"; " 3 1 0"; "";
   "CELLS 2 10"; " 4 0 1 4 3"; " 4 1 2 5 4"; "CELL_TYPES 2"; " 9"; " 9"; "";
   "POINT_DATA 6"; "SCALARS heat float 1"; "LOOKUP_TABLE default"; " 1 3 0"; " 2 5 7";
   "METADATA"; "SCALARS cold float 1"; "LOOKUP_TABLE default"; " 1 12 0 2 -5 7"]%string.

Local Notation sp := " "%char.
Local Notation br := newline.

Ltac dig := match goal with |- decimal ?t ?n => let n' := eval vm_compute in n in exact (DecDigit n' ltac:(lia)) end.
Ltac no_line := unfold one_line, In; cbn; intuition discriminate.
Ltac no_start := let r := fresh in let H := fresh in intros (r & H); cbn in H; discriminate H.
Ltac filler_line := split; [no_line|]; repeat split; no_start.

(** Tokens with the blanks before each. *)
Definition gap (s : string) (b : list ascii) : text := b ++ list_ascii_of_string s.
Definition gaps (l : list (list ascii * string)) : text := List.concat (map (fun p => gap (snd p) (fst p)) l).
Lemma tokens_gaps : forall (A : Type) (tok : text -> A -> Prop) l vals, Forall (fun p => fst p <> [] /\ blanks (fst p)) l ->
  Forall2 (fun p a => tok (list_ascii_of_string (snd p)) a) l vals -> tokens tok (gaps l) vals.
Proof.
  intros A tok l vals Hb H. induction H as [|[c s] a l vals H HF IH]; [constructor|]. inversion Hb as [|? ? [Hn Hc] Hb']; subst.
  change (gaps ((c, s) :: l)) with ((c ++ list_ascii_of_string s) ++ gaps l). cbn [fst snd] in *. rewrite <- app_assoc. apply TokCons; auto.
  destruct l as [|[c' s'] l]; [left; reflexivity|]. right. inversion Hb' as [|? ? [Hn' Hc'] _]; subst. cbn [fst] in *.
  destruct c' as [|b c']; [congruence|]. inversion Hc'; subst. exists b, (c' ++ list_ascii_of_string s' ++ gaps l). split; [|auto].
  unfold gaps. cbn [map List.concat gap fst snd app]. unfold gap. rewrite <- app_assoc. reflexivity.
Qed.

Local Notation s1 := [sp].
Local Notation n1 := [br; sp].

Lemma sp_gap : s1 <> [] /\ blanks s1.
Proof. split; [discriminate|]. apply Forall_cons; [left; reflexivity|apply Forall_nil]. Qed.
Lemma nl_gap : n1 <> [] /\ blanks n1.
Proof. split; [discriminate|]. apply Forall_cons; [right; right; left; reflexivity|]. apply Forall_cons; [left; reflexivity|apply Forall_nil]. Qed.
Ltac toks_ok := apply tokens_gaps; [repeat (apply Forall_cons; [first [exact sp_gap|exact nl_gap]|]); apply Forall_nil|].
Ltac whole := (apply Whole; dig) || exact (WholeNeg _ 1 (DecDigit 1 ltac:(lia))) || exact (WholeNeg _ 5 (DecDigit 5 ltac:(lia))) || (apply Whole; exact (DecMore ["1"%char] 1 2 (DecDigit 1 ltac:(lia)) ltac:(lia))).
Ltac ulong := apply plain_ulong; [dig|unfold ulong_max; lia].

Definition ex_pt : text := gaps [(s1, "0"); (s1, "0"); (s1, "0"); (n1, "2"); (s1, "0"); (s1, "-1"); (n1, "3"); (s1, "0"); (s1, "0");
  (n1, "0"); (s1, "1"); (s1, "0"); (n1, "2"); (s1, "1"); (s1, "0"); (n1, "3"); (s1, "1"); (s1, "0")]%string.
Definition ex_ct : text := gaps [(s1, "4"); (s1, "0"); (s1, "1"); (s1, "4"); (s1, "3"); (n1, "4"); (s1, "1"); (s1, "2"); (s1, "5"); (s1, "4")]%string.
Definition ex_tt : text := gaps [(s1, "9"); (n1, "9")]%string.
Definition ex_d1 : text := gaps [(s1, "1"); (s1, "3"); (s1, "0"); (n1, "2"); (s1, "5"); (s1, "7")]%string.
Definition ex_d2 : text := gaps [(s1, "1"); (s1, "12"); (s1, "0"); (s1, "2"); (s1, "-5"); (s1, "7")]%string.
Definition ls (s : string) : text := list_ascii_of_string s.
Definition ex_rest : text :=
  [] ++ newline :: [] ++ newline :: ls "POINT_DATA 6" ++ newline :: ls "SCALARS heat float 1" ++ newline :: ls "LOOKUP_TABLE default" ++
  newline :: ex_d1 ++ [] ++ newline :: ls "METADATA" ++ newline :: ls "SCALARS cold float 1" ++ newline :: ls "LOOKUP_TABLE default" ++
  newline :: ex_d2 ++ [] ++ newline :: [].

Lemma ex_file_eq : ex_file =
  lines (map ls ["# vtk DataFile Version 2.0"; "two rectangles"; "ASCII"; "DATASET UNSTRUCTURED_GRID"]%string) ++
  ls "POINTS 6 float" ++ newline :: ex_pt ++ lines [[]; []] ++ ls "CELLS 2 10" ++ newline :: ex_ct ++ lines [[]] ++ ls "CELL_TYPES 2" ++
  newline :: ex_tt ++ ex_rest.
Proof. reflexivity. Qed.

Definition ex_points (O : NumOps) : list (c2 O) :=
  map (fun p => (nofZ O (fst p), nofZ O (snd p))) [(0, 0); (2, 0); (3, 0); (0, 1); (2, 1); (3, 1)].
Definition ex_fields (O : NumOps) : list (text * list (num O)) :=
  [(ls "heat", map (nofZ O) [1; 3; 0; 2; 5; 7]); (ls "cold", map (nofZ O) [1; 12; 0; 2; -5; 7])].

Lemma count_ok : forall kw n s r l, l = ls kw ++ [sp] ++ ls s ++ r -> one_line l -> decimal (ls s) n -> n <= 10 -> ends_word r -> count_line kw n l.
Proof.
  intros kw n s r l -> H1 H2 H3 H4. split; [exact H1|]. exists [sp], (ls s), r. split; [reflexivity|]. split; [discriminate|].
  split; [exact (proj2 sp_gap)|]. split; [apply plain_ulong; [exact H2|unfold ulong_max; lia]|exact H4].
Qed.
Lemma name_ok : forall kw s r l, l = ls kw ++ [sp] ++ ls s ++ r -> one_line l -> word (ls s) -> ends_word r -> name_line kw (ls s) l.
Proof.
  intros kw s r l -> H1 H2 H3. split; [exact H1|]. exists [sp], r. split; [reflexivity|]. split; [discriminate|].
  split; [exact (proj2 sp_gap)|]. auto.
Qed.
Ltac after := solve [left; reflexivity | right; eexists; eexists; split; [reflexivity|first [left; reflexivity|right; right; left; reflexivity]]].
Ltac wordy := split; [discriminate|repeat (apply Forall_cons; [let B := fresh in intros B; cbn in B; repeat (destruct B as [B|B]; [discriminate|]); exact B|]); apply Forall_nil].

Lemma ex_vtk : forall O, vtk_text (O := O) whole_text coords2 (ex_points O) ex_cells (ex_fields O) ex_file.
Proof.
  intros O. rewrite ex_file_eq. apply VtkText with (xs := map (map (nofZ O)) [[0; 0; 0]; [2; 0; -1]; [3; 0; 0]; [0; 1; 0]; [2; 1; 0]; [3; 1; 0]]) (types := [9; 9]).
  - repeat (apply Forall_cons; [filler_line|]). apply Forall_nil.
  - apply (count_ok _ _ "6" (ls " float")); [reflexivity|no_line|dig|cbn; lia|after].
  - repeat (apply Forall2_cons; [eexists; reflexivity|]). apply Forall2_nil.
  - toks_ok. repeat (apply Forall2_cons; [whole|]). apply Forall2_nil.
  - repeat (apply Forall_cons; [filler_line|]). apply Forall_nil.
  - right. after.
  - apply (count_ok _ _ "2" (ls " 10")); [reflexivity|no_line|dig|cbn; lia|after].
  - match goal with |- tokens _ _ ?l => let l' := eval vm_compute in l in change l with l' end.
    toks_ok. repeat (apply Forall2_cons; [ulong|]). apply Forall2_nil.
  - repeat (apply Forall_cons; [filler_line|]). apply Forall_nil.
  - right. after.
  - apply (count_ok _ _ "2" []); [reflexivity|no_line|dig|cbn; lia|after].
  - repeat (apply Forall_cons; [auto|]). apply Forall_nil.
  - toks_ok. repeat (apply Forall2_cons; [ulong|]). apply Forall2_nil.
  - right. after.
  - unfold ex_rest. apply DataFiller; [filler_line|]. apply DataFiller; [filler_line|].
    apply DataCount with (n := 6); [apply (count_ok _ _ "6" []); [reflexivity|no_line|dig|cbn; lia|after]|].
    apply DataField; [apply (name_ok _ "heat" (ls " float 1")); [reflexivity|no_line|wordy|after]|no_line|reflexivity|unfold int_max; lia| |right; after|].
    { toks_ok. repeat (apply Forall2_cons; [whole|]). apply Forall2_nil. }
    apply DataFiller; [filler_line|]. apply DataFiller; [filler_line|].
    apply DataField; [apply (name_ok _ "cold" (ls " float 1")); [reflexivity|no_line|wordy|after]|no_line|reflexivity|unfold int_max; lia| |right; after|].
    { toks_ok. repeat (apply Forall2_cons; [whole|]). apply Forall2_nil. }
    apply DataFiller; [filler_line|]. apply DataEnd. filler_line.
  - unfold int_max; cbn; lia.
  - unfold int_max; cbn; lia.
  - unfold int_max; cbn; lia.
  - repeat (apply Forall_cons; [unfold int_max; cbn; lia|]). apply Forall_nil.
Qed.

(** *** Two cubes *)
Definition st_file : text := file
  ["POINTS 12 double"; " 0 0 0  1 0 0  1 1 0  0 1 0"; " 0 0 1  1 0 1  1 1 1  0 1 1"; " 0 0 2  1 0 2  1 1 2  0 1 2"; "CELLS 2 18";
   " 8 0 1 2 3 4 5 6 7"; " 8 4 5 6 7 8 9 10 11"; "CELL_TYPES 2"; " 12 12"; "POINT_DATA 12"; "SCALARS load double"; "LOOKUP_TABLE default";
   " 0 0 0 0 0 0 0 0 1 1 1 1"]%string.
Definition st_points (O : NumOps) : list (c3 O) :=
  map (fun p => match p with (x, y, z) => mkC3 (nofZ O x) (nofZ O y) (nofZ O z) end)
    [(0, 0, 0); (1, 0, 0); (1, 1, 0); (0, 1, 0); (0, 0, 1); (1, 0, 1); (1, 1, 1); (0, 1, 1); (0, 0, 2); (1, 0, 2); (1, 1, 2); (0, 1, 2)].
Definition st_fields (O : NumOps) : list (text * list (num O)) := [(ls "load", map (nofZ O) [0; 0; 0; 0; 0; 0; 0; 0; 1; 1; 1; 1])].
Local Notation s2 := [sp; sp].
Definition st_pt : text := gaps [(s1, "0"); (s1, "0"); (s1, "0"); (s2, "1"); (s1, "0"); (s1, "0"); (s2, "1"); (s1, "1"); (s1, "0"); (s2, "0"); (s1, "1"); (s1, "0");
  (n1, "0"); (s1, "0"); (s1, "1"); (s2, "1"); (s1, "0"); (s1, "1"); (s2, "1"); (s1, "1"); (s1, "1"); (s2, "0"); (s1, "1"); (s1, "1");
  (n1, "0"); (s1, "0"); (s1, "2"); (s2, "1"); (s1, "0"); (s1, "2"); (s2, "1"); (s1, "1"); (s1, "2"); (s2, "0"); (s1, "1"); (s1, "2")]%string.
Definition st_ct : text := gaps [(s1, "8"); (s1, "0"); (s1, "1"); (s1, "2"); (s1, "3"); (s1, "4"); (s1, "5"); (s1, "6"); (s1, "7");
  (n1, "8"); (s1, "4"); (s1, "5"); (s1, "6"); (s1, "7"); (s1, "8"); (s1, "9"); (s1, "10"); (s1, "11")]%string.
Definition st_tt : text := gaps [(s1, "12"); (s1, "12")]%string.
Definition st_d : text := gaps [(s1, "0"); (s1, "0"); (s1, "0"); (s1, "0"); (s1, "0"); (s1, "0"); (s1, "0"); (s1, "0"); (s1, "1"); (s1, "1"); (s1, "1"); (s1, "1")]%string.
Lemma st_file_eq : st_file = lines [] ++ ls "POINTS 12 double" ++ newline :: st_pt ++ lines [[]] ++ ls "CELLS 2 18" ++ newline :: st_ct ++ lines [[]] ++
  ls "CELL_TYPES 2" ++ newline :: st_tt ++ [] ++ newline :: ls "POINT_DATA 12" ++ newline :: ls "SCALARS load double" ++ newline :: ls "LOOKUP_TABLE default" ++
  newline :: st_d ++ [] ++ newline :: [].
Proof. reflexivity. Qed.

Lemma sp2_gap : s2 <> [] /\ blanks s2.
Proof. split; [discriminate|]. apply Forall_cons; [left; reflexivity|]. apply Forall_cons; [left; reflexivity|apply Forall_nil]. Qed.
Ltac toks3 := apply tokens_gaps; [repeat (apply Forall_cons; [first [exact sp_gap|exact nl_gap|exact sp2_gap]|]); apply Forall_nil|].
Ltac dig2 := match goal with |- decimal ?t ?n => let n' := eval vm_compute in n in let a := eval vm_compute in (n' / 10) in let b := eval vm_compute in (n' mod 10) in
  first [exact (DecDigit n' ltac:(lia)) | exact (DecMore [numeral a] a b (DecDigit a ltac:(lia)) ltac:(lia))] end.
Ltac ulong2 := apply plain_ulong; [dig2|unfold ulong_max; lia].
Ltac whole2 := apply Whole; dig2.

Lemma count_ok2 : forall kw n s r l, l = ls kw ++ [sp] ++ ls s ++ r -> one_line l -> decimal (ls s) n -> n <= 99 -> ends_word r -> count_line kw n l.
Proof.
  intros kw n s r l -> H1 H2 H3 H4. split; [exact H1|]. exists [sp], (ls s), r. split; [reflexivity|]. split; [discriminate|].
  split; [exact (proj2 sp_gap)|]. split; [apply plain_ulong; [exact H2|unfold ulong_max; lia]|exact H4].
Qed.

Lemma st_vtk : forall O, vtk_text (O := O) whole_text coords3 (st_points O) st_cells (st_fields O) st_file.
Proof.
  intros O. rewrite st_file_eq.
  apply VtkText with (xs := map (fun p => [cx p; cy p; cz p]) (st_points O)) (types := [12; 12]).
  - apply Forall_nil.
  - apply (count_ok2 _ _ "12" (ls " double")); [reflexivity|no_line|dig2|cbn; lia|after].
  - repeat (apply Forall2_cons; [reflexivity|]). apply Forall2_nil.
  - toks3. repeat (apply Forall2_cons; [whole2|]). apply Forall2_nil.
  - repeat (apply Forall_cons; [filler_line|]). apply Forall_nil.
  - right. after.
  - apply (count_ok2 _ _ "2" (ls " 18")); [reflexivity|no_line|dig2|cbn; lia|after].
  - match goal with |- tokens _ _ ?l => let l' := eval vm_compute in l in change l with l' end.
    toks3. repeat (apply Forall2_cons; [ulong2|]). apply Forall2_nil.
  - repeat (apply Forall_cons; [filler_line|]). apply Forall_nil.
  - right. after.
  - apply (count_ok2 _ _ "2" []); [reflexivity|no_line|dig2|cbn; lia|after].
  - repeat (apply Forall_cons; [auto|]). apply Forall_nil.
  - toks3. repeat (apply Forall2_cons; [ulong2|]). apply Forall2_nil.
  - right. after.
  - apply DataFiller; [filler_line|].
    apply DataCount with (n := 12); [apply (count_ok2 _ _ "12" []); [reflexivity|no_line|dig2|cbn; lia|after]|].
    apply DataField; [apply (name_ok _ "load" (ls " double")); [reflexivity|no_line|wordy|after]|no_line|reflexivity|unfold int_max; lia| |right; after|].
    { toks3. repeat (apply Forall2_cons; [whole2|]). apply Forall2_nil. }
    apply DataFiller; [filler_line|]. apply DataEnd. filler_line.
  - unfold int_max; cbn; lia.
  - unfold int_max; cbn; lia.
  - unfold int_max; cbn; lia.
  - repeat (apply Forall_cons; [unfold int_max; cbn; lia|]). apply Forall_nil.
Qed.

(** ** Termination *)

Lemma missing_never : forall (O : NumOps) (V : vkind O) sc bo fuel, body_read_vtk V sc fuel None bo = RNoFuel.
Proof.
  intros O V sc bo fuel. unfold body_read_vtk. rewrite mesh_idle; [reflexivity|split; reflexivity|reflexivity..].
Qed.

Section Whole.
Context {O : NumOps} (V : vkind O) (sc : scanner (num O)).
Hypothesis Hsc : consumes sc.
Hypothesis Hpoint : forall x y z, vk_point V x y z <> NoFuel.

Lemma mesh_loop_shrinks : forall fuel v v', mesh_loop V sc fuel v = RRet v' tt ->
  (List.length (is_rest (v_in V v')) <= List.length (is_rest (v_in V v)))%nat.
Proof.
  induction fuel as [|fuel IH]; intros v v' H; cbn [mesh_loop] in H; destruct (is_eof (v_in V v)).
  - injection H as <-. lia.
  - discriminate.
  - injection H as <-. lia.
  - unfold mbind in H. destruct (mesh_iteration V sc v) as [v1 b| | | |] eqn:E; try discriminate.
    destruct (iteration_after V sc Hsc _ _ _ E) as [F _]. destruct (after_line_in V v) as [A _]. rewrite A in F.
    destruct (getline_follows (l_line (v_loc V v)) (v_in V v)) as [G _]. destruct b.
    + injection H as <-. lia.
    + apply IH in H. lia.
Qed.

Lemma iteration_cells : forall v, mesh_iteration V sc v = RNoFuel -> is_fail (v_in V v) = false ->
  starts_with "CELLS" (fst (getline (l_line (v_loc V v)) (v_in V v))).
Proof.
  intros v E _. apply (iteration_fu V sc Hpoint) in E. destruct (after_line_in V v) as [_ B]. rewrite B in E.
  apply prefix_of_spec. exact E.
Qed.

Lemma mesh_loop_bound' : forall fuel v, (List.length (is_rest (v_in V v)) < fuel)%nat -> mesh_loop V sc fuel v = RNoFuel ->
  exists n v', (n <= List.length (is_rest (v_in V v)))%nat /\ mesh_runs V sc n v v' /\
    (stuck (v_in V v') \/ mesh_iteration V sc v' = RNoFuel /\ starts_with "CELLS" (fst (getline (l_line (v_loc V v')) (v_in V v')))).
Proof.
  induction fuel as [|fuel IH]; intros v Hlt H; [lia|]. cbn [mesh_loop] in H. destruct (is_eof (v_in V v)) eqn:E; [discriminate|].
  destruct (getline_good (l_line (v_loc V v)) (v_in V v) E) as [(Hf & Hg)|(Hs & _)].
  2:{ exists 0%nat, v. split; [lia|]. split; [constructor|left; exact Hs]. }
  unfold mbind in H. destruct (mesh_iteration V sc v) as [v1 b| | | |] eqn:Ei; try discriminate.
  2:{ exists 0%nat, v. split; [lia|]. split; [constructor|]. right. split; [exact Ei|]. apply iteration_cells; auto. }
  destruct b; [discriminate|]. assert (F := iteration_after V sc Hsc _ _ _ Ei). destruct (after_line_in V v) as [A _]. rewrite A in F.
  destruct Hg as [Hg|Hg].
  - destruct F as [F _]. destruct (IH v1 ltac:(lia) H) as (n & v' & H1 & H2 & H3). exists (S n), v'.
    split; [lia|]. split; [econstructor; eauto|exact H3].
  - destruct F as (_ & _ & F). assert (E1 : is_eof (v_in V v1) = true).
    { rewrite F; [exact Hg|]. unfold is_good. rewrite Hg. reflexivity. }
    destruct fuel; cbn [mesh_loop] in H; rewrite E1 in H; discriminate.
Qed.

Lemma read_bound : forall t bo fuel, (List.length t < fuel)%nat -> body_read_vtk V sc fuel (Some t) bo = RNoFuel ->
  (exists n v, (n <= List.length t)%nat /\ mesh_runs V sc n (mesh_start V bo t) v /\
     (stuck (v_in V v) \/ mesh_iteration V sc v = RNoFuel /\ starts_with "CELLS" (fst (getline (l_line (v_loc V v)) (v_in V v))))) \/
  (exists v n b, mesh_loop V sc fuel (mesh_start V bo t) = RRet v tt /\ (n <= List.length t)%nat /\
     body_runs V sc n (data_start V (bo_fields V bo) v) b /\ stuck (b_in V b)).
Proof.
  intros t bo fuel Hf H. unfold body_read_vtk in H.
  change (mkVst V (bo_mesh V bo) (is_open (Some t)) loc_new) with (mesh_start V bo t) in H.
  destruct (mesh_loop V sc fuel (mesh_start V bo t)) as [v []| | | |] eqn:E; try discriminate.
  - right. change (mkBst V (mkBody V (v_mesh V v) (bo_fields V bo)) (v_in V v) [] [] None) with (data_start V (bo_fields V bo) v) in H.
    assert (L := mesh_loop_shrinks _ _ _ E). cbn [mesh_start v_in is_open is_rest] in L.
    destruct (body_loop V sc fuel (data_start V (bo_fields V bo) v)) as [b1 []| | | |] eqn:Eb; try discriminate.
    destruct (body_loop_bound V sc Hsc fuel (data_start V (bo_fields V bo) v) ltac:(cbn [data_start b_in]; lia) Eb) as [(b' & Hb)|(n & b & H1 & H2 & H3)].
    + exfalso. exact (body_iteration_fu V sc _ Hb).
    + exists v, n, b. cbn [data_start b_in] in H1. split; [reflexivity|]. split; [lia|]. auto.
  - left. destruct (mesh_loop_bound' fuel (mesh_start V bo t) Hf E) as (n & v & H1 & H2 & H3). exists n, v. auto.
Qed.
End Whole.

Lemma quad_point_fu : forall O x y z, vk_point (quad_vkind O) x y z <> NoFuel.
Proof. intros O [x|] [y|] z; discriminate. Qed.
Lemma hex_point_fu : forall O x y z, vk_point (hex_vkind O) x y z <> NoFuel.
Proof. intros O [x|] [y|] [z|]; discriminate. Qed.

(** *** A file with a malformed number *)
Definition bad_file : text := file
  ["POINTS 4 float"; "0 0 0"; "1 0 0"; "0 1 0"; "1 1 0"; "CELLS 1 5"; "4 0 1 3 2"; "CELL_TYPES 1"; "9";
   "POINT_DATA 4"; "SCALARS heat float 1"; "LOOKUP_TABLE default"; "1"; "oops"; "2"; "3"]%string.

(** [k] iterations of the data loop. *)
Fixpoint body_steps {O : NumOps} (V : vkind O) (sc : scanner (num O)) (k : nat) (b : bst V) : option (bst V) :=
  match k with
  | 0%nat => Some b
  | S k' => if is_eof (b_in V b) then None
            else match body_iteration V sc b with RRet b' _ => body_steps V sc k' b' | _ => None end
  end.
Lemma body_steps_loop : forall (O : NumOps) (V : vkind O) sc k b b', body_steps V sc k b = Some b' ->
  (forall fuel, body_loop V sc fuel b' = RNoFuel) -> forall fuel, body_loop V sc fuel b = RNoFuel.
Proof.
  intros O V sc. induction k as [|k IH]; intros b b' H Hb fuel; cbn [body_steps] in H; [injection H as ->; apply Hb|].
  destruct fuel; cbn [body_loop]; destruct (is_eof (b_in V b)); try discriminate; [reflexivity|]. unfold mbind.
  destruct (body_iteration V sc b) as [b1 []| | | |]; try discriminate. eapply IH; eauto.
Qed.

(** The state of the data loop when the bad number has been met. *)
Definition bad_state (b : bst (quad_vkind QOps)) : bool :=
  is_fail (b_in _ b) && negb (is_eof (b_in _ b)) && negb (prefix_of (txt "POINT_DATA") (b_line _ b)) &&
  negb (prefix_of (txt "SCALARS") (b_line _ b)).
Definition bad_check (t : text) (fuel k : nat) : bool :=
  match mesh_loop (quad_vkind QOps) (whole_scanner QOps) fuel (mesh_start (quad_vkind QOps) (body_new _) t) with
  | RRet v _ => match body_steps (quad_vkind QOps) (whole_scanner QOps) k (data_start (quad_vkind QOps) [] v) with
                | Some b => bad_state b
                | None => false
                end
  | _ => false
  end.

Lemma mesh_loop_more : forall (O : NumOps) (V : vkind O) sc f v, mesh_loop V sc f v <> RNoFuel ->
  forall g, mesh_loop V sc g v = mesh_loop V sc f v \/ mesh_loop V sc g v = RNoFuel.
Proof.
  intros O V sc f. induction f as [|f IH]; intros v H g; destruct g as [|g]; cbn [mesh_loop] in *; destruct (is_eof (v_in V v)); auto; try congruence.
  unfold mbind in *. destruct (mesh_iteration V sc v) as [v1 []| | | |]; auto.
Qed.

Lemma bad_check_never : forall t f k, bad_check t f k = true ->
  forall fuel, body_read_vtk (quad_vkind QOps) (whole_scanner QOps) fuel (Some t) (body_new _) = RNoFuel.
Proof.
  intros t f k H fuel. unfold bad_check in H. unfold body_read_vtk.
  change (mkVst (quad_vkind QOps) (bo_mesh (quad_vkind QOps) (body_new (quad_vkind QOps))) (is_open (Some t)) loc_new)
    with (mesh_start (quad_vkind QOps) (body_new (quad_vkind QOps)) t).
  destruct (mesh_loop _ _ f _) as [v []| | | |] eqn:E; try discriminate.
  assert (Nf : mesh_loop (quad_vkind QOps) (whole_scanner QOps) f (mesh_start (quad_vkind QOps) (body_new (quad_vkind QOps)) t) <> RNoFuel)
    by (rewrite E; discriminate).
  destruct (mesh_loop_more _ _ _ f (mesh_start (quad_vkind QOps) (body_new (quad_vkind QOps)) t) Nf fuel) as [G|G]; rewrite G; [|reflexivity].
  rewrite E. change (mkBst (quad_vkind QOps) (mkBody (quad_vkind QOps) (v_mesh (quad_vkind QOps) v) (bo_fields (quad_vkind QOps) (body_new (quad_vkind QOps))))
    (v_in (quad_vkind QOps) v) [] [] None) with (data_start (quad_vkind QOps) [] v).
  destruct (body_steps _ _ k _) as [b|] eqn:Es; [|discriminate]. unfold bad_state in H.
  apply andb_prop in H as [H H4]. apply andb_prop in H as [H H3]. apply andb_prop in H as [H1 H2].
  rewrite negb_true_iff in *.
  rewrite (body_steps_loop _ _ _ _ _ _ Es); [reflexivity|]. intros g. apply body_idle; auto. split; auto.
Qed.

Lemma bad_file_never : forall fuel, body_read_vtk (quad_vkind QOps) (whole_scanner QOps) fuel (Some bad_file) (body_new _) = RNoFuel.
Proof. apply (bad_check_never _ 100 3). vm_compute. reflexivity. Qed.

(** *** A file cut off in the middle of its data *)
Definition cut_file : text := file
  ["POINTS 4 float"; "0 0 0"; "1 0 0"; "0 1 0"; "1 1 0"; "CELLS 1 5"; "4 0 1 3 2"; "CELL_TYPES 1"; "9";
   "POINT_DATA 4"; "SCALARS heat float 1"; "LOOKUP_TABLE default"; "7"; "8"]%string.
Definition cut_result (t : text) : option (list (list Q)) :=
  match body_read_vtk (quad_vkind QOps) (whole_scanner QOps) 200 (Some t) (body_new _) with
  | RRet b _ => Some (map (fun p => pf_field p) (bo_fields _ b))
  | _ => None
  end.

Lemma cut_silent : cut_result cut_file = Some [[7; 8; 0; 0]%Q].
Proof. vm_compute. reflexivity. Qed.

Lemma ex_points_real : ex_points ROps = ex_pts.
Proof. reflexivity. Qed.
