(** A concrete series printed and read. *)
From Coq Require Import ZArith QArith List Bool Ascii String Lia.
From Verif Require Import Model.Outcome Model.Num Model.NumInst Model.PNDArray Model.PSimple Model.BasisSet Model.Series Model.Stream Model.SeriesIO.
From Verif Require Import Spec.Tensor Spec.NDHistory Spec.Vtk Spec.SeriesIO.
From Verif Require Import Proofs.PNDArrayP Proofs.StreamP Proofs.SeriesIOP Proofs.SeriesExamples.
Import ListNotations.
Local Open Scope Z_scope.

(** Integer coefficients. *)
Definition int_series : SerOps := mkSer Z Z Z.add Z.mul 0 (fun z => Ok z).

(** Coefficients written in decimal without bound, as a notation for which reading and printing are inverse. *)
Definition big_scanner : scanner Z :=
  fun t => match scan_signed t with (neg, (v, any, r)) => (if neg then - v else v, any, r) end.
Lemma big_reader : number_reader (fun w z => w = print_int z) big_scanner.
Proof.
  intros t z ->. destruct (print_int_ok z) as [t n H|t n H].
  - split; [eapply decimal_word; eauto|]. intros r Hr. unfold big_scanner.
    rewrite (scan_signed_decimal _ _ _ H (blank_no_digit _ Hr)). reflexivity.
  - destruct (decimal_word _ _ H) as [_ W]. split.
    + split; [discriminate|]. constructor; [|exact W]. intros B. apply space_blank in B. discriminate.
    + intros r Hr. unfold big_scanner, scan_signed. cbn [app]. change (Ascii.eqb "-" "-") with true. cbn iota.
      rewrite (scan_decimal _ _ _ H (blank_no_digit _ Hr)). reflexivity.
Qed.

Definition io_coeff (v : list Z) : nd Z := mkNd [2; 3] [3; 1] v 2 6.
Definition io_series (v : list Z) : @series int_series := @mkSeries int_series (io_coeff v) 1 0 [] None [] [].

Lemma io_reachable : forall a b c d e f, nd_reachable 0 (io_coeff [a; b; c; d; e; f]).
Proof.
  intros.
  assert (H : nd_reachable 0 (io_coeff [0; 0; 0; 0; 0; 0])).
  { apply (NdStep 0 nd_empty (OpResize [2; 3])); [constructor| |reflexivity]. exact (proj2 usable_example). }
  assert (St : forall v w i x, nd_reachable 0 (io_coeff v) -> 0 <= i < 6 -> lset v (Z.to_nat i) x = w -> List.length v = 6%nat -> nd_reachable 0 (io_coeff w)).
  { intros v w i x R Hi <- L. apply (NdStep 0 (io_coeff v) (OpSet i x)); [exact R|exact Hi|]. cbn [nd_step]. unfold lift_set, nd_set, vset.
    cbn [io_coeff nd_val]. rewrite L. replace (0 <=? i) with true by lia. replace (i <? Z.of_nat 6) with true by lia. reflexivity. }
  assert (H0 := St _ _ 0 a H ltac:(lia) eq_refl eq_refl). assert (H1 := St _ _ 1 b H0 ltac:(lia) eq_refl eq_refl).
  assert (H2 := St _ _ 2 c H1 ltac:(lia) eq_refl eq_refl). assert (H3 := St _ _ 3 d H2 ltac:(lia) eq_refl eq_refl).
  assert (H4 := St _ _ 4 e H3 ltac:(lia) eq_refl eq_refl). exact (St _ _ 5 f H4 ltac:(lia) eq_refl eq_refl).
Qed.

Definition io_text : text := txt "0 0 4
0 1 -1
0 2 0
1 0 7
1 1 12
1 2 -30
".

Lemma io_printed : @se_print_coeff int_series print_int (io_series [4; -1; 0; 7; 12; -30]) = Ok io_text.
Proof. vm_compute. reflexivity. Qed.

(** A table with the indices left blank-separated in another layout, and wrong. *)
Definition loose_text : text := txt " 9 9	4 9
9 -1 9 9 0   9 9 7 -3 9 12 9 9 -30".
Definition loose_rows : list (list Z * Z) :=
  [([9; 9], 4); ([9; 9], -1); ([9; 9], 0); ([9; 9], 7); ([-3; 9], 12); ([9; 9], -30)].
Lemma loose_run : exists i, @se_read_coeff int_series big_scanner (io_series [0; 0; 0; 0; 0; 0], is_open (Some (loose_text ++ txt " tail"))) =
  RRet (io_series [4; -1; 0; 7; 12; -30], i) tt /\ is_rest i = txt " tail".
Proof. eexists. split; vm_compute; reflexivity. Qed.

Lemma tokens_join : forall (B : Type) (tok : text -> B -> Prop) l, (forall t a, tok t a -> word t) ->
  Forall (fun p => fst (fst p) <> [] /\ blanks (fst (fst p)) /\ tok (snd (fst p)) (snd p)) l ->
  tokens tok (List.concat (map (fun p => fst (fst p) ++ snd (fst p)) l)) (map snd l).
Proof.
  intros B tok l Hw H. induction H as [|[[b t] a] l (H1 & H2 & H3) H IH]; [constructor|]. cbn [map List.concat fst snd] in *.
  rewrite <- app_assoc. constructor; auto. inversion H as [|[[b' t'] a'] l' (H1' & H2' & H3')]; subst; [left; reflexivity|].
  right. cbn [map List.concat fst snd] in *. destruct b' as [|c b']; [congruence|]. inversion H2'; subst. exists c. eexists. split; [reflexivity|auto].
Qed.

Definition loose_parts : list (text * text * (Z + Z)) :=
  let sp := txt " " in let nine := txt "9" in
  [(sp, nine, inl 9); (sp, nine, inl 9); (txt "	", txt "4", inr 4); (sp, nine, inl 9); ([newline], nine, inl 9); (sp, txt "-1", inr (-1));
   (sp, nine, inl 9); (sp, nine, inl 9); (sp, txt "0", inr 0); (txt "   ", nine, inl 9); (sp, nine, inl 9); (sp, txt "7", inr 7);
   (sp, txt "-3", inl (-3)); (sp, nine, inl 9); (sp, txt "12", inr 12); (sp, nine, inl 9); (sp, nine, inl 9); (sp, txt "-30", inr (-30))].

Lemma int_text_print : forall t z, t = print_int z -> int_text t z.
Proof. intros t z ->. apply print_int_ok. Qed.

Lemma loose_tokens : tokens (entry_text (fun w z => w = print_int z)) loose_text (entries loose_rows).
Proof.
  change loose_text with (List.concat (map (fun p => fst (fst p) ++ snd (fst p)) loose_parts)).
  change (entries loose_rows) with (map (@snd (text * text) (Z + Z)) loose_parts).
  apply tokens_join.
  - intros t [z|z] H; [apply (int_reader t z H)|apply (big_reader t z H)].
  - unfold loose_parts. cbn zeta.
    assert (B : forall b, forallb space b = true -> blanks b).
    { intros b H. apply Forall_forall. intros c Hc. apply space_blank. rewrite forallb_forall in H. auto. }
    repeat (apply Forall_cons; [cbn [fst snd]; split; [discriminate|]; split; [apply B; reflexivity|]; cbn [entry_text];
      first [split; [apply int_text_print; reflexivity|unfold fits_int; lia]|reflexivity]|]).
    apply Forall_nil.
Qed.

(** The products x^i y^j and their derivatives in x, printed after evaluating the basis at (2, 5). *)
Definition print_whole (q : Q) : text := print_int (Qnum (Qred q)).
Definition q_series : outcome (series QS) :=
  let* b1 := qset 3 in
  let* b2 := qset 2 in
  let* s := se_new (S := QS) 0%Q 1%Q [Some b1; Some b2] in
  match (se_eval_basis (S := QS) [2%Q; 5%Q] ;;; se_eval_basis_grad (S := QS) [2%Q; 5%Q]) s with
  | RRet s' _ => Ok s'
  | _ => Exit
  end.
Lemma q_printed :
  (let* s := q_series in se_print_basis (S := QS) print_whole s) = Ok (txt "0 0 1
0 1 5
1 0 2
1 1 10
2 0 4
2 1 20
") /\
  (let* s := q_series in se_print_basis_grad (S := QS) print_whole s 0) = Ok (txt "0 0 0
0 1 0
1 0 1
1 1 5
2 0 4
2 1 20
").
Proof. split; vm_compute; reflexivity. Qed.

(** Two rows, and a third one whose second index is no int. *)
Definition cut_rows : list (list Z * Z) := [([0; 0], 4); ([0; 1], -1)].
Definition cut_text : text := txt " 0 0 4 0 1 -1".
Definition cut_row : text := txt " 0".
Definition cut_rest : text := txt " 99999999999 7 1 0 8".
Definition cut_parts : list (text * text * (Z + Z)) :=
  let sp := txt " " in
  [(sp, txt "0", inl 0); (sp, txt "0", inl 0); (sp, txt "4", inr 4); (sp, txt "0", inl 0); (sp, txt "1", inl 1); (sp, txt "-1", inr (-1))].
Lemma blanks_space : forall b, forallb space b = true -> blanks b.
Proof. intros b H. apply Forall_forall. intros c Hc. apply space_blank. rewrite forallb_forall in H. auto. Qed.
Lemma cut_tokens : tokens (entry_text (fun w z => w = print_int z)) cut_text (entries cut_rows).
Proof.
  change cut_text with (List.concat (map (fun p => fst (fst p) ++ snd (fst p)) cut_parts)).
  change (entries cut_rows) with (map (@snd (text * text) (Z + Z)) cut_parts).
  apply tokens_join.
  - intros t [z|z] H; [apply (int_reader t z H)|apply (big_reader t z H)].
  - unfold cut_parts. cbn zeta.
    repeat (apply Forall_cons; [cbn [fst snd]; split; [discriminate|]; split; [apply blanks_space; reflexivity|]; cbn [entry_text];
      first [split; [apply int_text_print; reflexivity|unfold fits_int; lia]|reflexivity]|]).
    apply Forall_nil.
Qed.
Lemma cut_case : tokens (entry_text (fun w z => w = print_int z)) cut_text (entries cut_rows) /\ separated cut_rows (cut_row ++ cut_rest) /\
  tokens (fun w z => int_text w z /\ fits_int z) cut_row [0] /\ separated [0] cut_rest /\ no_index cut_rest.
Proof.
  assert (B : blank " ") by (left; reflexivity).
  split; [exact cut_tokens|]. split; [right; right; eexists _, _; split; [reflexivity|exact B]|]. split.
  - change cut_row with (txt " " ++ txt "0" ++ []). constructor; [apply blanks_space; reflexivity| |left; reflexivity|constructor].
    split; [apply int_text_print; reflexivity|unfold fits_int; lia].
  - split; [right; right; eexists _, _; split; [reflexivity|exact B]|].
    change cut_rest with (txt " " ++ txt "99999999999" ++ txt " 7 1 0 8"). apply TooLarge with (z := 99999999999).
    + apply blanks_space; reflexivity.
    + apply int_text_print. reflexivity.
    + unfold fits_int. lia.
    + right. eexists _, _. split; [reflexivity|exact B].
Qed.
