(** Printed coordinates. *)
From Coq Require Import ZArith List Bool Ascii String Reals Lia.
From Flocq Require Import Core.
From Flocq Require Import IEEE754.BinarySingleNaN.
From Verif Require Import Model.Outcome Model.Num Model.NumInst Model.BasisSet Model.Stream Model.SeriesIO Model.Decimal Model.CoordText.
From Verif Require Import Spec.Vtk Spec.Python Spec.Rounding Spec.Decimal Spec.CoordText.
From Verif Require Import Proofs.FieldP Proofs.StreamP Proofs.DecimalSeriesP Proofs.DecimalExamples.
Import ListNotations.
Local Open Scope Z_scope.

Lemma joined_exists ws : exists t, joined ws t.
Proof.
  induction ws as [|w ws (t & H)]; [exists []; constructor|]. destruct ws as [|v ws]; [exists w; constructor|]. eexists. constructor. exact H.
Qed.

Lemma print_loop p c : forall l1 l2 t, c = l1 ++ l2 -> forall u, joined (map (print_double p) l2) u ->
  ofold (fun (t : text) (i : Z) => let* x := co_get c i in let t := t ++ print_double p x in Ok (if i <? co_size c - 1 then t ++ [" "%char] else t))
    (map Z.of_nat (seq (List.length l1) (List.length l2))) t = Ok (t ++ u).
Proof.
  intros l1 l2. revert l1. induction l2 as [|x l2 IH]; intros l1 t E u J; cbn [List.length seq map ofold].
  - inversion J; subst. rewrite app_nil_r. reflexivity.
  - assert (G : co_get c (Z.of_nat (List.length l1)) = Ok x) by (rewrite E; apply vget_mid). rewrite G. cbn [obind].
    assert (S : co_size c = Z.of_nat (List.length l1) + 1 + Z.of_nat (List.length l2)) by (unfold co_size; rewrite E, app_length; cbn [List.length]; lia).
    replace (Datatypes.S (List.length l1)) with (List.length (l1 ++ [x])) by (rewrite app_length; cbn; lia).
    destruct l2 as [|y l2].
    + cbn [map List.length seq ofold] in *. inversion J; subst. destruct (Z.ltb_spec (Z.of_nat (List.length l1)) (co_size (l1 ++ [x]) - 1)); [cbn [List.length] in *; lia|reflexivity].
    + destruct (Z.ltb_spec (Z.of_nat (List.length l1)) (co_size c - 1)); [|cbn [List.length] in *; lia].
      cbn [map] in J. inversion J as [| |? ? ? v Jv]; subst. rewrite (IH (l1 ++ [x]) _ ltac:(rewrite <- app_assoc; reflexivity) v Jv). rewrite <- !app_assoc. reflexivity.
Qed.

Lemma printed_coordinate p c : exists t, co_print p c = Ok t /\ joined (map (print_double p) c) t.
Proof.
  destruct (joined_exists (map (print_double p) c)) as (u & J). exists u. split; [|exact J]. unfold co_print, zseq, co_size at 2. rewrite Nat2Z.id. exact (print_loop p c [] c [] eq_refl u J).
Qed.

Lemma joined_reads : forall ws t, joined ws t -> forall l r b, Forall2 denotes ws l -> ws <> [] -> ends_word r -> blanks b -> reads_doubles (in_text (b ++ t ++ r)) l (at_text r).
Proof.
  induction 1 as [|w|w v ws t J IH]; intros l r b F N R B; [congruence| |].
  - inversion F as [|? a ? l' D F']; subst. inversion F'; subst. econstructor; [|constructor]. apply (extract_tok _ denotes); auto. exact double_reader.
  - inversion F as [|? a ? l' D F']; subst. econstructor.
    + rewrite <- app_assoc. apply (extract_tok _ denotes); [exact double_reader|exact B|exact D|]. right. eexists _, _. split; [reflexivity|]. left. reflexivity.
    + rewrite at_in by discriminate. apply (IH l' r [" "%char]); auto; [discriminate|]. constructor; [left; reflexivity|constructor].
Qed.

Lemma coordinate_seventeen (c : list f64) r : c <> [] -> Forall finite c -> ends_word r ->
  exists t, co_print 17 c = Ok t /\ reads_doubles (is_open (Some (t ++ r))) c (mkIstr r (match r with [] => true | _ => false end) false).
Proof.
  intros N F R. destruct (printed_coordinate 17 c) as (t & E & J). exists t. split; [exact E|].
  apply (joined_reads _ _ J c r []); [|destruct c; [congruence|discriminate]|exact R|constructor].
  clear -F. induction F; constructor; auto. apply seventeen_digits. assumption.
Qed.

Lemma coordinate_six (c : list f64) r : c <> [] -> Forall finite c -> ends_word r ->
  exists t c', co_print 6 c = Ok t /\ reads_doubles (is_open (Some (t ++ r))) c' (mkIstr r (match r with [] => true | _ => false end) false) /\
    Forall2 (fun x a => finite a /\ Bsign a = Bsign x /\ (Rabs (value a - value x) <= 5000001 / 1000000000000 * Rabs (value x) + bpow radix2 (-1075))%R) c c' /\
    (Forall (fun x => value x = 0%R \/ (bpow radix2 (-1050) <= Rabs (value x))%R) c -> co_print 6 c' = Ok t).
Proof.
  intros N F R. destruct (printed_coordinate 6 c) as (t & E & J).
  assert (X : exists c', Forall2 denotes (map (print_double 6) c) c' /\ Forall2 kept c c').
  { clear -F. induction F as [|x c Fx F (c' & A & B)]; [exists []; split; constructor|]. destruct (six_digits x Fx) as (a & D & K). exists (a :: c'). split; constructor; auto. }
  destruct X as (c' & A & B). exists t, c'. split; [exact E|]. split; [|split].
  - apply (joined_reads _ _ J c' r []); [exact A|destruct c; [congruence|discriminate]|exact R|constructor].
  - clear -B. induction B as [|x a c c' K]; constructor; auto. destruct K as (K1 & K2 & K3 & _). auto.
  - intros Q. assert (M : map (print_double 6) c' = map (print_double 6) c).
    { clear -B Q. induction B as [|x a c c' K]; [reflexivity|]. inversion Q; subst. cbn [map]. f_equal; auto. apply K. assumption. }
    unfold co_print, zseq, co_size at 2. rewrite Nat2Z.id. rewrite <- M in J. exact (print_loop 6 c' [] c' [] eq_refl t J).
Qed.

Lemma some_coordinate : co_print 6 [third; dbl (-3) (-1); dbl 5 0] = Ok (txt "0.333333 -1.5 5") /\ Forall finite [third; dbl (-3) (-1); dbl 5 0] /\ ends_word (txt " 7").
Proof. split; [vm_compute; reflexivity|]. split; [repeat constructor|]. right. exists " "%char, (txt "7"). split; [reflexivity|]. left. reflexivity. Qed.
Lemma some_coordinate_seventeen : co_print 17 [third; dbl (-3) (-1); dbl 5 0] = Ok (txt "0.33333333333333331 -1.5 5").
Proof. vm_compute. reflexivity. Qed.
