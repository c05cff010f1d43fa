(** Concrete doubles printed and read. *)
From Coq Require Import ZArith List Bool Ascii String Reals Lia Lra.
From Flocq Require Import Core.
From Flocq Require Import IEEE754.BinarySingleNaN.
From Verif Require Import Model.Outcome Model.Num Model.NumInst Model.PNDArray Model.PSimple Model.BasisSet Model.Series Model.Stream Model.SeriesIO Model.Decimal.
From Verif Require Import Spec.Tensor Spec.NDHistory Spec.Vtk Spec.SeriesIO Spec.Rounding Spec.Decimal.
From Verif Require Import Proofs.PNDArrayP Proofs.SeriesIOP Proofs.DecimalTextP Proofs.DecimalSeriesP.
Import ListNotations.
Local Open Scope Z_scope.

Definition dbl (m e : Z) : f64 := binary_normalize 53 1024 f64_prec f64_emax mode_NE m e false.
(** One third, ten billion, minus the smallest double, a tenth. *)
Definition third : f64 := dbl 6004799503160661 (-54).
Definition some_doubles : list f64 := [third; dbl 10000000000 0; dbl (-1) (-1074); dbl 3602879701896397 (-55); dbl (-12345678) 0; dbl 3 (-1)].
Definition six_texts : list text := [txt "0.333333"; txt "1e+10"; txt "-4.94066e-324"; txt "0.1"; txt "-1.23457e+07"; txt "1.5"].
Lemma some_texts : map (print_double 6) some_doubles = six_texts /\ print_double 17 third = txt "0.33333333333333331" /\ Forall finite some_doubles.
Proof. split; [vm_compute; reflexivity|]. split; [vm_compute; reflexivity|]. repeat constructor. Qed.
Lemma some_read : map (fun t => let '(a, ok, r) := double_scanner (t ++ txt " 7") in (print_double 17 a, ok, r)) six_texts =
  map (fun w => (w, true, txt " 7")) [txt "0.33333299999999999"; txt "10000000000"; txt "-4.9406564584124654e-324"; txt "0.10000000000000001"; txt "-12345700"; txt "1.5"].
Proof. vm_compute. reflexivity. Qed.

(** A number written in another way. *)
Lemma odd_text : decimal_text (txt "+.0250E+03") false 25 /\ decimal_text (txt "-7.") true 7.
Proof.
  split.
  - exists (txt "+"), [], (txt ".0250"), (txt "0250"), (txt "E+03"), 250, 3. split; [reflexivity|]. split; [right; split; [right; reflexivity|reflexivity]|]. split; [right; reflexivity|]. split.
    + right. exists "E"%char, (txt "+"), (txt "03"), false, 3. split; [reflexivity|]. split; [right; reflexivity|]. split; [right; split; [right; reflexivity|reflexivity]|]. split; [exact (DecMore (txt "0") 0 3 (DecDigit 0 ltac:(lia)) ltac:(lia))|reflexivity].
    + split; [apply digits_iff; split; [|reflexivity]|]. 2:{ split; [discriminate|]. change (3 - Z.of_nat (List.length (txt "0250"))) with (-1). simpl. lra. }
      repeat (constructor; [match goal with |- isd ?c => exists (match digit c with Some d => d | None => 0 end); split; [vm_compute; split; discriminate|reflexivity] end|]). constructor.
  - exists (txt "-"), (txt "7"), (txt "."), [], [], 7, 0. split; [reflexivity|]. split; [left; auto|]. split; [right; reflexivity|]. split; [left; auto|]. split; [exact (DigitsMore [] 0 7 DigitsNone ltac:(lia))|]. split; [discriminate|]. simpl. lra.
Qed.
Lemma odd_reader : denotes (txt "+.0250E+03") (dbl 25 0).
Proof.
  exists false, 25%R. split; [exact (proj1 odd_text)|]. split; [reflexivity|]. split; [reflexivity|].
  assert (E : value (dbl 25 0) = 25%R) by (unfold value; vm_compute; lra). rewrite E. rewrite Rabs_pos_eq by lra. symmetry. apply round_generic; [apply valid_rnd_N|]. apply generic_format_FLT. exists (Float radix2 25 0); [unfold F2R; cbn; lra|reflexivity|discriminate].
Qed.

(** Too large a number. *)
Lemma large_text : too_large (txt "2e308") false.
Proof.
  exists (2 * powerRZ 10 308)%R. split.
  - exists [], (txt "2"), [], [], (txt "e308"), 2, 308. split; [reflexivity|]. split; [right; auto|]. split; [left; auto|]. split.
    + right. exists "e"%char, [], (txt "308"), false, 308. split; [reflexivity|]. split; [left; reflexivity|]. split; [right; auto|]. split; [|reflexivity]. exact (DecMore (txt "30") 30 8 (DecMore (txt "3") 3 0 (DecDigit 3 ltac:(lia)) ltac:(lia)) ltac:(lia)).
    + split; [exact (DigitsMore [] 0 2 DigitsNone ltac:(lia))|]. split; [discriminate|]. cbn [List.length]. change (308 - Z.of_nat 0) with 308. reflexivity.
  - unfold to_double. apply round_ge_generic; [apply FLT_exp_valid; reflexivity|apply valid_rnd_N| |].
    + apply generic_format_bpow. unfold FLT_exp. lia.
    + change 10%R with (IZR ten). rewrite <- bpow_powerRZ. rewrite <- (IZR_Zpower radix2) by lia. rewrite <- (IZR_Zpower ten) by lia. rewrite <- mult_IZR. apply IZR_le. apply Z.leb_le. vm_compute. reflexivity.
Qed.

(** A denormal double whose text changes when it is read and printed again. *)
Definition small : f64 := dbl 202403 (-1074).
Lemma small_changes : exists x a : f64, finite x /\ finite a /\ double_scanner (print_double 6 x) = (a, true, []) /\ print_double 6 a <> print_double 6 x.
Proof.
  exists small, (fst (fst (double_scanner (print_double 6 small)))). split; [reflexivity|]. split; [vm_compute; reflexivity|]. split.
  - assert (F : finite small) by reflexivity. destruct (reread_six small F) as (a & R & _). specialize (R [] (or_introl eq_refl)). rewrite app_nil_r in R. rewrite R. reflexivity.
  - vm_compute. discriminate.
Qed.

(** Coefficients. *)
Definition dec_coeff (v : list f64) : nd f64 := mkNd [2; 3] [3; 1] v 2 6.
Definition dec_series (v : list f64) : series (num_series FOps) := @mkSeries (num_series FOps) (dec_coeff v) (dbl 1 0) (dbl 0 0) [] None [] [].
Lemma dec_reachable : forall a b c d e f, nd_reachable (sdflt (num_series FOps)) (dec_coeff [a; b; c; d; e; f]).
Proof.
  intros. set (z := sdflt (num_series FOps) : f64). change (@nd_reachable f64 z (dec_coeff [a; b; c; d; e; f])).
  assert (H : @nd_reachable f64 z (dec_coeff [z; z; z; z; z; z])).
  { apply (NdStep z nd_empty (OpResize [2; 3])); [constructor| |reflexivity]. exact (proj2 usable_example). }
  assert (St : forall v w i x, @nd_reachable f64 z (dec_coeff v) -> 0 <= i < 6 -> lset v (Z.to_nat i) x = w -> List.length v = 6%nat -> @nd_reachable f64 z (dec_coeff w)).
  { intros v w i x R Hi <- L. apply (NdStep z (dec_coeff v) (OpSet i x)); [exact R|exact Hi|]. cbn [nd_step]. unfold lift_set, nd_set, vset.
    cbn [dec_coeff nd_val]. rewrite L. replace (0 <=? i) with true by lia. replace (i <? Z.of_nat 6) with true by lia. reflexivity. }
  assert (H0 := St _ _ 0 a H ltac:(lia) eq_refl eq_refl). assert (H1 := St _ _ 1 b H0 ltac:(lia) eq_refl eq_refl).
  assert (H2 := St _ _ 2 c H1 ltac:(lia) eq_refl eq_refl). assert (H3 := St _ _ 3 d H2 ltac:(lia) eq_refl eq_refl).
  assert (H4 := St _ _ 4 e H3 ltac:(lia) eq_refl eq_refl). exact (St _ _ 5 f H4 ltac:(lia) eq_refl eq_refl).
Qed.
Definition zeros : list f64 := [dbl 0 0; dbl 0 0; dbl 0 0; dbl 0 0; dbl 0 0; dbl 0 0].
(** The texts at 17 digits of the coefficients read from [t] over [v], and whether the stream failed. *)
Definition read_back (v : list f64) (t : text) : option (list text * bool) :=
  match se_read_coeff (S := num_series FOps) double_scanner (dec_series v, is_open (Some t)) with
  | RRet (s, i) _ => Some (map (print_double 17) (nd_val (se_coeff s)), is_fail i)
  | _ => None
  end.
Definition dec_text : text := txt "0 0 0.333333
0 1 1e+10
0 2 -4.94066e-324
1 0 0.1
1 1 -1.23457e+07
1 2 1.5
".
Lemma dec_printed : se_print_coeff (S := num_series FOps) (print_double 6) (dec_series some_doubles) = Ok dec_text /\
  read_back zeros dec_text = Some ([txt "0.33333299999999999"; txt "10000000000"; txt "-4.9406564584124654e-324"; txt "0.10000000000000001"; txt "-12345700"; txt "1.5"], false).
Proof. split; vm_compute; reflexivity. Qed.

(** An infinite coefficient. *)
Definition with_infinity : list f64 := [dbl 1 0; dbl 2 0; B754_infinity false; dbl 4 0; dbl 5 0; dbl 6 0].
Definition infinity_text : text := txt "0 0 1
0 1 2
0 2 inf
1 0 4
1 1 5
1 2 6
".
Definition sevens : list f64 := [dbl 7 0; dbl 7 0; dbl 7 0; dbl 7 0; dbl 7 0; dbl 7 0].
Lemma infinity_printed : se_print_coeff (S := num_series FOps) (print_double 6) (dec_series with_infinity) = Ok infinity_text /\
  read_back sevens infinity_text = Some ([txt "1"; txt "2"; txt "0"; txt "7"; txt "7"; txt "7"], true).
Proof. split; vm_compute; reflexivity. Qed.

Lemma infinity_lost : exists (s s' s2 : series (num_series FOps)) t i, nd_reachable (sdflt (num_series FOps)) (se_coeff s) /\ nd_reachable (sdflt (num_series FOps)) (se_coeff s') /\
  nd_dim (se_coeff s') = nd_dim (se_coeff s) /\ se_print_coeff (S := num_series FOps) (print_double 6) s = Ok t /\
  se_read_coeff (S := num_series FOps) double_scanner (s', is_open (Some t)) = RRet (s2, i) tt /\ is_fail i = true /\
  exists k, nth_error (nd_val (se_coeff s)) k = Some (B754_infinity false) /\ nth_error (nd_val (se_coeff s2)) k = Some (B754_zero false) /\
    forall j a, (k < j)%nat -> nth_error (nd_val (se_coeff s2)) j = Some a -> nth_error (nd_val (se_coeff s')) j = Some a.
Proof.
  pose proof (proj2 infinity_printed) as R. unfold read_back in R.
  destruct (se_read_coeff (S := num_series FOps) double_scanner (dec_series sevens, is_open (Some infinity_text))) as [[s2 i] []| | | |] eqn:E; try discriminate R.
  exists (dec_series with_infinity), (dec_series sevens), s2, infinity_text, i. split; [apply dec_reachable|]. split; [apply dec_reachable|]. split; [reflexivity|]. split; [exact (proj1 infinity_printed)|]. split; [exact E|].
  assert (Ef : is_fail i = true) by (inversion R; reflexivity). split; [exact Ef|]. exists 2%nat. split; [reflexivity|].
  assert (Ev : map (@B2SF 53 1024) (nd_val (se_coeff s2)) = map (@B2SF 53 1024) [dbl 1 0; dbl 2 0; B754_zero false; dbl 7 0; dbl 7 0; dbl 7 0]).
  { assert (X : match se_read_coeff (S := num_series FOps) double_scanner (dec_series sevens, is_open (Some infinity_text)) with RRet (s, _) _ => map (@B2SF 53 1024) (nd_val (se_coeff s)) | _ => [] end = map (@B2SF 53 1024) [dbl 1 0; dbl 2 0; B754_zero false; dbl 7 0; dbl 7 0; dbl 7 0]) by (vm_compute; reflexivity).
    rewrite E in X. exact X. }
  assert (Eq : nd_val (se_coeff s2) = [dbl 1 0; dbl 2 0; B754_zero false; dbl 7 0; dbl 7 0; dbl 7 0]).
  { clear -Ev. revert Ev. generalize (nd_val (se_coeff s2) : list f64). generalize [dbl 1 0; dbl 2 0; B754_zero false; dbl 7 0; dbl 7 0; dbl 7 0]. intros l. induction l as [|a l IH]; intros [|b l'] Ev; try discriminate Ev; [reflexivity|].
    cbn [map] in Ev. injection Ev as E1 E2. apply B2SF_inj in E1. rewrite E1, (IH l' E2). reflexivity. }
  rewrite Eq. split; [reflexivity|]. intros [|[|[|j]]] a Hj Ha; try lia. exact Ha.
Qed.
