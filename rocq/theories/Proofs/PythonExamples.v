(** Series made, printed and read through the Python package. *)
From Flocq Require IEEE754.BinarySingleNaN.
From Coq Require Import ZArith QArith List Ascii String Reals Lra Lia.
From Verif Require Import Model.Outcome Model.Num Model.NumInst Model.PNDArray Model.BasisSet Model.Series Model.Stream Model.SeriesIO Model.Samples Model.CInterface Model.Python
  Spec.Tensor Spec.NDHistory Spec.Basis Spec.Series Spec.Vtk Spec.CInterface Spec.SeriesIO Spec.Python
  Proofs.OutcomeP Proofs.PNDArrayP Proofs.StreamP Proofs.SeriesIOP Proofs.SeriesIOExamples Proofs.SeriesClientP Proofs.CInterfaceP Proofs.CInterfaceExamples Proofs.PythonP Proofs.DigitsP.
Import ListNotations.
Local Open Scope string_scope.
Local Open Scope list_scope.
Local Open Scope Z_scope.

(** PSeries_dsis: [basis] is never the new empty list, so the constructor always calls setnew. *)
Lemma series_default : forall O : NumOps, py_series (O := O) [] = UB UBOutOfBounds.
Proof. intros O. exact (proj1 (no_sets (O := O) [] [] 0 (dsis_new O) ltac:(lia))). Qed.
Lemma series_made : forall (O : NumOps) bs, proper_basis (S := num_series O) bs ->
  exists s, py_series (map Some bs) = Ok s /\ series_over (S := num_series O) bs (nofZ O 0) (nofZ O 1) s /\
    has_shape s (sizes (S := num_series O) bs) /\ all_zero s (sizes (S := num_series O) bs) /\
    (forall k j b t, nth_error bs j = Some b -> 0 <= t < bs_size b -> stored_basis (S := num_series O) s k (Z.of_nat j) t = bstored b k t).
Proof.
  intros O bs H. destruct (setnew_ok (O := O) bs [] H) as (s & E & A & B & C & _ & D). exists s. split; [|auto].
  unfold py_series. cbn [py_is_new_list]. rewrite map_length. rewrite <- (app_nil_r (map Some bs)). exact E.
Qed.
Lemma series_reset : forall (O : NumOps) lib (bs : list (bset (num O) (num O))) s, Forall (library_set lib) bs -> fit_sizes (sizes (S := num_series O) bs) ->
  exists s' bs', py_set lib (map Some bs) s = RRet s' tt /\ Forall (library_set lib) bs' /\ map (@bs_name _ _) bs' = map (@bs_name _ _) bs /\
    series_over (S := num_series O) bs' (se_zero s) (se_one s) s' /\ has_shape s' (sizes (S := num_series O) bs) /\ all_zero s' (sizes (S := num_series O) bs).
Proof.
  intros O lib bs s HL HF. destruct (dsis_set_ok (O := O) lib bs [] s HL HF) as (s' & bs' & E & A & B & _ & _ & _ & C & D & F & _).
  exists s', bs'. split; [|auto]. unfold py_set. rewrite map_length. rewrite <- (app_nil_r (map Some bs)). exact E.
Qed.

(** Functions of the C interface no method reaches. *)
Lemma reached_bool : forallb (fun f => Bool.eqb (existsb (fun c => String.eqb (py_symbol c) (fst (fst f))) python_calls)
  (negb (existsb (String.eqb (fst (fst f))) unreached))) c_functions = true.
Proof. vm_compute. reflexivity. Qed.
Lemma reached : forall f line args, In (f, line, args) c_functions ->
  ((exists c, In c python_calls /\ py_symbol c = f) <-> ~ In f unreached).
Proof.
  intros f line args H. pose proof (proj1 (forallb_forall _ _) reached_bool _ H) as E. apply Bool.eqb_prop in E. cbn [fst] in E.
  assert (A : existsb (fun c => String.eqb (py_symbol c) f) python_calls = true <-> exists c, In c python_calls /\ py_symbol c = f).
  { rewrite existsb_exists. split; intros (c & Hc & X); exists c; (split; [exact Hc|]); apply String.eqb_eq; exact X. }
  assert (B : existsb (String.eqb f) unreached = true <-> In f unreached).
  { rewrite existsb_exists. split; [intros (g & Hg & X); apply String.eqb_eq in X; now subst|intros X; exists f; split; [exact X|apply String.eqb_refl]]. }
  rewrite <- A, <- B, E. destruct (existsb (String.eqb f) unreached); cbn [negb]; split; intro; congruence.
Qed.

(** Integer coefficients written in decimal. *)
Definition q_str (a : Q) : text := print_int (Qnum a).
Definition q_float (w : text) : option Q := match big_scanner w with (z, true, []) => Some (inject_Z z) | _ => None end.
Lemma q_word : forall a, word (q_str a).
Proof. intros a. exact (proj1 (big_reader (q_str a) (Qnum a) eq_refl)). Qed.
Lemma q_back : forall z, q_float (q_str (inject_Z z)) = Some (inject_Z z).
Proof.
  intros z. unfold q_float, q_str. cbn [Qnum inject_Z]. destruct (big_reader (print_int z) z eq_refl) as [_ H].
  specialize (H [] (or_introl eq_refl)). rewrite app_nil_r in H. rewrite H. reflexivity.
Qed.

Definition q_series (v : list Z) : @series (num_series QOps) :=
  @mkSeries (num_series QOps) (mkNd [2; 3] [3; 1] (map inject_Z v) 2 6) 1%Q 0%Q [] None [] [].
Lemma q_reachable : forall a b c d e f, nd_reachable (sdflt (num_series QOps)) (se_coeff (q_series [a; b; c; d; e; f])).
Proof.
  intros.
  assert (H : nd_reachable (sdflt (num_series QOps)) (se_coeff (q_series [0; 0; 0; 0; 0; 0]))).
  { apply (NdStep _ nd_empty (OpResize [2; 3])); [constructor| |reflexivity]. exact (proj2 usable_example). }
  assert (St : forall v w i x, nd_reachable (sdflt (num_series QOps)) (se_coeff (q_series v)) -> 0 <= i < 6 -> lset v (Z.to_nat i) x = w -> List.length v = 6%nat ->
    nd_reachable (sdflt (num_series QOps)) (se_coeff (q_series w))).
  { intros v w i x R Hi <- L. apply (NdStep _ (se_coeff (q_series v)) (OpSet i (inject_Z x))); [exact R|exact Hi|]. cbn [nd_step]. unfold lift_set, nd_set, vset.
    cbn [q_series se_coeff nd_val]. rewrite map_length, L. replace (0 <=? i) with true by lia. replace (i <? Z.of_nat 6) with true by lia. cbn [andb].
    unfold obind. do 2 f_equal. clear. generalize (Z.to_nat i). intros n. revert n. induction v as [|y v IH]; intros [|n]; cbn [lset map]; auto. now rewrite IH. }
  assert (H0 := St _ _ 0 a H ltac:(lia) eq_refl eq_refl). assert (H1 := St _ _ 1 b H0 ltac:(lia) eq_refl eq_refl).
  assert (H2 := St _ _ 2 c H1 ltac:(lia) eq_refl eq_refl). assert (H3 := St _ _ 3 d H2 ltac:(lia) eq_refl eq_refl).
  assert (H4 := St _ _ 4 e H3 ltac:(lia) eq_refl eq_refl). exact (St _ _ 5 f H4 ltac:(lia) eq_refl eq_refl).
Qed.
Lemma q_hypotheses : let s := q_series [4; -1; 0; 7; 12; -30] in
  (forall a, word (q_str a)) /\ (forall a, In a (nd_val (se_coeff s)) -> q_float (q_str a) = Some a) /\
  nd_reachable (sdflt (num_series QOps)) (se_coeff s) /\ nd_reachable (sdflt (num_series QOps)) (se_coeff (q_series [0; 0; 0; 0; 0; 0])) /\
  dsis_volume (O := QOps) (q_series [0; 0; 0; 0; 0; 0]) = dsis_volume (O := QOps) s.
Proof.
  intros s. split; [exact q_word|]. split; [|split; [apply q_reachable|split; [apply q_reachable|reflexivity]]].
  intros a Ha. cbn [q_series s se_coeff nd_val map In] in Ha. repeat (destruct Ha as [<-|Ha]; [apply q_back|]). destruct Ha.
Qed.

Lemma q_printed : py_print_coeff (O := QOps) q_str (q_series [4; -1; 0; 7; 12; -30]) = Ok io_text.
Proof. vm_compute. reflexivity. Qed.
Definition shown (r : res (@series (num_series QOps) * text) pyend) : option (list Q * text * pyend) :=
  match r with RRet (s, rest) e => Some (nd_val (se_coeff s), rest, e) | _ => None end.
Lemma q_read : shown (py_read_coeff (O := QOps) q_float (q_series [0; 0; 0; 0; 0; 0], io_text ++ txt "more")) =
  Some (map inject_Z [4; -1; 0; 7; 12; -30], txt "more", PyDone).
Proof. vm_compute. reflexivity. Qed.

(** Other layouts: the last word of each line counts. *)
Definition q_lines : list text := [txt "4"; txt "0 1 -1 "; txt " here comes	0"; txt "7 7 7"; txt "1 1 12"; txt "-30"].
Lemma q_loose : shown (py_read_coeff (O := QOps) q_float (q_series [0; 0; 0; 0; 0; 0], lines q_lines)) =
  Some (map inject_Z [4; -1; 0; 7; 12; -30], [], PyDone).
Proof. vm_compute. reflexivity. Qed.
Lemma q_short : shown (py_read_coeff (O := QOps) q_float (q_series [9; 9; 9; 9; 9; 9], lines (firstn 2 q_lines))) =
  Some (map inject_Z [4; -1; 9; 9; 9; 9], [], PyIndexError).
Proof. vm_compute. reflexivity. Qed.
Lemma q_bad : shown (py_read_coeff (O := QOps) q_float (q_series [9; 9; 9; 9; 9; 9], lines (firstn 2 q_lines ++ [txt "0 2 nil"; txt "7"]))) =
  Some (map inject_Z [4; -1; 9; 9; 9; 9], lines [txt "7"], PyValueError).
Proof. vm_compute. reflexivity. Qed.
Lemma q_lines_ok : Forall2 (fun l a => exists w, last_word l w /\ q_float w = Some a) (firstn 2 q_lines) [inject_Z 4; inject_Z (-1)].
Proof.
  assert (B : forall l, forallb (fun c => negb (space c)) l = true -> Forall (fun c => ~ blank c) l).
  { intros l H. apply Forall_forall. intros c Hc Hb. apply (proj2 (StreamP.space_blank c)) in Hb. pose proof (proj1 (forallb_forall _ _) H c Hc) as X. cbn beta in X. rewrite Hb in X. discriminate. }
  assert (N : forall l, forallb (fun c => negb (Ascii.eqb c newline)) l = true -> ~ In newline l).
  { intros l H Hi. pose proof (proj1 (forallb_forall _ _) H _ Hi) as X. cbn beta in X. rewrite Ascii.eqb_refl in X. discriminate. }
  constructor; [|constructor; [|constructor]].
  - exists (txt "4"). split; [|reflexivity]. split; [apply N; reflexivity|]. exists [], []. split; [reflexivity|]. split; [discriminate|]. split; [apply B; reflexivity|]. split; [constructor|left; reflexivity].
  - exists (txt "-1"). split; [|reflexivity]. split; [apply N; reflexivity|]. exists (txt "0 1 "), (txt " "). split; [reflexivity|]. split; [discriminate|]. split; [apply B; reflexivity|].
    split; [constructor; [apply StreamP.space_blank; reflexivity|constructor]|]. right. exists (txt "0 1"), " "%char. split; [reflexivity|apply StreamP.space_blank; reflexivity].
Qed.

Lemma pick_call : forall f : pycall -> bool, existsb f python_calls = true -> exists c, In c python_calls /\ f c = true.
Proof. intros f H. apply existsb_exists in H. exact H. Qed.
Lemma calls_case : List.length python_calls = 88%nat /\
  (exists c, In c python_calls /\ py_method c = "set_linear_coeff" /\ fits c) /\ (exists c, In c python_calls /\ py_method c = "linear_index" /\ ~ fits c).
Proof.
  split; [reflexivity|]. split.
  - destruct (pick_call (fun c => String.eqb (py_method c) "set_linear_coeff" && fitsb c)) as (c & Hc & E); [vm_compute; reflexivity|].
    apply andb_prop in E. destruct E as [E F]. exists c. split; [exact Hc|]. split; [apply String.eqb_eq, E|apply fitsb_spec, F].
  - destruct (pick_call (fun c => String.eqb (py_method c) "linear_index" && negb (fitsb c))) as (c & Hc & E); [vm_compute; reflexivity|].
    apply andb_prop in E. destruct E as [E F]. exists c. split; [exact Hc|]. split; [apply String.eqb_eq, E|]. rewrite <- fitsb_spec. destruct (fitsb c); [discriminate|congruence].
Qed.
Lemma misfit_witness : exists c, In c python_calls /\ ~ fits c.
Proof. destruct calls_case as (_ & _ & c & Hc & _ & H). exists c. auto. Qed.
Lemma reached_case : exists line args, In ("PSeriesFunction_dsis_linear_index", line, args) c_functions.
Proof.
  assert (E : existsb (fun f => String.eqb (fst (fst f)) "PSeriesFunction_dsis_linear_index") c_functions = true) by (vm_compute; reflexivity).
  apply existsb_exists in E. destruct E as ([[f line] args] & Hi & E). apply String.eqb_eq in E. cbn [fst] in E. subst f. exists line, args. exact Hi.
Qed.
Lemma text_case : py_text "x" = UB UBDangling /\ py_text "Chebyshev" = UB UBOutOfBounds /\ plain_text "Chebyshev".
Proof. split; [reflexivity|]. split; [reflexivity|]. unfold plain_text. simpl. intuition discriminate. Qed.
Lemma series_case : forall pw, exists bs, proper_basis (S := num_series ROps) bs /\ Forall (library_set (sample_library ROps pw)) bs /\
  sizes (S := num_series ROps) bs = [2; 3] /\ fit_sizes (sizes (S := num_series ROps) bs).
Proof.
  intros pw. destruct (real_sets pw) as (bs & phis & s & HL & _ & Hs & Hf & _). exists bs. split; [|auto].
  split; [|exact Hf]. destruct (library_sets _ _ HL) as (bs' & _ & _ & _ & Hr & _). exact Hr.
Qed.
Lemma digits_printed_both : forall p (show : f64 -> text), 1 <= p <= 16 -> shows_digits p BinarySingleNaN.B2R show ->
  exists s s' : series (num_series FOps), nd_reachable (sdflt (num_series FOps)) (se_coeff s) /\ nd_reachable (sdflt (num_series FOps)) (se_coeff s') /\
    nd_dim (se_coeff s) = nd_dim (se_coeff s') /\ nd_val (se_coeff s) <> nd_val (se_coeff s') /\
    se_print_coeff (S := num_series FOps) show s = se_print_coeff (S := num_series FOps) show s' /\
    py_print_coeff (O := FOps) show s = py_print_coeff (O := FOps) show s'.
Proof.
  intros p show Hp H. destruct (digits_printed p show Hp H) as (s & s' & R & R' & D & N & E). exists s, s'.
  split; [exact R|]. split; [exact R'|]. split; [exact D|]. split; [exact N|]. split; [exact E|].
  destruct (print_same show s R) as (t & P & Q). destruct (print_same show s' R') as (t' & P' & Q'). rewrite P, P'. rewrite Q, Q' in E. exact E.
Qed.
Lemma one_digits : exists x : f64, rounds_to 17 (BinarySingleNaN.B2R x) 10000000000000000 (-16).
Proof.
  exists one64. rewrite one_value. split; [simpl; lia|]. 
  assert (A : (powerRZ 10 (-16) = / 10000000000000000)%R) by exact (powerRZ_ten 16).
  assert (B : (powerRZ 10 (-16 - 1) = / 100000000000000000)%R) by exact (powerRZ_ten 17). rewrite A, B. split; [apply Rabs_def1; lra|]. rewrite Rabs_R1. simpl. lra.
Qed.
