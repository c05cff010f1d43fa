(** From the decimal numbers of a file to the field's answers in doubles. *)
From Coq Require Import ZArith List Bool Ascii String Reals Lra Lia.
From Flocq Require Import Core IEEE754.BinarySingleNaN.
From Verif Require Import Model.Outcome Model.Num Model.NumInst Model.PNDArray Model.Interpolator Model.Quad Model.Mesh Model.PField Model.Stream Model.Vtk Model.Decimal.
From Verif Require Import Spec.Tensor Spec.Funcs Spec.Shape Spec.Fields Spec.Vtk Spec.Rounding Spec.Decimal Spec.FileRounding.
From Verif Require Import Proofs.OutcomeP Proofs.VtkP Proofs.VtkSpecP Proofs.VtkLoopP Proofs.VtkExamples Proofs.FloatEvalP Proofs.DecimalP Proofs.DecimalTextP Proofs.DecimalRoundP Proofs.DecimalSeriesP.
Import ListNotations.
Local Open Scope R_scope.

(** ** Numbers *)
Lemma to_double_opp x : to_double (- x) = - to_double x.
Proof. apply round_NE_opp. Qed.
Lemma to_double_mono x y : x <= y -> to_double x <= to_double y.
Proof. intros H. apply round_le; [apply FLT_exp_valid; reflexivity|apply valid_rnd_N|exact H]. Qed.
Lemma to_double_value (a : f64) : to_double (value a) = value a.
Proof. apply to_double_id. exact (generic_format_B2R 53 1024 a). Qed.
Lemma to_double_abs_error x : Rabs (to_double x - x) <= unit_roundoff * Rabs x + tiny.
Proof.
  assert (P : forall y, 0 < y -> Rabs (to_double y - y) <= unit_roundoff * y + tiny) by (intros y Hy; exact (to_double_error y Hy)).
  assert (0 < tiny) by apply bpow_gt_0.
  destruct (Rtotal_order x 0) as [H1|[->|H1]].
  - rewrite <- (Ropp_involutive x), to_double_opp, Rabs_Ropp. rewrite (Rabs_pos_eq (- x)) by lra.
    replace (- to_double (- x) - - - x) with (- (to_double (- x) - - x)) by ring. rewrite Rabs_Ropp. apply P. lra.
  - unfold to_double. rewrite round_0 by apply valid_rnd_N. rewrite Rminus_0_r, Rabs_R0. lra.
  - rewrite (Rabs_pos_eq x) by lra. apply P. lra.
Qed.
Lemma to_double_bound x : Rabs x <= bpow radix2 1000 -> Rabs (to_double x) <= bpow radix2 1000.
Proof.
  intros H. assert (E : to_double (bpow radix2 1000) = bpow radix2 1000).
  { apply to_double_id. apply generic_format_bpow. unfold FLT_exp. lia. }
  apply Rabs_le_inv in H. apply Rabs_le. split.
  - rewrite <- E at 1. rewrite <- to_double_opp. apply to_double_mono, H.
  - rewrite <- E. apply to_double_mono, H.
Qed.

(** [a] is the double read for [x]. *)
Definition reads_as (x : R) (a : f64) : Prop := finite a /\ value a = to_double x.

Lemma numeral_double w x : small_numeral w x -> exists a, denotes w a /\ reads_as x a /\ Rabs x <= bpow radix2 1000.
Proof.
  intros [(neg & y & D & E) B]. pose proof (decimal_text_nonneg _ _ _ D) as Py.
  assert (By : Rabs y <= bpow radix2 1000) by (destruct neg; subst x; [rewrite Rabs_Ropp in B|]; exact B).
  pose proof (to_double_ge0 y Py) as P0. pose proof (to_double_bound _ By) as Bd. rewrite Rabs_pos_eq in Bd by exact P0.
  pose proof (reads w neg y [] D (or_introl eq_refl)) as R. rewrite Rlt_bool_true in R by (eapply Rle_lt_trans; [exact Bd|apply bpow_lt; reflexivity]).
  destruct R as (a & _ & Fa & Sa & Va). exists a. split; [|split; [|exact B]].
  - exists neg, y. split; [exact D|]. split; [exact Fa|]. split; [exact Sa|]. rewrite Va. destruct neg; [rewrite Rabs_Ropp|]; apply Rabs_pos_eq; exact P0.
  - split; [exact Fa|]. rewrite Va. subst x. destruct neg; [rewrite to_double_opp|]; reflexivity.
Qed.

(** ** Texts *)
Definition small_reads (x : R) (a : f64) : Prop := reads_as x a /\ Rabs x <= bpow radix2 1000.

Lemma tokens_double : forall t xs, tokens small_numeral t xs -> exists ds, tokens denotes t ds /\ Forall2 small_reads xs ds.
Proof.
  induction 1 as [|b t x r xs Hb Ht Hr Hl IH].
  - exists []. split; constructor.
  - destruct IH as (ds & T & F). destruct (numeral_double _ _ Ht) as (a & D & Q & B). exists (a :: ds). split; [apply TokCons; assumption|].
    apply Forall2_cons; [split; assumption|exact F].
Qed.

Lemma F2_length (A B : Type) (P : A -> B -> Prop) l l' : Forall2 P l l' -> List.length l = List.length l'.
Proof. induction 1; cbn; congruence. Qed.

Definition field_reads (f : text * list R) (g : text * list f64) : Prop := fst f = fst g /\ Forall2 small_reads (snd f) (snd g).

Lemma separated_same (A B : Type) (l : list A) (l' : list B) r : List.length l = List.length l' -> separated l r -> separated l' r.
Proof. intros E [->|H]; [left; destruct l'; [reflexivity|discriminate E]|right; exact H]. Qed.

Lemma data_double : forall np fs t, data_text (O := ROps) small_numeral np fs t -> exists gs, data_text (O := FOps) denotes np gs t /\ Forall2 field_reads fs gs.
Proof.
  induction 1 as [np l H|np l fs r H Hr IH|np n l fs r H Hr IH|n name l lookup values t fs r H1 H2 H3 H4 H5 H6 Hr IH].
  - exists []. split; [apply DataEnd; exact H|constructor].
  - destruct IH as (gs & D & F). exists gs. split; [apply DataFiller; assumption|exact F].
  - destruct IH as (gs & D & F). exists gs. split; [eapply DataCount; eassumption|exact F].
  - destruct IH as (gs & D & F). destruct (tokens_double _ _ H5) as (ds & T & Fd). pose proof (F2_length _ _ _ _ _ Fd) as L. exists ((name, ds) :: gs). split.
    + apply DataField; [exact H1|exact H2|unfold num in *; cbn in *; congruence|exact H4|exact T|exact (separated_same _ _ _ _ _ L H6)|exact D].
    + apply Forall2_cons; [split; [reflexivity|exact Fd]|exact F].
Qed.

Definition point_reads (p : point2) (q : c2 FOps) : Prop := small_reads (fst p) (fst q) /\ small_reads (snd p) (snd q).

Lemma coords_double : forall (pts : list point2) xs, Forall2 (coords2 (O := ROps)) pts xs -> forall ds, Forall2 small_reads (List.concat xs) ds ->
  exists (qs : list (c2 FOps)) ys, Forall2 (coords2 (O := FOps)) qs ys /\ List.concat ys = ds /\ Forall2 point_reads pts qs.
Proof.
  induction 1 as [|p x pts xs (w & ->) H IH]; cbn [List.concat app]; intros ds F.
  - inversion F; subst. exists [], []. repeat split; constructor.
  - inversion F as [|? a ? d1 Fa F1]; subst. inversion F1 as [|? b ? d2 Fb F2]; subst. inversion F2 as [|? c ? d3 Fc F3]; subst.
    destruct (IH d3 F3) as (qs & ys & C & E & P). exists ((a, b) :: qs), ([a; b; c] :: ys). split; [apply Forall2_cons; [exists c; reflexivity|exact C]|].
    split; [exact (f_equal (fun l => a :: b :: c :: l) E)|]. apply Forall2_cons; [split; assumption|exact P].
Qed.

Lemma vtk_double : forall pts cells fields t, vtk_text (O := ROps) small_numeral coords2 pts cells fields t ->
  exists qs gs, vtk_text (O := FOps) denotes coords2 qs cells gs t /\ Forall2 point_reads pts qs /\ Forall2 field_reads fields gs.
Proof.
  intros pts cells fields t H. destruct H as [pre ph xs pt mid ch ct mid' th types tt rest H1 H2 H3 H4 H5 H6 H7 H8 H9 H10 H11 H12 H13 H14 H15 H16 H17 H18 H19].
  destruct (tokens_double _ _ H4) as (ds & T & Fd). destruct (coords_double _ _ H3 ds Fd) as (qs & ys & C & <- & P). destruct (data_double _ _ _ H15) as (gs & D & F).
  pose proof (F2_length _ _ _ _ _ P) as L. exists qs, gs. split; [|split; assumption].
  apply VtkText with (xs := ys) (types := types); try assumption.
  - rewrite <- L. exact H2.
  - exact (separated_same _ _ _ _ _ L H6).
  - rewrite <- L. exact H16.
Qed.

(** ** Meshes *)
Lemma vget_image (A B : Type) (f : A -> B) l n x : vget l n = Ok x -> vget (map f l) n = Ok (f x).
Proof.
  unfold vget. destruct (0 <=? n)%Z; [|discriminate]. rewrite nth_error_map. destruct (nth_error l (Z.to_nat n)) as [y|]; [|discriminate].
  intros H. injection H as <-. reflexivity.
Qed.
Lemma vget_member (A : Type) (l : list A) n x : vget l n = Ok x -> In x l.
Proof. unfold vget. destruct (0 <=? n)%Z; [|discriminate]. destruct (nth_error l (Z.to_nat n)) eqn:E; [|discriminate]. intros H. injection H as <-. exact (nth_error_In _ _ E). Qed.

Lemma distinct_map f l : (distinct (map f l) <= distinct l)%Z.
Proof.
  unfold distinct. apply inj_le. rewrite <- (map_length f (nodup Req_EM_T l)). apply NoDup_incl_length; [apply NoDup_nodup|].
  intros y Hy. apply nodup_In in Hy. apply in_map_iff in Hy. destruct Hy as (x & <- & Hx). apply in_map. apply nodup_In. exact Hx.
Qed.

(** The rounded rectangle. *)
Definition rlo (lo : point2) : point2 := rounded_point lo.
Definition rh (lo h : point2) : point2 := (to_double (fst lo + fst h) - to_double (fst lo), to_double (snd lo + snd h) - to_double (snd lo)).

Lemma rounded_rect pts cell lo h : apart (map fst pts) -> apart (map snd pts) -> cell_rect pts cell lo h -> cell_rect (map rounded_point pts) cell (rlo lo) (rh lo h).
Proof.
  intros Ax Ay [[Px Py] C].
  assert (G : forall k, In k corners2 -> In (corner2 lo h k) pts) by (intros k Hk; destruct (C k Hk) as (n & _ & E); exact (vget_member _ _ _ _ E)).
  pose proof (G 0%Z ltac:(simpl; auto)) as G0. pose proof (G 2%Z ltac:(simpl; auto)) as G2. unfold corner2 in G0, G2. cbn [unit2 fst snd] in G0, G2.
  assert (G0' : In (fst lo, snd lo) pts) by (replace (fst lo, snd lo) with (fst lo + 0 * fst h, snd lo + 0 * snd h) by (apply f_equal2; ring); exact G0).
  assert (G2' : In (fst lo + fst h, snd lo + snd h) pts) by (replace (fst lo + fst h, snd lo + snd h) with (fst lo + 1 * fst h, snd lo + 1 * snd h) by (apply f_equal2; ring); exact G2).
  split.
  - unfold positive2, rh. cbn [fst snd]. split; apply Rlt_Rminus.
    + apply Ax; [exact (in_map fst _ _ G0')|exact (in_map fst _ _ G2')|lra].
    + apply Ay; [exact (in_map snd _ _ G0')|exact (in_map snd _ _ G2')|lra].
  - intros k Hk. destruct (C k Hk) as (n & E1 & E2). exists n. split; [exact E1|]. rewrite (vget_image _ _ rounded_point _ _ _ E2). f_equal.
    assert (S : forall a d c : R, c = 0 \/ c = 1 -> to_double (a + c * d) = to_double a + c * (to_double (a + d) - to_double a)).
    { intros a d c [-> | ->]; [rewrite !Rmult_0_l, !Rplus_0_r; reflexivity|rewrite !Rmult_1_l; ring]. }
    unfold rounded_point, corner2, rlo, rh. cbn [fst snd].
    simpl in Hk. destruct Hk as [<-|[<-|[<-|[<-|[]]]]]; cbn [unit2 fst snd]; apply f_equal2; apply S; auto.
Qed.

Lemma rounded_mesh : forall pts cells, rect_mesh pts cells -> apart (map fst pts) -> apart (map snd pts) -> rect_mesh (map rounded_point pts) cells.
Proof.
  intros pts cells (H1 & H2 & H3 & H4) Ax Ay. split; [exact H1|]. split; [|split; [|exact H4]].
  - eapply Forall_impl; [|exact H2]. intros cell (lo & h & Hc). exists (rlo lo), (rh lo h). exact (rounded_rect _ _ _ _ Ax Ay Hc).
  - eapply Z.le_trans; [|exact H3]. 
    assert (E1 : map fst (map rounded_point pts) = map to_double (map fst pts)) by (rewrite !map_map; apply map_ext; reflexivity).
    assert (E2 : map snd (map rounded_point pts) = map to_double (map snd pts)) by (rewrite !map_map; apply map_ext; reflexivity).
    rewrite E1, E2. pose proof (distinct_map to_double (map fst pts)). pose proof (distinct_map to_double (map snd pts)).
    assert (0 <= distinct (map to_double (map fst pts)))%Z by apply Nat2Z.is_nonneg. assert (0 <= distinct (map to_double (map snd pts)))%Z by apply Nat2Z.is_nonneg.
    apply Z.mul_le_mono_nonneg; lia.
Qed.

Lemma rounded_in pts cells (r : c2 FOps) : apart (map fst pts) -> apart (map snd pts) -> in_mesh2 pts cells (point_value r) -> in_mesh2 (map rounded_point pts) cells (point_value r).
Proof.
  intros Ax Ay (cell & lo & h & Hin & Hc & Hr). exists cell, (rlo lo), (rh lo h). split; [exact Hin|]. pose proof (rounded_rect _ _ _ _ Ax Ay Hc) as Hc'. split; [exact Hc'|].
  destruct Hc as [[Px Py] _]. destruct Hc' as [[Px' Py'] _]. destruct Hr as [Hx Hy]. destruct r as [x y]. unfold point_value in *. cbn [fst snd] in *.
  assert (S : forall a d (z : f64), 0 < d -> 0 < to_double (a + d) - to_double a -> between1 a d (value z) -> between1 (to_double a) (to_double (a + d) - to_double a) (value z)).
  { intros a d z Hd Hd' (t & Ht & E). rewrite <- (to_double_value z). set (w := to_double (a + d) - to_double a) in *. exists ((to_double (value z) - to_double a) / w). 
    assert (to_double a <= to_double (value z)) by (apply to_double_mono; rewrite E; pose proof (Rmult_le_pos t d); lra).
    assert (to_double (value z) <= to_double (a + d)) by (apply to_double_mono; rewrite E; pose proof (Rmult_le_compat_r d t 1); lra).
    split; [split|].
    - apply Rmult_le_pos; [lra|]. apply Rlt_le, Rinv_0_lt_compat. exact Hd'.
    - apply (Rmult_le_reg_r w); [exact Hd'|]. unfold Rdiv. rewrite Rmult_assoc, Rinv_l by lra. unfold w. lra.
    - field. lra. }
  split; cbn [rlo rounded_point rh fst snd] in *; apply S; assumption.
Qed.

Lemma rect_unique pts cell lo h lo' h' : cell_rect pts cell lo h -> cell_rect pts cell lo' h' -> lo' = lo /\ h' = h.
Proof.
  intros [_ C] [_ C'].
  assert (G : forall k, In k corners2 -> corner2 lo h k = corner2 lo' h' k).
  { intros k Hk. destruct (C k Hk) as (n & E1 & E2). destruct (C' k Hk) as (n' & E1' & E2'). congruence. }
  pose proof (G 0%Z ltac:(simpl; auto)) as G0. pose proof (G 2%Z ltac:(simpl; auto)) as G2. unfold corner2 in G0, G2. cbn [unit2 fst snd] in G0, G2.
  injection G0 as G0 G0'. injection G2 as G2 G2'. destruct lo, h, lo', h'. cbn [fst snd] in *. split; f_equal; lra.
Qed.

(** ** The interpolant *)
Definition blend (v : Z -> R) (s t : R) : R := (1 - t) * ((1 - s) * v 0%Z + s * v 1%Z) + t * ((1 - s) * v 3%Z + s * v 2%Z).
Lemma bilinear_blend lo h v r : bilinear lo h v r = blend v ((fst r - fst lo) / fst h) ((snd r - snd lo) / snd h).
Proof. reflexivity. Qed.
Definition total (v : Z -> R) : R := rsum (fun k => Rabs (v k)) corners2.
Lemma total_eq v : total v = Rabs (v 0%Z) + Rabs (v 1%Z) + Rabs (v 2%Z) + Rabs (v 3%Z).
Proof. unfold total, rsum, corners2. cbn [fold_right]. ring. Qed.

Lemma Rabs_prod_le a b c d : Rabs a <= c -> Rabs b <= d -> Rabs (a * b) <= c * d.
Proof. intros H1 H2. rewrite Rabs_mult. apply Rmult_le_compat; auto using Rabs_pos. Qed.

Lemma blend_bound v s t A B : Rabs s <= A -> Rabs (1 - s) <= A -> Rabs t <= B -> Rabs (1 - t) <= B -> Rabs (blend v s t) <= A * B * total v.
Proof.
  intros H1 H2 H3 H4. rewrite total_eq. assert (0 <= A) by (eapply Rle_trans; [apply Rabs_pos|exact H1]). 
  assert (S : forall x y a, Rabs x <= A -> Rabs y <= B -> Rabs (x * y * a) <= A * B * Rabs a).
  { intros x y a Hx Hy. apply Rabs_prod_le; [apply Rabs_prod_le; assumption|apply Rle_refl]. }
  unfold blend. replace (_ + _) with ((1 - s) * (1 - t) * v 0%Z + s * (1 - t) * v 1%Z + s * t * v 2%Z + (1 - s) * t * v 3%Z) by ring.
  pose proof (S _ _ (v 0%Z) H2 H4). pose proof (S _ _ (v 1%Z) H1 H4). pose proof (S _ _ (v 2%Z) H1 H3). pose proof (S _ _ (v 3%Z) H2 H3).
  eapply Rle_trans; [apply Rabs_triang|]. eapply Rle_trans; [apply Rplus_le_compat_r, Rabs_triang|]. eapply Rle_trans; [apply Rplus_le_compat_r, Rplus_le_compat_r, Rabs_triang|]. lra.
Qed.

(** Moving the point. *)
Lemma blend_moved v s t s' t' ds dt : Rabs (s - s') <= ds -> Rabs (t - t') <= dt -> -1/8 <= s' <= 9/8 -> -1/8 <= t' <= 9/8 ->
  Rabs (blend v s t - blend v s' t') <= (9/8 * ds + 9/8 * dt + ds * dt) * total v.
Proof.
  intros H1 H2 Hs Ht.
  assert (E : blend v s t - blend v s' t' = (s - s') * ((1 - t') * (v 1%Z - v 0%Z) + t' * (v 2%Z - v 3%Z)) + (t - t') * ((1 - s') * (v 3%Z - v 0%Z) + s' * (v 2%Z - v 1%Z)) +
     (s - s') * (t - t') * (v 0%Z - v 1%Z + v 2%Z - v 3%Z)) by (unfold blend; ring).
  rewrite E. pose proof (total_eq v) as T.
  assert (D : forall a b, Rabs (a - b) <= Rabs a + Rabs b) by (intros a b; unfold Rminus; eapply Rle_trans; [apply Rabs_triang|rewrite Rabs_Ropp; apply Rle_refl]).
  assert (W : forall u a b c d, -1/8 <= u <= 9/8 -> Rabs ((1 - u) * (a - b) + u * (c - d)) <= 9/8 * (Rabs a + Rabs b + Rabs c + Rabs d)).
  { intros u a b c d Hu. eapply Rle_trans; [apply Rabs_triang|]. 
    assert (Rabs ((1 - u) * (a - b)) <= 9/8 * (Rabs a + Rabs b)) by (apply Rabs_prod_le; [apply Rabs_le; lra|apply D]).
    assert (Rabs (u * (c - d)) <= 9/8 * (Rabs c + Rabs d)) by (apply Rabs_prod_le; [apply Rabs_le; lra|apply D]). lra. }
  pose proof (W t' (v 1%Z) (v 0%Z) (v 2%Z) (v 3%Z) Ht) as W1. pose proof (W s' (v 3%Z) (v 0%Z) (v 2%Z) (v 1%Z) Hs) as W2.
  assert (W3 : Rabs (v 0%Z - v 1%Z + v 2%Z - v 3%Z) <= total v).
  { rewrite T. eapply Rle_trans; [apply D|]. pose proof (Rabs_triang (v 0%Z - v 1%Z) (v 2%Z)). pose proof (D (v 0%Z) (v 1%Z)). lra. }
  assert (W1' : Rabs ((1 - t') * (v 1%Z - v 0%Z) + t' * (v 2%Z - v 3%Z)) <= 9/8 * total v) by (rewrite T; lra).
  assert (W2' : Rabs ((1 - s') * (v 3%Z - v 0%Z) + s' * (v 2%Z - v 1%Z)) <= 9/8 * total v) by (rewrite T; lra).
  pose proof (Rabs_prod_le _ _ _ _ H1 W1'). pose proof (Rabs_prod_le _ _ _ _ H2 W2'). pose proof (Rabs_prod_le _ _ _ _ (Rabs_prod_le _ _ _ _ H1 H2) W3).
  eapply Rle_trans; [apply Rabs_triang|]. eapply Rle_trans; [apply Rplus_le_compat_r, Rabs_triang|]. lra.
Qed.

(** Where a point lies on an edge, and on the rounded edge. *)
Lemma position_moved a h x : 0 < h -> let a' := to_double a in let h' := to_double (a + h) - to_double a in 0 < h' -> near1 a' h' x ->
  let s := (x - a) / h in let s' := (x - a') / h' in Rabs (s - s') <= 9/8 * displacement a h /\ -1/8 <= s' <= 9/8.
Proof.
  intros Hh a' h' Hh' [N1 N2] s s'.
  assert (T : 0 < tiny <= 1/32) by (split; [apply bpow_gt_0|]; replace (1/32) with (bpow radix2 (-5)) by (cbn; lra); apply bpow_le; discriminate).
  assert (Bs : - 2 * tiny <= s' <= 1 + 2 * tiny).
  { unfold s'. split; apply (Rmult_le_reg_r h'); try exact Hh'; unfold Rdiv; rewrite ?Rmult_assoc, ?Rinv_l by lra; lra. }
  split; [|lra].
  set (da := a' - a). set (db := to_double (a + h) - (a + h)).
  assert (E : s - s' = ((1 - s') * da + s' * db) * / h) by (assert (Hb : to_double (a + h) - a' <> 0) by (unfold h', a' in *; lra); unfold s, s', da, db, h'; fold a'; field; split; [lra|exact Hb]).
  assert (Ea : Rabs da <= unit_roundoff * Rabs a + tiny) by apply to_double_abs_error.
  assert (Eb : Rabs db <= unit_roundoff * Rabs (a + h) + tiny) by apply to_double_abs_error.
  unfold displacement, Rdiv. rewrite E, Rabs_mult, (Rabs_pos_eq (/ h)) by (apply Rlt_le, Rinv_0_lt_compat, Hh). rewrite <- Rmult_assoc. apply Rmult_le_compat_r; [apply Rlt_le, Rinv_0_lt_compat, Hh|].
  assert (Rabs ((1 - s') * da) <= 9/8 * (unit_roundoff * Rabs a + tiny)) by (apply Rabs_prod_le; [apply Rabs_le; lra|exact Ea]).
  assert (Rabs (s' * db) <= 9/8 * (unit_roundoff * Rabs (a + h) + tiny)) by (apply Rabs_prod_le; [apply Rabs_le; lra|exact Eb]).
  eapply Rle_trans; [apply Rabs_triang|]. lra.
Qed.
Lemma displacement_pos a h : 0 < h -> 0 <= displacement a h.
Proof.
  intros H. unfold displacement, Rdiv. apply Rmult_le_pos; [|apply Rlt_le, Rinv_0_lt_compat, H]. assert (0 < unit_roundoff) by apply bpow_gt_0. assert (0 < tiny) by apply bpow_gt_0.
  pose proof (Rabs_pos a). pose proof (Rabs_pos (a + h)). pose proof (Rmult_le_pos unit_roundoff (Rabs a + Rabs (a + h))). lra.
Qed.

Lemma rect_moved v lo h r : 0 < fst h -> 0 < snd h -> positive2 (rh lo h) -> near_rect (rlo lo) (rh lo h) r ->
  Rabs (bilinear lo h v r - bilinear (rlo lo) (rh lo h) v r) <= 2 * displacement2 lo h * total v /\
  (let s' := (fst r - fst (rlo lo)) / fst (rh lo h) in let t' := (snd r - snd (rlo lo)) / snd (rh lo h) in (-1/8 <= s' <= 9/8) /\ (-1/8 <= t' <= 9/8)).
Proof.
  intros Hx Hy [Hx' Hy'] [Nx Ny]. destruct (position_moved _ _ _ Hx Hx' Nx) as [Dx Sx]. destruct (position_moved _ _ _ Hy Hy' Ny) as [Dy Sy].
  split; [|split; assumption]. rewrite !bilinear_blend. pose proof (blend_moved v _ _ _ _ _ _ Dx Dy Sx Sy) as B. eapply Rle_trans; [exact B|].
  assert (0 <= total v) by (rewrite total_eq; pose proof (Rabs_pos (v 0%Z)); pose proof (Rabs_pos (v 1%Z)); pose proof (Rabs_pos (v 2%Z)); pose proof (Rabs_pos (v 3%Z)); lra).
  apply Rmult_le_compat_r; [assumption|]. unfold displacement2. pose proof (displacement_pos (fst lo) (fst h) Hx) as P1. pose proof (displacement_pos (snd lo) (snd h) Hy) as P2.
  pose proof (Rmult_le_pos _ _ P1 P2) as P3. clear - P1 P2 P3. set (dx := displacement (fst lo) (fst h)) in *. set (dy := displacement (snd lo) (snd h)) in *.
  match goal with |- _ <= 2 * ?e => change e with ((1 + dx) * (1 + dy) - 1) end. clearbody dx dy. lra.
Qed.

(** ** From the file to the answers *)
Local Notation QV := (quad_vkind FOps).
Local Notation SF := (scalar_field FOps).

Lemma points_read pts qs : Forall2 point_reads pts qs -> Forall finite_point qs /\ map point_value qs = map rounded_point pts.
Proof.
  induction 1 as [|p q pts qs [[[F1 V1] _] [[F2 V2] _]] H [IH1 IH2]]; [split; [constructor|reflexivity]|]. split; [apply Forall_cons; [split; assumption|exact IH1]|].
  cbn [map]. f_equal; [|exact IH2]. unfold point_value, rounded_point. apply f_equal2; assumption.
Qed.
Lemma data_read xs ds : Forall2 small_reads xs ds -> Forall finite ds /\ map value ds = map to_double xs /\ forall d, In d ds -> Rabs (value d) <= bpow radix2 1000.
Proof.
  induction 1 as [|x d xs ds [[F V] B] H (IH1 & IH2 & IH3)]; [split; [constructor|split; [reflexivity|intros d []]]|]. split; [apply Forall_cons; assumption|]. split.
  - cbn [map]. f_equal; assumption.
  - intros y [<-|Hy]; [rewrite V; apply to_double_bound, B|exact (IH3 y Hy)].
Qed.

(** Rounding the data. *)
Lemma data_moved xs ds cell v' lo h r : Forall2 small_reads xs ds -> cell_data (map value ds) cell corners2 v' ->
  exists v, cell_data xs cell corners2 v /\ total v' <= (1 + unit_roundoff) * total v + 4 * tiny /\
    (let s := (fst r - fst lo) / fst h in let t := (snd r - snd lo) / snd h in (-1/8 <= s <= 9/8) /\ (-1/8 <= t <= 9/8) ->
     Rabs (bilinear lo h v' r - bilinear lo h v r) <= 81/64 * (unit_roundoff * total v + 4 * tiny)).
Proof.
  intros H Hv. destruct (data_read _ _ H) as (_ & E & _).
  assert (C : forall k, exists x, In k corners2 -> exists n, vget cell k = Ok n /\ vget xs n = Ok x /\ v' k = to_double x).
  { intros k. destruct (in_dec Z.eq_dec k corners2) as [Hk|Hk]; [|exists 0; intros; contradiction].
    destruct (Hv k Hk) as (n & E1 & E2). rewrite E in E2. unfold vget in E2. destruct (0 <=? n)%Z eqn:En; [|discriminate]. rewrite nth_error_map in E2.
    destruct (nth_error xs (Z.to_nat n)) as [x|] eqn:Ex; [|discriminate]. injection E2 as E2. exists x. intros _. exists n. split; [exact E1|]. split; [|symmetry; exact E2]. unfold vget. rewrite En, Ex. reflexivity. }
  assert (C4 : exists v, forall k, In k corners2 -> exists n, vget cell k = Ok n /\ vget xs n = Ok (v k) /\ v' k = to_double (v k)).
  { destruct (C 0%Z) as (x0 & H0). destruct (C 1%Z) as (x1 & H1). destruct (C 2%Z) as (x2 & H2). destruct (C 3%Z) as (x3 & H3).
    exists (fun k => if Z.eqb k 0 then x0 else if Z.eqb k 1 then x1 else if Z.eqb k 2 then x2 else x3).
    intros k Hk. pose proof Hk as Hk'. simpl in Hk'. destruct Hk' as [<-|[<-|[<-|[<-|[]]]]]; cbn [Z.eqb Pos.eqb]; auto. }
  destruct C4 as (v & C4). exists v. split; [intros k Hk; destruct (C4 k Hk) as (n & A & B & _); exists n; split; assumption|].
  assert (D : forall k, In k corners2 -> Rabs (v' k - v k) <= unit_roundoff * Rabs (v k) + tiny).
  { intros k Hk. destruct (C4 k Hk) as (n & _ & _ & ->). apply to_double_abs_error. }
  assert (D' : forall k, In k corners2 -> Rabs (v' k) <= Rabs (v k) + (unit_roundoff * Rabs (v k) + tiny)).
  { intros k Hk. replace (v' k) with (v k + (v' k - v k)) by ring. eapply Rle_trans; [apply Rabs_triang|]. apply Rplus_le_compat_l. exact (D k Hk). }
  pose proof (fun k => D k) as D0. rewrite !total_eq. 
  pose proof (D' 0%Z ltac:(simpl; auto)). pose proof (D' 1%Z ltac:(simpl; auto)). pose proof (D' 2%Z ltac:(simpl; auto)). pose proof (D' 3%Z ltac:(simpl; auto)). split; [lra|].
  intros s t [Hs Ht]. match goal with |- Rabs _ <= ?e => change (Rabs (blend v' s t - blend v s t) <= e) end. clearbody s t.
  replace (blend v' s t - blend v s t) with (blend (fun k => v' k - v k) s t) by (unfold blend; ring).
  eapply Rle_trans; [apply (blend_bound _ _ _ (9/8) (9/8)); apply Rabs_le; lra|]. replace (9/8 * (9/8)) with (81/64) by lra. apply Rmult_le_compat_l; [lra|].
  rewrite total_eq. pose proof (D 0%Z ltac:(simpl; auto)). pose proof (D 1%Z ltac:(simpl; auto)). pose proof (D 2%Z ltac:(simpl; auto)). pose proof (D 3%Z ltac:(simpl; auto)). lra.
Qed.

Lemma file_value : forall pts cells fields t fuel name,
  vtk_text (O := ROps) small_numeral coords2 pts cells fields t -> rect_mesh pts cells -> apart (map fst pts) -> apart (map snd pts) ->
  resolved (map fst (map rounded_point pts)) -> resolved (map snd (map rounded_point pts)) ->
  In name (map fst fields) -> Forall (fun f => (List.length pts <= List.length (snd f))%nat) fields -> (List.length t < fuel)%nat ->
  exists bo k p data, body_read_vtk QV double_scanner fuel (Some t) (body_new QV) = RRet bo tt /\
    find_scalar_field QV bo (string_of_list_ascii name) = Ok k /\ nth_error (bo_fields QV bo) k = Some p /\
    nth_error fields k = Some (name, data) /\ (forall k' f, (k' < k)%nat -> nth_error fields k' = Some f -> fst f <> name) /\
    forall r, finite_point r -> in_mesh2 pts cells (point_value r) ->
    exists a cell lo h v, answers (bo_mesh QV bo) p QVal r a /\ finite a /\ In cell cells /\ cell_rect pts cell lo h /\ cell_data data cell corners2 v /\
      near_rect (rounded_point lo) (to_double (fst lo + fst h) - to_double (fst lo), to_double (snd lo + snd h) - to_double (snd lo)) (point_value r) /\
      Rabs (value a - bilinear lo h v (point_value r)) <= (22 * unit_roundoff + 2 * displacement2 lo h) * rsum (fun k => Rabs (v k)) corners2 + 16 * tiny.
Proof.
  intros pts cells fields t fuel name Ht Hr Ax Ay Rx Ry Hin Hlen Hf. destruct (vtk_double _ _ _ _ Ht) as (qs & gs & Ht' & Pp & Pf).
  destruct (points_read _ _ Pp) as [Fq Vq]. pose proof (rounded_mesh _ _ Hr Ax Ay) as Hr'.
  destruct (reads64 qs cells) as (m & Hm & Hnew); [exact Fq|rewrite Vq; exact Hr'|rewrite Vq; exact Rx|rewrite Vq; exact Ry|].
  destruct (read2_ok FOps denotes double_scanner qs cells gs t m fuel double_reader Ht' Hm Hf) as (ps & E & Hps & Hnm & _).
  assert (Hin' : In name (map fst gs)).
  { assert (Eg : map fst gs = map fst fields) by (clear - Pf; induction Pf as [|f g l l' [A _] H IH]; [reflexivity|cbn [map]; f_equal; [symmetry; exact A|exact IH]]). rewrite Eg. exact Hin. }
  assert (Hk : exists k, find_scalar_field QV (mkBody QV m ps) (string_of_list_ascii name) = Ok k).
  { unfold find_scalar_field. destruct (find_from_spec ps 0 (string_of_list_ascii name)) as [(k & _ & _ & _ & _ & H)|[H _]].
    - exists (0 + k)%nat. exact H.
    - exfalso. apply in_map_iff in Hin'. destruct Hin' as (f & Ef & Hi). apply In_nth_error in Hi. destruct Hi as (k & Hk).
      destruct (Forall2_nth' _ _ _ _ _ Hnm k f Hk) as (p & Hp' & Hname & _). rewrite Forall_forall in H.
      apply (H p (nth_error_In _ _ Hp')). rewrite Hname, Ef. reflexivity. }
  destruct Hk as (k & Hk). destruct (proj1 (find_ok QV _ _ _) Hk) as [(p & Hp' & Hname) Hfirst]. cbn [bo_fields] in *.
  destruct (Forall2_nth _ _ _ _ _ Hps k p Hp') as ((name' & ds) & Hfd & Hn). cbn [fst snd] in Hn.
  destruct (Forall2_nth _ _ _ _ _ Hnm k p Hp') as (f' & Hfd' & Hname' & _).
  assert (name' = name). { assert (Ef := eq_trans (eq_sym Hfd) Hfd'). injection Ef as <-. apply string_inj. cbn [fst] in Hname'. congruence. } subst name'.
  destruct (Forall2_nth _ _ _ _ _ Pf k _ Hfd) as ((name' & data) & Hdd & [En Pd]). cbn [fst snd] in En, Pd. subst name'.
  exists (mkBody QV m ps), k, p, data. split; [exact E|]. split; [exact Hk|]. split; [exact Hp'|]. split; [exact Hdd|]. split.
  - intros k' f Hlt Hf' Ef. destruct (Forall2_nth' _ _ _ _ _ Pf k' f Hf') as (g & Hg & [Eg _]). destruct (Forall2_nth' _ _ _ _ _ Hnm k' g Hg) as (p' & Hpp & Hn' & _).
    apply (Hfirst k' p' Hlt Hpp). transitivity (string_of_list_ascii (fst g)); [exact Hn'|]. f_equal. transitivity (fst f); [symmetry; exact Eg|exact Ef].
  - intros r Fr Hi. cbn [bo_mesh]. destruct (data_read _ _ Pd) as (Fd & Vd & Bd).
    assert (Ld : (List.length qs <= List.length ds)%nat).
    { rewrite Forall_forall in Hlen. specialize (Hlen _ (nth_error_In _ _ Hdd)). cbn [snd] in Hlen. pose proof (F2_length _ _ _ _ _ Pp) as L1. pose proof (F2_length _ _ _ _ _ Pd) as L2. exact (eq_ind _ (fun n => (n <= List.length ds)%nat) (eq_ind _ (fun n => (List.length pts <= n)%nat) Hlen _ L2) _ L1). }
    destruct (Hnew ds (string_of_list_ascii name) Ld) as (p0 & Ep & Hon). assert (p0 = p) by congruence. subst p0.
    assert (H64 : field64 qs cells ds m p) by (unfold field64; rewrite Vq; repeat (split; [assumption|]); assumption).
    destruct (value_error qs cells ds m p r H64 Fr) as (a & cell & lo' & h' & v' & Ha & Fa & (Hc & Hrect & Hnear & Hv) & He).
    { rewrite Vq. exact (rounded_in _ _ _ Ax Ay Hi). }
    { exact Bd. }
    rewrite Vq in Hrect. destruct Hr as (_ & Hcells & _). rewrite Forall_forall in Hcells. destruct (Hcells cell Hc) as (lo & h & Hex).
    destruct (rect_unique _ _ _ _ _ _ (rounded_rect _ _ _ _ Ax Ay Hex) Hrect) as [-> ->].
    destruct Hrect as [Hpos' _]. pose proof Hex as [[Hx Hy] _].
    destruct (data_moved data ds cell v' (rlo lo) (rh lo h) (point_value r) Pd Hv) as (v & Hv1 & Ht1 & Hb1).
    destruct (rect_moved v lo h (point_value r) Hx Hy Hpos' Hnear) as [Hm1 Hst]. specialize (Hb1 Hst).
    exists a, cell, lo, h, v. split; [exact Ha|]. split; [exact Fa|]. split; [exact Hc|]. split; [exact Hex|]. split; [exact Hv1|]. split; [exact Hnear|].
    fold (total v) (total v') in *. change (rsum (fun k => Rabs (v k)) corners2) with (total v). change (rsum (fun k => Rabs (v' k)) corners2) with (total v') in He.
    assert (U : 0 < unit_roundoff <= 1/10000) by (split; [apply bpow_gt_0|]; apply Rle_trans with (bpow radix2 (-20)); [apply bpow_le; discriminate|cbn; lra]).
    assert (T : 0 < tiny) by apply bpow_gt_0.
    assert (Tv : 0 <= total v) by (rewrite total_eq; pose proof (Rabs_pos (v 0%Z)); pose proof (Rabs_pos (v 1%Z)); pose proof (Rabs_pos (v 2%Z)); pose proof (Rabs_pos (v 3%Z)); lra).
    set (B := bilinear lo h v (point_value r)) in *. set (B1 := bilinear (rlo lo) (rh lo h) v (point_value r)) in *. set (B2 := bilinear (rlo lo) (rh lo h) v' (point_value r)) in *.
    replace (value a - B) with ((value a - B2) + (B2 - B1) + - (B - B1)) by ring.
    eapply Rle_trans; [apply Rabs_triang|]. rewrite Rabs_Ropp. eapply Rle_trans; [apply Rplus_le_compat_r, Rabs_triang|].
    assert (20 * unit_roundoff * total v' <= 20 * unit_roundoff * ((1 + unit_roundoff) * total v + 4 * tiny)) by (apply Rmult_le_compat_l; [lra|exact Ht1]).
    assert (P1 : unit_roundoff * unit_roundoff * total v <= 1/10000 * (unit_roundoff * total v)).
    { replace (1/10000 * (unit_roundoff * total v)) with (1/10000 * unit_roundoff * total v) by ring. apply Rmult_le_compat_r; [exact Tv|]. apply Rmult_le_compat_r; lra. }
    assert (P2 : unit_roundoff * tiny <= 1/10000 * tiny) by (apply Rmult_le_compat_r; lra).
    assert (P3 : 0 <= unit_roundoff * total v) by (apply Rmult_le_pos; lra).
    nra.
Qed.
