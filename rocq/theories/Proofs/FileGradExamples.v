(** The hypotheses on derivatives of fields from files hold for a file with numbers such as 0.4. *)
From Coq Require Import ZArith List Bool Ascii String Reals Lra Lia.
From Flocq Require Import Core IEEE754.BinarySingleNaN.
From Verif Require Import Model.Outcome Model.Num Model.NumInst Model.Interpolator Model.Quad Model.Mesh Model.PField Model.Stream Model.Vtk Model.SeriesIO Model.Decimal.
From Verif Require Import Spec.Funcs Spec.Shape Spec.Fields Spec.Vtk Spec.Rounding Spec.Decimal Spec.FileRounding.
From Verif Require Import Proofs.VtkExamples Proofs.FloatExamples Proofs.FileRoundP Proofs.FileRoundExamples.
Import ListNotations.
Local Open Scope Z_scope.

Lemma fr_near : forall r cell lo h v, file_near fr_pts fe_cells fr_data r cell lo h v ->
  rounded_point lo = fe_lo /\ rounded_edges lo h = fe_h /\ forall k, In k corners2 -> (Rabs (to_double (v k)) <= 3)%R.
Proof.
  intros r cell lo h v (Hin & Hc & _ & Hv). destruct Hin as [<-|[]]. destruct (rect_unique _ _ _ _ _ _ fr_rect Hc) as [-> ->].
  assert (E : (-1 + 7/5 = 2/5)%R) by lra. assert (E' : (0 + 1 = 1)%R) by lra.
  split; [unfold rounded_point, fe_lo; cbn [fst snd]; rewrite td_m1, td_0; reflexivity|]. split.
  - unfold rounded_edges, fe_h. cbn [fst snd]. rewrite E, E', td_m1, td_04, td_1, td_0, d04_value. apply f_equal2; lra.
  - intros k Hk. assert (B : (Rabs (v k) <= 5/2)%R).
    { destruct (Hv k Hk) as (n & En & Ev). simpl in Hk. destruct Hk as [<-|[<-|[<-|[<-|[]]]]]; injection En as <-; cbn in Ev; injection Ev as <-; apply Rabs_le; lra. }
    pose proof (to_double_abs_error (v k)) as D.
    assert (U : (unit_roundoff <= / 1024)%R) by (unfold unit_roundoff; change (/ 1024)%R with (bpow radix2 (-10)); apply bpow_le; lia).
    assert (T : (tiny <= / 1024)%R) by (unfold tiny; change (/ 1024)%R with (bpow radix2 (-10)); apply bpow_le; lia).
    replace (to_double (v k)) with (v k + (to_double (v k) - v k))%R by ring. eapply Rle_trans; [apply Rabs_triang|].
    assert (unit_roundoff * Rabs (v k) <= / 1024 * (5/2))%R by (apply Rmult_le_compat; [apply bpow_ge_0|apply Rabs_pos|exact U|exact B]). lra.
Qed.

Lemma fr_clear : (forall j, (0 <= j <= 1)%Z -> forall cell lo h v, file_near fr_pts fe_cells fr_data (point_value (quarter, half)) cell lo h v -> let h' := rounded_edges lo h in
    clear_of (rounded_point lo) h' j (point_value (quarter, half)) /\ (bpow radix2 (-1000) <= nth2 h' j)%R /\ forall k, In k corners2 -> (Rabs (to_double (v k)) <= bpow radix2 1000 * nth2 h' j)%R) /\
  (forall cell lo h v, file_near fr_pts fe_cells fr_data (point_value (quarter, half)) cell lo h v -> let h' := rounded_edges lo h in
    clear_of (rounded_point lo) h' 0 (point_value (quarter, half)) /\ clear_of (rounded_point lo) h' 1 (point_value (quarter, half)) /\ (bpow radix2 (-1000) <= fst h')%R /\
    (bpow radix2 (-1000) <= fst h' * snd h' <= bpow radix2 1000)%R /\ forall k, In k corners2 -> (Rabs (to_double (v k)) <= bpow radix2 1000 * (fst h' * snd h'))%R).
Proof.
  assert (A : (bpow radix2 (-1000) <= 1)%R) by (change 1%R with (bpow radix2 0); apply bpow_le; lia).
  assert (B : (4 <= bpow radix2 1000)%R) by (change 4%R with (bpow radix2 2); apply bpow_le; lia).
  assert (F : forall j, (0 <= j <= 1)%Z -> forall cell lo h v, file_near fr_pts fe_cells fr_data (point_value (quarter, half)) cell lo h v -> let h' := rounded_edges lo h in
    clear_of (rounded_point lo) h' j (point_value (quarter, half)) /\ (bpow radix2 (-1000) <= nth2 h' j)%R /\ forall k, In k corners2 -> (Rabs (to_double (v k)) <= bpow radix2 1000 * nth2 h' j)%R).
  { intros j Hj cell lo h v Hn. destruct (fr_near _ _ _ _ _ Hn) as (-> & -> & Hv). cbv zeta.
    assert (U : (unit_roundoff <= / 1024)%R) by (unfold unit_roundoff; change (/ 1024)%R with (bpow radix2 (-10)); apply bpow_le; lia).
    assert (E : j = 0 \/ j = 1) by lia. unfold clear_of, point_value. cbn [fst snd]. rewrite quarter_value, half_value.
    destruct E as [-> | ->]; cbn [nth2 fe_lo fe_h fst snd]; (split; [lra|]); (split; [lra|]); intros k Hk; (eapply Rle_trans; [exact (Hv k Hk)|]); nra. }
  split; [exact F|]. intros cell lo h v Hn. cbv zeta. destruct (F 0 ltac:(lia) _ _ _ _ Hn) as (C0 & S0 & B0). destruct (F 1 ltac:(lia) _ _ _ _ Hn) as (C1 & _ & _).
  destruct (fr_near _ _ _ _ _ Hn) as (E1 & E2 & Hv). rewrite E1, E2 in *. cbv zeta in *. cbn [nth2] in S0, B0. split; [exact C0|]. split; [exact C1|]. split; [exact S0|].
  assert (E : (fst fe_h * snd fe_h = fst fe_h)%R) by (cbn; lra). rewrite E. split; [split; [exact S0|]|exact B0].
  cbn [fe_h fst]. apply Rle_trans with (bpow radix2 1); [simpl; lra|apply bpow_le; lia].
Qed.

(** What the program answers, with 17 digits. *)
Definition fr_ask (q : quantity) : outcome text :=
  match body_read_vtk (quad_vkind FOps) double_scanner 1000 (Some fr_file) (body_new (quad_vkind FOps)) with
  | RRet bo _ => match nth_error (bo_fields (quad_vkind FOps) bo) 0 with
                 | Some p => match field_eval (K := quad_kind FOps) (F := scalar_field FOps) q (quarter, half) (bo_mesh (quad_vkind FOps) bo, p) with
                             | RRet _ a => Ok (print_double 17 a)
                             | _ => Exit
                             end
                 | None => Exit
                 end
  | _ => Exit
  end.
