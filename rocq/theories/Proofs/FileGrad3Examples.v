(** The hypotheses on gradients of fields on boxes from files hold for a file with numbers such as 0.4. *)
From Coq Require Import ZArith List Bool Ascii String Reals Lra Lia.
From Flocq Require Import Core IEEE754.BinarySingleNaN.
From Verif Require Import Model.Outcome Model.Num Model.NumInst Model.Interpolator Model.Hexahedron Model.Mesh Model.PField Model.Stream Model.Vtk Model.SeriesIO Model.Decimal.
From Verif Require Import Spec.Funcs Spec.Shape Spec.Fields Spec.Vtk Spec.Rounding Spec.Rounding3 Spec.Decimal Spec.FileRounding Spec.FileRounding3.
From Verif Require Import Proofs.VtkExamples Proofs.FieldExamples Proofs.FloatExamples Proofs.FloatExamples3 Proofs.FileRoundP Proofs.FileRoundExamples Proofs.FileRound3P Proofs.FileRound3Examples.
Import ListNotations.
Local Open Scope Z_scope.
Local Notation c3r := (@mkC3 ROps).
Local Notation b04 := (7205759403792794 / 18014398509481984)%R.

Lemma f3_near : forall cell lo h v, file_near3 f3_pts sl_cells f3_data (point_value3 be_r) cell lo h v ->
  rounded_point3 lo = c3r (-1)%R 0%R 0%R /\ rounded_edges3 lo h = c3r (b04 + 1)%R 1%R 1%R /\ forall k, In k corners3 -> (Rabs (to_double (v k)) <= 4)%R.
Proof.
  intros cell lo h v (Hin & Hc & (Nx & _ & _) & Hv). pose proof tiny_1024 as T.
  assert (E : (-1 + 7/5 = 2/5)%R) by lra. assert (E' : (0 + 1 = 1)%R) by lra. assert (E2 : (2/5 + 8/5 = 2)%R) by lra.
  assert (V : forall k, In k corners3 -> (Rabs (to_double (v k)) <= 4)%R).
  { intros k Hk. assert (B : (Rabs (v k) <= 3)%R).
    { destruct (Hv k Hk) as (n & En & Ev). unfold vget in Ev. destruct (0 <=? n); [|discriminate]. destruct (nth_error f3_data (Z.to_nat n)) as [x|] eqn:Ex; [|discriminate]. injection Ev as <-.
      apply nth_error_In in Ex. cbn in Ex. repeat (destruct Ex as [<-|Ex]; [apply Rabs_le; lra|]). contradiction. }
    pose proof (to_double_abs_error (v k)) as D.
    assert (U : (unit_roundoff <= / 1024)%R) by (unfold unit_roundoff; change (/ 1024)%R with (bpow radix2 (-10)); apply bpow_le; lia).
    replace (to_double (v k)) with (v k + (to_double (v k) - v k))%R by ring. eapply Rle_trans; [apply Rabs_triang|].
    assert (unit_roundoff * Rabs (v k) <= / 1024 * 3)%R by (apply Rmult_le_compat; [apply bpow_ge_0|apply Rabs_pos|exact U|exact B]). lra. }
  destruct Hin as [<-|[<-|[]]].
  - destruct (box_unique _ _ _ _ _ _ f3_box0 Hc) as [-> ->]. split; [|split; [|exact V]].
    + unfold rounded_point3. cbn [cx cy cz]. rewrite td_m1, td_0. reflexivity.
    + unfold rounded_edges3. cbn [cx cy cz]. rewrite E, E', td_m1, td_04, td_1, td_0, d04_value. apply c3_eq; cbn [cx cy cz]; lra.
  - destruct (box_unique _ _ _ _ _ _ f3_box1 Hc) as [-> ->]. exfalso. unfold Rounding.near1, point_value3, be_r, rounded_point3, rounded_edges3 in Nx. cbn [cx] in Nx.
    rewrite E2, td_04, td_2, d04_value, quarter_value in Nx. destruct Nx as [N _]. assert (2 * tiny * (2 - b04) <= / 256)%R by nra. lra.
Qed.

Lemma f3_clear : forall j, 0 <= j <= 2 -> forall cell lo h v, file_near3 f3_pts sl_cells f3_data (point_value3 be_r) cell lo h v -> let h' := rounded_edges3 lo h in
  clear_of3 (rounded_point3 lo) h' j (point_value3 be_r) /\ (bpow radix2 (-1000) <= nth3 h' j)%R /\ forall k, In k corners3 -> (Rabs (to_double (v k)) <= bpow radix2 1000 * nth3 h' j)%R.
Proof.
  intros j Hj cell lo h v Hn. destruct (f3_near _ _ _ _ Hn) as (-> & -> & Hv). cbv zeta.
  assert (A : (bpow radix2 (-1000) <= 1)%R) by (change 1%R with (bpow radix2 0); apply bpow_le; lia).
  assert (B : (4 <= bpow radix2 1000)%R) by (change 4%R with (bpow radix2 2); apply bpow_le; lia).
  assert (U : (unit_roundoff <= / 1024)%R) by (unfold unit_roundoff; change (/ 1024)%R with (bpow radix2 (-10)); apply bpow_le; lia).
  assert (E : j = 0 \/ j = 1 \/ j = 2) by lia. unfold clear_of3, point_value3, be_r. cbn [cx cy cz]. rewrite quarter_value, half_value.
  destruct E as [-> | [-> | ->]]; cbn [nth3 cx cy cz]; (split; [lra|]); (split; [lra|]); intros k Hk; (eapply Rle_trans; [exact (Hv k Hk)|]); nra.
Qed.

(** What the program answers, with 17 digits. *)
Definition f3_ask (q : quantity) : outcome text :=
  match body_read_vtk (hex_vkind FOps) double_scanner 1000 (Some f3_file) (body_new (hex_vkind FOps)) with
  | RRet bo _ => match nth_error (bo_fields (hex_vkind FOps) bo) 0 with
                 | Some p => match field_eval (K := hex_kind FOps) (F := scalar_field FOps) q be_r (bo_mesh (hex_vkind FOps) bo, p) with
                             | RRet _ a => Ok (print_double 17 a)
                             | _ => Exit
                             end
                 | None => Exit
                 end
  | _ => Exit
  end.
