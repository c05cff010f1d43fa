(** Files that announce too many points, as a negative number does. *)
From Coq Require Import ZArith Lia List Bool Ascii String.
From Verif Require Import Model.Outcome Model.Num Model.PNDArray Model.PSimple Model.Interpolator Model.Mesh Model.Stream Model.Vtk.
From Verif Require Import Spec.Tensor Spec.Vtk.
From Verif Require Import Proofs.StreamP Proofs.VtkP Proofs.MalformedP.
Import ListNotations.
Local Open Scope Z_scope.

Lemma too_many_points : forall (O : NumOps) (V : vkind O) num_scanner pre ph rest n (bo : body V) fuel,
  Forall mesh_filler pre -> count_line "POINTS" n ph -> 2 ^ 63 <= 8 * Z.of_nat (kdim (vk_kind V)) * n ->
  (List.length pre < fuel)%nat ->
  body_read_vtk V num_scanner fuel (Some (lines pre ++ ph ++ newline :: rest)) bo = RThrow bo LengthError.
Proof.
  intros O V num_scanner pre ph rest n bo fuel Hpre Hph Hn Hf. unfold body_read_vtk.
  change (is_open (Some ?x)) with (in_text x).
  replace fuel with (List.length pre + S (fuel - List.length pre - 1))%nat at 1 by lia.
  destruct (filler_lines V num_scanner pre (ph ++ newline :: rest) (bo_mesh V bo) loc_new (S (fuel - List.length pre - 1)) Hpre) as (L1 & E1).
  destruct (points_line_any V num_scanner ph rest (bo_mesh V bo) L1 (fuel - List.length pre - 1) (proj1 Hph) (starts_count _ _ _ Hph)) as (L2 & HL2 & E2).
  rewrite E1, E2. unfold points_section, mbind, mmod, mget. cbn [v_loc v_in v_mesh l_line l_np].
  rewrite <- HL2 in Hph. rewrite (header_count_ok _ _ _ _ (proj1 words_ok) Hph). cbn [read_member]. unfold mlift at 1. cbv zeta.
  assert (Hsz : max_elems (8 * Z.of_nat (kdim (vk_kind V))) <? n = true).
  { unfold max_elems. apply Z.ltb_lt. set (b := 8 * Z.of_nat (kdim (vk_kind V))) in *.
    assert (0 < b) by (destruct (Z.eq_dec b 0) as [E|E]; [rewrite E in Hn|]; unfold b in *; lia).
    apply Z.div_lt_upper_bound; lia. }
  unfold check_size. rewrite Hsz. cbn. destruct bo; reflexivity.
Qed.
