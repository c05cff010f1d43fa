(** Examples beside C63: the scales of the derivatives of 0.4 x y^2 and 0.4 T_1(x) T_2(y) at (0.4, 0.4). *)
From Coq Require Import ZArith List Bool Reals Lra Lia.
From Verif Require Import Model.Outcome Model.Num Model.NumInst Model.BasisSet Model.Series.
From Verif Require Import Spec.Tensor Spec.Basis Spec.Series Spec.Rounding Spec.SeriesRounding Spec.PolyRounding.
From Verif Require Import Proofs.SeriesRoundExamples Proofs.SampleSeriesRoundP Proofs.SampleSeriesRoundExamples Proofs.SavedSeriesExamples Proofs.MonomialSeriesRoundP Proofs.MonomialSeriesExamples.
Import ListNotations.
Local Open Scope R_scope.

Lemma saved_plain_grad : forall i, (0 <= i < 2)%Z -> well_in_scale (sizes (S := DS) se_bs) se_c (by1 se_Bs se_dBs i).
Proof.
  intros i Hi. assert (E : i = 0%Z \/ i = 1%Z) by lia. destruct E as [-> | ->]; [apply (well_any (fun _ => 2) (fun _ => 1)); lra|apply (well_any (fun _ => 1) (fun _ => 2)); lra].
Qed.
Lemma saved_plain_hess : forall i j, (0 <= i < 2)%Z -> (0 <= j < 2)%Z -> well_in_scale (sizes (S := DS) se_bs) se_c (by2 se_Bs se_dBs se_dBs i j).
Proof.
  intros i j Hi Hj. assert (E : i = 0%Z \/ i = 1%Z) by lia. assert (E' : j = 0%Z \/ j = 1%Z) by lia.
  destruct E as [-> | ->], E' as [-> | ->];
    [apply (well_any (fun _ => 2) (fun _ => 1)); lra|apply (well_any (fun _ => 2) (fun _ => 2)); lra|apply (well_any (fun _ => 2) (fun _ => 2)); lra|apply (well_any (fun _ => 1) (fun _ => 2)); lra].
Qed.
Lemma saved_cheb_scale :
  (forall i, (0 <= i < 2)%Z -> well_in_scale [2; 3]%Z se_c (by1 (chebyshev_sizes 0 se_xs) (chebyshev_sizes 1 se_xs) i)) /\
  (forall i j, (0 <= i < 2)%Z -> (0 <= j < 2)%Z -> well_in_scale [2; 3]%Z se_c (by2 (chebyshev_sizes 0 se_xs) (chebyshev_sizes 1 se_xs) (chebyshev_sizes 2 se_xs) i j)).
Proof.
  pose proof (cheb_size_bounds KVal) as [A1 A2]. pose proof (cheb_size_bounds KGrad) as [B1 B2]. pose proof (cheb_size_bounds KHess) as [C1 C2]. split.
  - intros i Hi. assert (E : i = 0%Z \/ i = 1%Z) by lia. destruct E as [-> | ->]; [exact (well_any _ _ B1 A2)|exact (well_any _ _ A1 B2)].
  - intros i j Hi Hj. assert (E : i = 0%Z \/ i = 1%Z) by lia. assert (E' : j = 0%Z \/ j = 1%Z) by lia.
    destruct E as [-> | ->], E' as [-> | ->]; [exact (well_any _ _ C1 A2)|exact (well_any _ _ B1 B2)|exact (well_any _ _ B1 B2)|exact (well_any _ _ A1 C2)].
Qed.
Lemma saved_mono_scale :
  (forall i, (0 <= i < 2)%Z -> well_in_scale [2; 3]%Z se_c (by1 (monomial_sizes 0 se_xs) (monomial_sizes 1 se_xs) i)) /\
  (forall i j, (0 <= i < 2)%Z -> (0 <= j < 2)%Z -> well_in_scale [2; 3]%Z se_c (by2 (monomial_sizes 0 se_xs) (monomial_sizes 1 se_xs) (monomial_sizes 2 se_xs) i j)).
Proof.
  pose proof (mono_size_bounds KVal) as [A1 A2]. pose proof (mono_size_bounds KGrad) as [B1 B2]. pose proof (mono_size_bounds KHess) as [C1 C2]. split.
  - intros i Hi. assert (E : i = 0%Z \/ i = 1%Z) by lia. destruct E as [-> | ->]; [exact (well_any _ _ B1 A2)|exact (well_any _ _ A1 B2)].
  - intros i j Hi Hj. assert (E : i = 0%Z \/ i = 1%Z) by lia. assert (E' : j = 0%Z \/ j = 1%Z) by lia.
    destruct E as [-> | ->], E' as [-> | ->]; [exact (well_any _ _ C1 A2)|exact (well_any _ _ B1 B2)|exact (well_any _ _ B1 B2)|exact (well_any _ _ A1 C2)].
Qed.
