(** Example beside C60 and C63: 0.4 x y^2 at (0.4, 0.4), in binary64. *)
From Coq Require Import ZArith List Bool String Reals Lra Lia Psatz.
From Coquelicot Require Import Coquelicot.
From Flocq Require Import Core.Raux Core.Zaux Core.Defs IEEE754.BinarySingleNaN.
From Coq Require Import List.
From Verif Require Import Model.Outcome Model.Num Model.NumInst Model.BasisSet Model.Series Model.CExpr Model.Samples.
From Verif Require Import Spec.Tensor Spec.Basis Spec.Series Spec.Poly Spec.Rounding Spec.SeriesRounding Spec.PolyRounding.
From Verif Require Import Proofs.PolyP Proofs.SeriesClientP Proofs.FloatExamples Proofs.SeriesRoundExamples Proofs.SampleSetsP Proofs.SampleRoundP Proofs.SampleSeriesRoundP Proofs.SampleSeriesRoundExamples Proofs.SavedSeriesExamples Proofs.MonomialSeriesRoundP.
Import ListNotations.
Local Open Scope R_scope.

Lemma mono_made : exists a b : bset f64 f64, monomial_doubles pw0 a /\ monomial_doubles pw0 b /\ bs_size a = 2%Z /\ bs_size b = 3%Z.
Proof.
  pose proof (make_size monomial_classes monomial_cases FOps pw0 (nofZ FOps 0) "Monomial"%string 2 ltac:(lia)) as A. 
  pose proof (make_size monomial_classes monomial_cases FOps pw0 (nofZ FOps 0) "Monomial"%string 3 ltac:(lia)) as B. cbn [Z.leb Z.compare] in A, B.
  destruct A as (a & A & Sa & _), B as (b & B & Sb & _). exists a, b.
  split; [exists 2%Z, a; split; [lia|]; split; [exact A|apply LaterNow]|]. split; [exists 3%Z, b; split; [lia|]; split; [exact B|apply LaterNow]|]. split; [exact Sa|exact Sb].
Qed.

Local Notation b04 := (7205759403792794 / 18014398509481984).
Lemma mono_size_bounds : forall k, 1 <= 1 + msizeR k 1 (Rabs (value d04)) <= 8 /\ 1 <= 1 + msizeR k 2 (Rabs (value d04)) <= 8.
Proof.
  intros k. rewrite !msizeR_ok. assert (V : Rabs (value d04) = b04) by (rewrite d04_value; apply Rabs_pos_eq; lra). rewrite V.
  change (Z.to_nat 1) with 1%nat. change (Z.to_nat 2) with 2%nat. destruct k; cbn -[Rplus Rmult Rdiv IZR]; lra.
Qed.

Lemma mono_scale : in_scale [2; 3]%Z se_c (monomial_sizes 0 se_xs) /\
  (forall i, (0 <= i < 2)%Z -> in_scale [2; 3]%Z se_c (by1 (monomial_sizes 0 se_xs) (monomial_sizes 1 se_xs) i)) /\
  (forall i j, (0 <= i < 2)%Z -> (0 <= j < 2)%Z -> in_scale [2; 3]%Z se_c (by2 (monomial_sizes 0 se_xs) (monomial_sizes 1 se_xs) (monomial_sizes 2 se_xs) i j)).
Proof.
  pose proof (mono_size_bounds KVal) as [A1 A2]. pose proof (mono_size_bounds KGrad) as [B1 B2]. pose proof (mono_size_bounds KHess) as [C1 C2].
  split; [exact (scale_any _ _ A1 A2)|]. split.
  - intros i Hi. assert (E : i = 0%Z \/ i = 1%Z) by lia. destruct E as [-> | ->]; [exact (scale_any _ _ B1 A2)|exact (scale_any _ _ A1 B2)].
  - intros i j Hi Hj. assert (E : i = 0%Z \/ i = 1%Z) by lia. assert (E' : j = 0%Z \/ j = 1%Z) by lia.
    destruct E as [-> | ->], E' as [-> | ->]; [exact (scale_any _ _ C1 A2)|exact (scale_any _ _ B1 B2)|exact (scale_any _ _ B1 B2)|exact (scale_any _ _ A1 C2)].
Qed.

Lemma mono_case : exists bs s, Forall (monomial_doubles pw0) bs /\ sizes (S := DS) bs = [2; 3]%Z /\ fit_sizes (sizes (S := DS) bs) /\
  series_over (S := DS) bs (nofZ FOps 0) (nofZ FOps 1) s /\ coefficients (S := DS) s (sizes (S := DS) bs) se_c /\
  Forall (fun x => finite x /\ Rabs (value x) <= 1024) se_xs.
Proof.
  destruct mono_made as (a & b & Ha & Hb & Sa & Sb). exists [a; b].
  assert (F : Forall (monomial_doubles pw0) [a; b]) by (repeat constructor; assumption).
  assert (E : sizes (S := DS) [a; b] = [2; 3]%Z) by (unfold sizes; cbn [map]; f_equal; [exact Sa|f_equal; exact Sb]).
  assert (Fit : fit_sizes (sizes (S := DS) [a; b])) by (rewrite E; exact (proj2 se_proper)).
  pose proof (mono_proper pw0 [a; b] F Fit) as P.
  destruct (new_ok (S := DS) [a; b] (nofZ FOps 0) (nofZ FOps 1) P) as (s0 & _ & H1 & H2 & _).
  destruct (put_ok (S := DS) [a; b] _ _ s0 _ [1; 2]%Z d04 P H1 H2) as (s & _ & H3 & H4); [rewrite E; repeat constructor; lia|].
  exists s. split; [exact F|]. split; [exact E|]. split; [exact Fit|]. split; [exact H3|]. split; [exact H4|].
  assert (V : Rabs (value d04) <= 1024) by (rewrite d04_value, Rabs_pos_eq; lra). unfold se_xs. constructor; [split; [reflexivity|exact V]|]. constructor; [split; [reflexivity|exact V]|constructor].
Qed.

Lemma saved_mono_case : exists bs s s', Forall (monomial_doubles pw0) bs /\ sizes (S := DS) bs = [2; 3]%Z /\ fit_sizes (sizes (S := DS) bs) /\
  series_over (S := DS) bs (nofZ FOps 0) (nofZ FOps 1) s /\ series_over (S := DS) bs (nofZ FOps 0) (nofZ FOps 1) s' /\ coefficients (S := DS) s (sizes (S := DS) bs) se_c /\
  coefficients (S := DS) s' (sizes (S := DS) bs) (fun _ => nofZ FOps 0) /\
  Forall (fun x => finite x /\ Rabs (value x) <= 1024) se_xs /\ well_in_scale (sizes (S := DS) bs) se_c (monomial_sizes 0 se_xs) /\ (forall t, finite (se_c t)).
Proof.
  destruct mono_case as (bs & s & F & E & Fit & H1 & H2 & Hx). pose proof (mono_proper pw0 bs F Fit) as P.
  destruct (new_ok (S := DS) bs (nofZ FOps 0) (nofZ FOps 1) P) as (s0 & _ & H3 & H4 & _).
  exists bs, s, s0. split; [exact F|]. split; [exact E|]. split; [exact Fit|]. split; [exact H1|]. split; [exact H3|]. split; [exact H2|]. split; [exact H4|]. split; [exact Hx|]. split.
  - rewrite E. pose proof (mono_size_bounds KVal) as [A1 A2]. exact (well_any _ _ A1 A2).
  - intros t. unfold se_c. destruct (list_eq_dec Z.eq_dec t [1; 2]%Z); reflexivity.
Qed.
