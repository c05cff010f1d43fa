(** Example beside C60: 0.4 T_1(x) T_2(y) at (0.4, 0.4), in binary64. *)
From Coq Require Import ZArith List Bool String Reals Lra Lia Psatz.
From Coquelicot Require Import Coquelicot.
From Flocq Require Import Core.Raux Core.Zaux Core.Defs IEEE754.BinarySingleNaN.
From Coq Require Import List.
From Verif Require Import Model.Outcome Model.Num Model.NumInst Model.BasisSet Model.Series Model.CExpr Model.Samples.
From Verif Require Import Spec.Tensor Spec.Basis Spec.Series Spec.Poly Spec.Rounding Spec.SeriesRounding Spec.PolyRounding.
From Verif Require Import Proofs.PolyP Proofs.SeriesClientP Proofs.FloatExamples Proofs.SeriesRoundExamples Proofs.SampleSetsP Proofs.SampleRoundP Proofs.SampleSeriesRoundP.
Import ListNotations.
Local Open Scope R_scope.

Definition pw0 : f64 -> f64 -> f64 := fun a _ => a.
Lemma cheb_made : exists a b : bset f64 f64, chebyshev_doubles pw0 a /\ chebyshev_doubles pw0 b /\ bs_size a = 2%Z /\ bs_size b = 3%Z.
Proof.
  pose proof (make_size chebyshev_classes chebyshev_cases FOps pw0 (nofZ FOps 0) "Chebyshev"%string 2 ltac:(lia)) as A. 
  pose proof (make_size chebyshev_classes chebyshev_cases FOps pw0 (nofZ FOps 0) "Chebyshev"%string 3 ltac:(lia)) as B. cbn [Z.leb Z.compare] in A, B.
  destruct A as (a & A & Sa & _), B as (b & B & Sb & _). exists a, b.
  split; [exists 2%Z, a; split; [lia|]; split; [exact A|apply LaterNow]|]. split; [exists 3%Z, b; split; [lia|]; split; [exact B|apply LaterNow]|]. split; [exact Sa|exact Sb].
Qed.

Local Notation b04 := (7205759403792794 / 18014398509481984).
Lemma scale_any : forall f g, 1 <= f 1%Z <= 8 -> 1 <= g 2%Z <= 8 -> in_scale [2; 3]%Z se_c [f; g].
Proof.
  intros f g Hf Hg. assert (B : 64 <= bpow radix2 1000) by (change 64 with (bpow radix2 6); apply bpow_le; lia).
  assert (A : bpow radix2 (-1000) <= / 4) by (change (/ 4) with (bpow radix2 (-2)); apply bpow_le; lia).
  assert (V : Rabs (value d04) = b04) by (rewrite d04_value; apply Rabs_pos_eq; lra).
  assert (N : Rabs (value (nofZ FOps 0 : f64)) = 0) by exact Rabs_R0.
  split.
  - intros t Ht. unfold se_c. destruct (list_eq_dec Z.eq_dec t [1; 2]%Z) as [->|Hn]; [|split; [reflexivity|left; reflexivity]].
    split; [reflexivity|]. right. intros k Hk. rewrite V. simpl in Hk. destruct k as [|[|[|k]]]; [| | |lia]; unfold factors, product; simpl; nra.
  - unfold size_sum. rewrite nested_23. unfold factors, product. cbn [combine map fst snd fold_right].
    change (se_c [1; 2]%Z) with d04. change (se_c [0; 0]%Z) with (nofZ FOps 0 : f64). change (se_c [0; 1]%Z) with (nofZ FOps 0 : f64). change (se_c [0; 2]%Z) with (nofZ FOps 0 : f64).
    change (se_c [1; 0]%Z) with (nofZ FOps 0 : f64). change (se_c [1; 1]%Z) with (nofZ FOps 0 : f64). rewrite V, N. nra.
Qed.

Lemma cheb_size_bounds : forall k, 1 <= 1 + sizeR k 1 (Rabs (value d04)) <= 8 /\ 1 <= 1 + sizeR k 2 (Rabs (value d04)) <= 8.
Proof.
  intros k. rewrite !sizeR_ok. assert (V : Rabs (value d04) = b04) by (rewrite d04_value; apply Rabs_pos_eq; lra). rewrite V.
  change (Z.to_nat 1) with 1%nat. change (Z.to_nat 2) with 2%nat. destruct k; cbn -[Rplus Rmult Rdiv IZR]; lra.
Qed.

Lemma cheb_scale : in_scale [2; 3]%Z se_c (chebyshev_sizes 0 se_xs) /\
  (forall i, (0 <= i < 2)%Z -> in_scale [2; 3]%Z se_c (by1 (chebyshev_sizes 0 se_xs) (chebyshev_sizes 1 se_xs) i)) /\
  (forall i j, (0 <= i < 2)%Z -> (0 <= j < 2)%Z -> in_scale [2; 3]%Z se_c (by2 (chebyshev_sizes 0 se_xs) (chebyshev_sizes 1 se_xs) (chebyshev_sizes 2 se_xs) i j)).
Proof.
  pose proof (cheb_size_bounds KVal) as [A1 A2]. pose proof (cheb_size_bounds KGrad) as [B1 B2]. pose proof (cheb_size_bounds KHess) as [C1 C2].
  split; [exact (scale_any _ _ A1 A2)|]. split.
  - intros i Hi. assert (E : i = 0%Z \/ i = 1%Z) by lia. destruct E as [-> | ->]; [exact (scale_any _ _ B1 A2)|exact (scale_any _ _ A1 B2)].
  - intros i j Hi Hj. assert (E : i = 0%Z \/ i = 1%Z) by lia. assert (E' : j = 0%Z \/ j = 1%Z) by lia.
    destruct E as [-> | ->], E' as [-> | ->]; [exact (scale_any _ _ C1 A2)|exact (scale_any _ _ B1 B2)|exact (scale_any _ _ B1 B2)|exact (scale_any _ _ A1 C2)].
Qed.

Lemma cheb_case : exists bs s, Forall (chebyshev_doubles pw0) bs /\ sizes (S := DS) bs = [2; 3]%Z /\ fit_sizes (sizes (S := DS) bs) /\
  series_over (S := DS) bs (nofZ FOps 0) (nofZ FOps 1) s /\ coefficients (S := DS) s (sizes (S := DS) bs) se_c /\
  Forall (fun x => finite x /\ Rabs (value x) <= 1) se_xs.
Proof.
  destruct cheb_made as (a & b & Ha & Hb & Sa & Sb). exists [a; b].
  assert (F : Forall (chebyshev_doubles pw0) [a; b]) by (repeat constructor; assumption).
  assert (E : sizes (S := DS) [a; b] = [2; 3]%Z) by (unfold sizes; cbn [map]; f_equal; [exact Sa|f_equal; exact Sb]).
  assert (Fit : fit_sizes (sizes (S := DS) [a; b])) by (rewrite E; exact (proj2 se_proper)).
  pose proof (cheb_proper pw0 [a; b] F Fit) as P.
  destruct (new_ok (S := DS) [a; b] (nofZ FOps 0) (nofZ FOps 1) P) as (s0 & _ & H1 & H2 & _).
  destruct (put_ok (S := DS) [a; b] _ _ s0 _ [1; 2]%Z d04 P H1 H2) as (s & _ & H3 & H4); [rewrite E; repeat constructor; lia|].
  exists s. split; [exact F|]. split; [exact E|]. split; [exact Fit|]. split; [exact H3|]. split; [exact H4|].
  assert (V : Rabs (value d04) <= 1) by (rewrite d04_value, Rabs_pos_eq; lra). unfold se_xs. constructor; [split; [reflexivity|exact V]|]. constructor; [split; [reflexivity|exact V]|constructor].
Qed.
