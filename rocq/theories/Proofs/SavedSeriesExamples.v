(** Example beside C63: 0.4 T_1(x) T_2(y), saved and read into an empty series, at (0.4, 0.4). *)
From Coq Require Import ZArith List Bool String Reals Lra Lia Psatz.
From Coquelicot Require Import Coquelicot.
From Flocq Require Import Core.Raux Core.Zaux Core.Defs IEEE754.BinarySingleNaN.
From Coq Require Import List.
From Verif Require Import Model.Outcome Model.Num Model.NumInst Model.BasisSet Model.Series.
From Verif Require Import Spec.Tensor Spec.Basis Spec.Series Spec.Poly Spec.Rounding Spec.SeriesRounding Spec.PolyRounding.
From Verif Require Import Proofs.PolyP Proofs.SeriesClientP Proofs.FloatExamples Proofs.SeriesRoundExamples Proofs.SampleRoundP Proofs.SampleSeriesRoundP Proofs.SampleSeriesRoundExamples.
Import ListNotations.
Local Open Scope R_scope.

Local Notation b04 := (7205759403792794 / 18014398509481984).
Lemma well_any : forall f g, 1 <= f 1%Z <= 8 -> 1 <= g 2%Z <= 8 -> well_in_scale [2; 3]%Z se_c [f; g].
Proof.
  intros f g Hf Hg. assert (B : 64 <= bpow radix2 999) by (change 64 with (bpow radix2 6); apply bpow_le; lia).
  assert (A : bpow radix2 (-999) <= / 4) by (change (/ 4) with (bpow radix2 (-2)); apply bpow_le; lia).
  assert (V : Rabs (value d04) = b04) by (rewrite d04_value; apply Rabs_pos_eq; lra).
  assert (N : Rabs (value (nofZ FOps 0 : f64)) = 0) by exact Rabs_R0.
  split.
  - intros t Ht. unfold se_c. destruct (list_eq_dec Z.eq_dec t [1; 2]%Z) as [->|Hn]; [|split; [reflexivity|left; reflexivity]].
    split; [reflexivity|]. right. intros k Hk. rewrite V. simpl in Hk. destruct k as [|[|[|k]]]; [| | |lia]; unfold factors, product; simpl; nra.
  - unfold size_sum. rewrite nested_23. unfold factors, product. cbn [combine map fst snd fold_right].
    change (se_c [1; 2]%Z) with d04. change (se_c [0; 0]%Z) with (nofZ FOps 0 : f64). change (se_c [0; 1]%Z) with (nofZ FOps 0 : f64). change (se_c [0; 2]%Z) with (nofZ FOps 0 : f64).
    change (se_c [1; 0]%Z) with (nofZ FOps 0 : f64). change (se_c [1; 1]%Z) with (nofZ FOps 0 : f64). rewrite V, N. nra.
Qed.

Lemma saved_case : exists bs s s', Forall (chebyshev_doubles pw0) bs /\ sizes (S := DS) bs = [2; 3]%Z /\ fit_sizes (sizes (S := DS) bs) /\
  series_over (S := DS) bs (nofZ FOps 0) (nofZ FOps 1) s /\ series_over (S := DS) bs (nofZ FOps 0) (nofZ FOps 1) s' /\ coefficients (S := DS) s (sizes (S := DS) bs) se_c /\
  coefficients (S := DS) s' (sizes (S := DS) bs) (fun _ => nofZ FOps 0) /\
  Forall (fun x => finite x /\ Rabs (value x) <= 1) se_xs /\ well_in_scale (sizes (S := DS) bs) se_c (chebyshev_sizes 0 se_xs) /\ (forall t, finite (se_c t)).
Proof.
  destruct cheb_case as (bs & s & F & E & Fit & H1 & H2 & Hx). pose proof (cheb_proper pw0 bs F Fit) as P.
  destruct (new_ok (S := DS) bs (nofZ FOps 0) (nofZ FOps 1) P) as (s0 & _ & H3 & H4 & _).
  exists bs, s, s0. split; [exact F|]. split; [exact E|]. split; [exact Fit|]. split; [exact H1|]. split; [exact H3|]. split; [exact H2|]. split; [exact H4|]. split; [exact Hx|]. split.
  - rewrite E. pose proof (cheb_size_bounds KVal) as [A1 A2]. exact (well_any _ _ A1 A2).
  - intros t. unfold se_c. destruct (list_eq_dec Z.eq_dec t [1; 2]%Z); reflexivity.
Qed.
Lemma saved_case_plain : exists s s', series_over (S := DS) se_bs (nofZ FOps 0) (nofZ FOps 1) s /\ series_over (S := DS) se_bs (nofZ FOps 0) (nofZ FOps 1) s' /\
  coefficients (S := DS) s (sizes (S := DS) se_bs) se_c.
Proof.
  destruct se_series as (s & H1 & H2). destruct (new_ok (S := DS) se_bs (nofZ FOps 0) (nofZ FOps 1) se_proper) as (s0 & _ & H3 & _). exists s, s0. auto.
Qed.
Lemma saved_plain_scale : well_in_scale (sizes (S := DS) se_bs) se_c se_Bs.
Proof. apply (well_any (fun _ => 1) (fun _ => 1)); lra. Qed.
