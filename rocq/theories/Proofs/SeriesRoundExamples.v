(** Examples beside C59: 0.4 x y^2 at (0.4, 0.4), in binary64. *)
From Coq Require Import ZArith List Bool Lia ZifyBool Reals Lra String.
From Flocq Require Import Core BinarySingleNaN.
From Coq Require Import List.
From Verif Require Import Model.Outcome Model.Num Model.NumInst Model.PNDArray Model.BasisSet Model.Series.
From Verif Require Import Spec.Tensor Spec.Basis Spec.Series Spec.Rounding Spec.SeriesRounding.
From Verif Require Import Proofs.OutcomeP Proofs.PNDArrayP Proofs.SeriesSumP Proofs.SeriesClientP Proofs.SeriesExamples Proofs.BinFloatP Proofs.RoundP Proofs.FloatShapeP Proofs.FloatExamples.
Import ListNotations.
Local Open Scope Z_scope.

(** 1, x, x * x and their derivatives, in doubles. *)
Definition sq (k : Z) (x : f64) : f64 := match k with 0 => one | 1 => x | _ => nmul FOps x x end.
Definition dsq (k : Z) (x : f64) : f64 := match k with 0 => z0 | 1 => one | _ => nadd FOps x x end.
Definition ddsq (k : Z) (x : f64) : f64 := match k with 0 => z0 | 1 => z0 | _ => f64_make 2 0 end.

Definition sq_set (n : nat) : bset f64 f64 :=
  mkBset "Square" (Some 3) (fun k x => Ok (sq k x)) (fun k x => Ok (dsq k x)) (fun k x => Ok (ddsq k x))
    (repeat (nofZ FOps 0 : f64) n) (repeat (nofZ FOps 0 : f64) n) (repeat (nofZ FOps 0 : f64) n).

Lemma sq_make : forall n, (n <= 3)%nat ->
  bs_make (nofZ FOps 0 : f64) "Square" (Some 3) (fun k x => Ok (sq k x)) (fun k x => Ok (dsq k x)) (fun k x => Ok (ddsq k x)) (Z.of_nat n) = Ok (sq_set n).
Proof.
  intros n Hn. unfold bs_make, bs_resize, mbind, mget. cbn [bs_limit].
  replace (3 <? Z.of_nat n) with false by lia. replace (size_too_big <=? Z.of_nat n) with false by (unfold size_too_big; lia).
  unfold mput, bs_store, vresize, sq_set. cbn [bs_name bs_limit bs_fun bs_dfun bs_ddfun bs_val bs_gval bs_hval].
  rewrite Nat2Z.id, firstn_nil. cbn [List.app List.length]. rewrite Nat.sub_0_r. reflexivity.
Qed.

Definition se_bs : list (bset f64 f64) := [sq_set 2; sq_set 3].
Definition se_phis : list (Z -> f64 -> f64) := [sq; sq].
Definition se_dphis : list (Z -> f64 -> f64) := [dsq; dsq].
Definition se_ddphis : list (Z -> f64 -> f64) := [ddsq; ddsq].

Lemma sq_reachable : forall n, (n <= 3)%nat -> reachable_bset (nofZ FOps 0 : f64) (sq_set n).
Proof. intros n Hn. do 3 eexists. eapply BMake; [intros; reflexivity| |apply sq_make; auto]. lia. Qed.

Lemma se_proper : proper_basis (S := DS) se_bs.
Proof.
  split.
  - repeat constructor; apply sq_reachable; lia.
  - split.
    + apply proper_usable. change (proper_shape [2; 3]). split; [discriminate|]. split; [repeat (apply Forall_cons; [reflexivity|]); apply Forall_nil|].
      discriminate.
    + change (Forall (fun n => n <= int_max) [2; 3]). repeat (apply Forall_cons; [discriminate|]). apply Forall_nil.
Qed.

Lemma se_implements : implements (S := DS) KVal se_bs se_phis /\ implements (S := DS) KGrad se_bs se_dphis /\ implements (S := DS) KHess se_bs se_ddphis.
Proof. repeat split; repeat constructor. Qed.

(** The functions meant. *)
Definition se_Phis : list (Z -> R -> R) := [mono; mono].
Definition se_dPhis : list (Z -> R -> R) := [dmono; dmono].
Definition se_ddPhis : list (Z -> R -> R) := [ddmono; ddmono].
Lemma se_derivatives : derivatives se_Phis se_dPhis /\ derivatives se_dPhis se_ddPhis.
Proof. exact ex_derivatives. Qed.

Definition se_c (t : list Z) : f64 := if list_eq_dec Z.eq_dec t [1; 2] then d04 else nofZ FOps 0.

Lemma se_series : exists s, series_over (S := DS) se_bs (nofZ FOps 0) (nofZ FOps 1) s /\ coefficients (S := DS) s (sizes (S := DS) se_bs) se_c.
Proof.
  destruct (new_ok (S := DS) se_bs (nofZ FOps 0) (nofZ FOps 1) se_proper) as (s0 & _ & H1 & H2 & _).
  destruct (put_ok (S := DS) se_bs _ _ s0 _ [1; 2] d04 se_proper H1 H2) as (s & _ & H3 & H4).
  - change (valid_index [2; 3] [1; 2]). repeat constructor; lia.
  - exists s. split; [exact H3|exact H4].
Qed.

Definition se_xs : list f64 := [d04; d04].
Local Notation b04 := (7205759403792794 / 18014398509481984)%R.

Definition se_Bs : list (Z -> R) := [fun _ => 1%R; fun _ => 1%R].
Definition se_dBs : list (Z -> R) := [fun _ => 2%R; fun _ => 2%R].

Lemma se_modest : modest (sizes (S := DS) se_bs) unit_roundoff.
Proof.
  change (modest [2; 3] unit_roundoff). unfold modest, unit_roundoff. pose proof u_pos. pose proof u_small. split; [lra|]. split; [simpl; lra|unfold int_max; simpl; lia].
Qed.

Lemma sq_near : forall t, 0 <= t < 3 -> finite (sq t d04) /\ (Rabs (mono t (value d04)) <= 1)%R /\ (Rabs (value (sq t d04) - mono t (value d04)) <= unit_roundoff * 1)%R.
Proof.
  intros t Ht. assert (E : t = 0 \/ t = 1 \/ t = 2) by lia. unfold unit_roundoff. pose proof u_pos as U0. pose proof d04_value as V.
  destruct E as [-> | [-> | ->]]; unfold sq, mono.
  - split; [reflexivity|]. change (Z.to_nat 0) with 0%nat. rewrite one_value. simpl. rewrite Rminus_diag_eq, Rabs_R0, Rabs_R1 by reflexivity. lra.
  - split; [reflexivity|]. change (Z.to_nat 1) with 1%nat. rewrite pow_1, Rminus_diag_eq, Rabs_R0 by reflexivity. rewrite V, Rabs_pos_eq by lra. lra.
  - change (Z.to_nat 2) with 2%nat. replace (value d04 ^ 2)%R with (value d04 * value d04)%R by (simpl; ring).
    assert (B : (Rabs (value d04 * value d04) <= / 2)%R) by (rewrite V, Rabs_pos_eq by lra; lra).
    destruct (mul64 d04 d04 0 ltac:(lia) eq_refl eq_refl) as [F E]; [change (bpow radix2 0) with 1%R; unfold value in B; lra|].
    split; [exact F|]. split; [lra|]. change (Rabs (B2R (nmul FOps d04 d04 : f64) - value d04 * value d04) <= u * 1)%R. rewrite E.
    eapply Rle_trans; [apply rne_err|]. pose proof eta_small. unfold value in *. nra.
Qed.

Lemma dsq_near : forall t, 0 <= t < 3 -> finite (dsq t d04) /\ (Rabs (dmono t (value d04)) <= 2)%R /\ (Rabs (value (dsq t d04) - dmono t (value d04)) <= unit_roundoff * 2)%R.
Proof.
  intros t Ht. assert (E : t = 0 \/ t = 1 \/ t = 2) by lia. unfold unit_roundoff. pose proof u_pos as U0. pose proof d04_value as V.
  destruct E as [-> | [-> | ->]]; unfold dsq, dmono.
  - split; [reflexivity|]. change (Z.to_nat 0) with 0%nat. rewrite z0_value. simpl. rewrite Rmult_0_l, Rminus_0_r, Rabs_R0. lra.
  - split; [reflexivity|]. change (Z.to_nat 1) with 1%nat. rewrite one_value. simpl. rewrite Rmult_1_r, Rminus_diag_eq, Rabs_R0, Rabs_R1 by reflexivity. lra.
  - change (Z.to_nat 2) with 2%nat. replace (INR 2 * value d04 ^ Nat.pred 2)%R with (value d04 + value d04)%R by (simpl; ring).
    assert (B : (Rabs (value d04 + value d04) <= 1)%R) by (rewrite V, Rabs_pos_eq by lra; lra).
    destruct (add64 d04 d04 0 ltac:(lia) eq_refl eq_refl) as [F E]; [change (bpow radix2 0) with 1%R; unfold value in B; lra|].
    split; [exact F|]. split; [lra|]. change (Rabs (B2R (nadd FOps d04 d04 : f64) - (value d04 + value d04)) <= u * 2)%R. rewrite E.
    eapply Rle_trans; [apply rne_err|]. pose proof eta_small. unfold value in *. nra.
Qed.

Lemma two_value : value (f64_make 2 0) = 2%R.
Proof. cbv; lra. Qed.

Lemma ddsq_near : forall t, 0 <= t < 3 -> finite (ddsq t d04) /\ (Rabs (ddmono t (value d04)) <= 2)%R /\ (Rabs (value (ddsq t d04) - ddmono t (value d04)) <= unit_roundoff * 2)%R.
Proof.
  intros t Ht. assert (E : t = 0 \/ t = 1 \/ t = 2) by lia. unfold unit_roundoff. pose proof u_pos as U0.
  destruct E as [-> | [-> | ->]]; unfold ddsq, ddmono; (split; [reflexivity|]); rewrite ?z0_value, ?two_value.
  - change (Z.to_nat 0) with 0%nat. simpl. rewrite !Rmult_0_l, Rminus_0_r, Rabs_R0. lra.
  - change (Z.to_nat 1) with 1%nat. simpl. rewrite ?Rmult_0_l, ?Rmult_0_r, Rminus_0_r, Rabs_R0. lra.
  - change (Z.to_nat 2) with 2%nat. simpl. match goal with |- (Rabs ?x <= _)%R /\ _ => replace x with 2%R by ring end.
    rewrite Rminus_diag_eq, Rabs_R0, Rabs_pos_eq by lra. lra.
Qed.

Lemma close2 : forall (f : Z -> f64 -> f64) (F : Z -> R -> R) b, (forall t, 0 <= t < 3 -> finite (f t d04) /\ (Rabs (F t (value d04)) <= b)%R /\
    (Rabs (value (f t d04) - F t (value d04)) <= unit_roundoff * b)%R) ->
  close_to (sizes (S := DS) se_bs) unit_roundoff (at_point [f; f] se_xs) (at_point [F; F] (map value se_xs)) [fun _ => b; fun _ => b].
Proof.
  intros f F b H. change (close_to [2; 3] unit_roundoff (at_point [f; f] se_xs) (at_point [F; F] (map value se_xs)) [fun _ => b; fun _ => b]).
  split; [reflexivity|]. split; [reflexivity|]. split; [reflexivity|].
  intros [|[|j]] n g G B t En Eg EG EB Ht; [| |destruct j; discriminate]; injection En as <-; injection Eg as <-; injection EG as <-; injection EB as <-; apply H; lia.
Qed.

Lemma se_close : close_to (sizes (S := DS) se_bs) unit_roundoff (at_point se_phis se_xs) (at_point se_Phis (map value se_xs)) se_Bs.
Proof. exact (close2 sq mono 1 sq_near). Qed.
Lemma se_dclose : close_to (sizes (S := DS) se_bs) unit_roundoff (at_point se_dphis se_xs) (at_point se_dPhis (map value se_xs)) se_dBs.
Proof. exact (close2 dsq dmono 2 dsq_near). Qed.
Lemma se_ddclose : close_to (sizes (S := DS) se_bs) unit_roundoff (at_point se_ddphis se_xs) (at_point se_ddPhis (map value se_xs)) se_dBs.
Proof. exact (close2 ddsq ddmono 2 ddsq_near). Qed.

Lemma nested_23 : forall F, nested_sum [2; 3] F =
  ((F [0; 0]%Z + (F [0; 1]%Z + (F [0; 2]%Z + 0))) + ((F [1; 0]%Z + (F [1; 1]%Z + (F [1; 2]%Z + 0))) + 0))%R.
Proof. reflexivity. Qed.

Lemma scale2 : forall a b, (1 <= a <= 2)%R -> (1 <= b <= 2)%R -> in_scale (sizes (S := DS) se_bs) se_c [fun _ => a; fun _ => b].
Proof.
  intros a b Ha Hb. change (in_scale [2; 3] se_c [fun _ => a; fun _ => b]).
  assert (B : (8 <= bpow radix2 1000)%R) by (change 8%R with (bpow radix2 3); apply bpow_le; lia).
  assert (A : (bpow radix2 (-1000) <= / 4)%R) by (change (/ 4)%R with (bpow radix2 (-2)); apply bpow_le; lia).
  assert (V : Rabs (value d04) = b04) by (rewrite d04_value; apply Rabs_pos_eq; lra).
  assert (N : Rabs (value (nofZ FOps 0 : f64)) = 0%R) by exact Rabs_R0.
  split.
  - intros t Ht. unfold se_c. destruct (list_eq_dec Z.eq_dec t [1; 2]) as [->|Hn]; [|split; [reflexivity|left; reflexivity]].
    split; [reflexivity|]. right. intros k Hk. rewrite V. simpl in Hk. destruct k as [|[|[|k]]]; [| | |lia]; unfold factors, product; simpl; nra.
  - unfold size_sum. rewrite nested_23. unfold factors, product. cbn [combine map fst snd fold_right].
    change (se_c [1; 2]) with d04. change (se_c [0; 0]) with (nofZ FOps 0 : f64). change (se_c [0; 1]) with (nofZ FOps 0 : f64). change (se_c [0; 2]) with (nofZ FOps 0 : f64).
    change (se_c [1; 0]) with (nofZ FOps 0 : f64). change (se_c [1; 1]) with (nofZ FOps 0 : f64). rewrite V, N. nra.
Qed.

Lemma se_scale : in_scale (sizes (S := DS) se_bs) se_c se_Bs.
Proof. apply scale2; lra. Qed.
Lemma se_scale_grad : forall i, 0 <= i < 2 -> in_scale (sizes (S := DS) se_bs) se_c (by1 se_Bs se_dBs i).
Proof. intros i Hi. assert (E : i = 0 \/ i = 1) by lia. destruct E as [->| ->]; [exact (scale2 2 1 ltac:(lra) ltac:(lra))|exact (scale2 1 2 ltac:(lra) ltac:(lra))]. Qed.
Lemma se_scale_hess : forall i j, 0 <= i < 2 -> 0 <= j < 2 -> in_scale (sizes (S := DS) se_bs) se_c (by2 se_Bs se_dBs se_dBs i j).
Proof.
  intros i j Hi Hj. assert (E : i = 0 \/ i = 1) by lia. assert (E' : j = 0 \/ j = 1) by lia.
  destruct E as [->| ->], E' as [->| ->]; [exact (scale2 2 1 ltac:(lra) ltac:(lra))|exact (scale2 2 2 ltac:(lra) ltac:(lra))|exact (scale2 2 2 ltac:(lra) ltac:(lra))|exact (scale2 1 2 ltac:(lra) ltac:(lra))].
Qed.
