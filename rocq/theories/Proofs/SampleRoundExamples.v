(** The sample basis sets in doubles: the statements, and a point where the digits are lost. *)
From Coq Require Import ZArith List Bool String Reals Lra Lia Psatz SpecFloat.
From Coquelicot Require Import Coquelicot.
From Flocq Require Import Core.Raux Core.Zaux Core.Defs Core.Float_prop IEEE754.BinarySingleNaN.
From Coq Require Import List.
From Verif Require Import Model.Outcome Model.Num Model.NumInst Model.BasisSet Model.Series Model.CExpr Model.Samples.
From Verif Require Import Spec.Tensor Spec.Basis Spec.Series Spec.Poly Spec.Rounding Spec.SeriesRounding Spec.PolyRounding.
From Verif Require Import Proofs.OutcomeP Proofs.BasisP Proofs.RoundP Proofs.SumRoundP Proofs.PolyP Proofs.SampleSetsP Proofs.PolyRoundP Proofs.SampleRoundP Proofs.SeriesRoundP.
Import ListNotations.
Local Open Scope R_scope.

Lemma within_weaken : forall b f g X rel abs rel' abs', offers_within b f g X rel abs -> rel = rel' -> abs <= abs' -> offers_within b f g X rel' abs'.
Proof.
  intros b f g X rel abs rel' abs' H <- Ha t x Ht Fx Bx F G. destruct (H t x Ht Fx Bx) as ((y & E1 & E2 & E3) & (y' & d' & e' & F1 & F2 & F3 & F4 & F5) & (y2 & d2 & e2 & G1 & G2 & G3 & G4 & G5)).
  split; [|split].
  - exists y. split; [exact E1|]. split; [exact E2|]. eapply Rle_trans; [exact E3|]. unfold F, G. lra.
  - exists y', d', e'. split; [exact F1|]. split; [exact F2|]. split; [exact F3|]. split; [exact F4|]. lra.
  - exists y2, d2, e2. split; [exact G1|]. split; [exact G2|]. split; [exact G3|]. split; [exact G4|]. lra.
Qed.

Lemma scaled_tiny : forall k e, (0 <= k)%Z -> (k - 1075 <= e)%Z -> IZR (2 ^ k) * tiny <= bpow radix2 e.
Proof.
  intros k e Hk He. change (IZR (2 ^ k)) with (IZR (Zpower radix2 k)). rewrite (IZR_Zpower radix2 k Hk). unfold tiny. rewrite <- bpow_plus. apply bpow_le. lia.
Qed.

Lemma chebyshev64 : forall pw (d : f64) N (b0 b : bset f64 f64), (0 <= N)%Z -> chebyshev_set FOps pw d N = Ok b0 -> later d b0 b ->
  (0 <= bs_size b <= 30)%Z /\ offers_within b chebyshev growth 1 (41 * unit_roundoff) (bpow radix2 (-980)).
Proof.
  intros pw d N b0 b HN Hm Hl.
  destruct (set_offers_within _ _ tcoefs gcoefs 1 40 (2 ^ 88) ltac:(lia) ltac:(lia) chebyshev_within pw d _ N b0 b chebyshev growth tcoefs_ok gcoefs_ok HN Hm Hl) as [Hs H].
  split; [exact Hs|]. eapply within_weaken; [exact H|simpl; lra|apply scaled_tiny; lia].
Qed.

Lemma monomial64 : forall pw (d : f64) N (b0 b : bset f64 f64), (0 <= N)%Z -> monomial_set FOps pw d N = Ok b0 -> later d b0 b ->
  (0 <= bs_size b <= 30)%Z /\
  offers_within b (fun n x => x ^ n) (fun n x => x ^ n) 1 (29 * unit_roundoff) (bpow radix2 (-1028)) /\
  offers_within b (fun n x => x ^ n) (fun n x => x ^ n) 1024 (29 * unit_roundoff) (bpow radix2 (-791)).
Proof.
  intros pw d N b0 b HN Hm Hl.
  destruct (set_offers_within _ _ xcoefs xcoefs 1 28 (2 ^ 47) ltac:(lia) ltac:(lia) monomial_within1 pw d _ N b0 b _ _ xcoefs_ok xcoefs_ok HN Hm Hl) as [Hs H].
  destruct (set_offers_within _ _ xcoefs xcoefs 1024 28 (2 ^ 284) ltac:(lia) ltac:(lia) monomial_within2 pw d _ N b0 b _ _ xcoefs_ok xcoefs_ok HN Hm Hl) as [_ H'].
  split; [exact Hs|]. split.
  - eapply within_weaken; [exact H|simpl; lra|apply scaled_tiny; lia].
  - eapply within_weaken; [exact H'|simpl; lra|apply scaled_tiny; lia].
Qed.

(** How large the bound is. *)
Lemma growth_mono2 : forall n x, 0 <= x <= 1 -> 0 <= growth n x <= growth n 1 /\ 0 <= growth (S n) x <= growth (S n) 1.
Proof.
  induction n as [|n IH]; intros x Hx; [simpl; lra|]. destruct (IH x Hx) as [H1 H2]. split; [exact H2|].
  change (growth (S (S n)) x) with (2 * x * growth (S n) x + growth n x). change (growth (S (S n)) 1) with (2 * 1 * growth (S n) 1 + growth n 1). nra.
Qed.
Lemma growth_mono : forall n x, 0 <= x <= 1 -> 0 <= growth n x <= growth n 1.
Proof. intros n x Hx. apply (growth_mono2 n x Hx). Qed.
Fixpoint gz2 (n : nat) : Z * Z := match n with 0%nat => (1, 1)%Z | S m => let (a, b) := gz2 m in (b, (2 * b + a)%Z) end.
Lemma gz2_ok : forall n, growth n 1 = IZR (fst (gz2 n)) /\ growth (S n) 1 = IZR (snd (gz2 n)).
Proof.
  induction n as [|n IH]; [simpl; lra|]. cbn [gz2]. destruct (gz2 n) as [a b]. cbn [fst snd] in *. destruct IH as [H1 H2]. split; [exact H2|].
  change (growth (S (S n)) 1) with (2 * 1 * growth (S n) 1 + growth n 1). rewrite H1, H2, plus_IZR, mult_IZR. lra.
Qed.
Lemma growth_below : forall n x, (n < 30)%nat -> 0 <= x <= 1 -> growth n x <= 63018038201.
Proof.
  intros n x Hn Hx. eapply Rle_trans; [apply (growth_mono n x Hx)|]. rewrite (proj1 (gz2_ok n)). apply IZR_le.
  assert (C : forallb (fun n => Z.leb (fst (gz2 n)) 63018038201) (seq 0 30) = true) by (vm_compute; reflexivity).
  rewrite forallb_forall in C. apply Z.leb_le. apply C. apply in_seq. lia.
Qed.

Lemma chebyshev64_absolute : forall pw (d : f64) N (b0 b : bset f64 f64) t (x : f64), (0 <= N)%Z -> chebyshev_set FOps pw d N = Ok b0 -> later d b0 b ->
  (0 <= t < bs_size b)%Z -> finite x -> Rabs (value x) <= 1 ->
  exists y, res_outcome (bs_call t x b) = Ok y /\ finite y /\ Rabs (value y - chebyshev (Z.to_nat t) (value x)) <= 3 / 10000.
Proof.
  intros pw d N b0 b t x HN Hm Hl Ht Fx Bx. destruct (chebyshev64 pw d N b0 b HN Hm Hl) as [Hs H]. destruct (H t x Ht Fx Bx) as [(y & E1 & E2 & E3) _].
  exists y. split; [exact E1|]. split; [exact E2|]. eapply Rle_trans; [exact E3|].
  pose proof (growth_below (Z.to_nat t) (Rabs (value x)) ltac:(lia) (conj (Rabs_pos _) Bx)) as G. pose proof (growth_mono (Z.to_nat t) (Rabs (value x)) (conj (Rabs_pos _) Bx)) as [G0 _].
  assert (U : unit_roundoff = / 9007199254740992) by (unfold unit_roundoff; simpl; reflexivity). 
  assert (T : bpow radix2 (-980) <= / 1000000000000).
  { apply Rle_trans with (bpow radix2 (-40)); [apply bpow_le; lia|]. simpl. lra. }
  rewrite U. nra.
Qed.

(** A point where T_29 loses more than half of its digits. *)
Fixpoint scaled2 (m q : Z) (n : nat) : Z * Z := match n with 0%nat => (1, m)%Z | S k => let (a, b) := scaled2 m q k in (b, (2 * m * b - q * q * a)%Z) end.
Lemma scaled2_ok : forall m q n, (0 < q)%Z -> IZR (fst (scaled2 m q n)) = IZR q ^ n * chebyshev n (IZR m / IZR q) /\
  IZR (snd (scaled2 m q n)) = IZR q ^ S n * chebyshev (S n) (IZR m / IZR q).
Proof.
  intros m q n Hq. apply IZR_lt in Hq. induction n as [|n IH].
  - simpl. split; [ring|field; lra].
  - cbn [scaled2]. destruct (scaled2 m q n) as [a b]. cbn [fst snd] in *. destruct IH as [H1 H2]. split; [exact H2|].
    change (chebyshev (S (S n)) (IZR m / IZR q)) with (2 * (IZR m / IZR q) * chebyshev (S n) (IZR m / IZR q) - chebyshev n (IZR m / IZR q)).
    rewrite minus_IZR, !mult_IZR, H1, H2. cbn [pow]. field. lra.
Qed.

Definition bad_x : f64 := f64_make 8992995278679201 (-53).
Lemma bad_x_value : finite bad_x /\ value bad_x = IZR 8992995278679201 / IZR (2 ^ 53).
Proof.
  split; [vm_compute; reflexivity|]. unfold value. rewrite <- SF2R_B2SF. replace (B2SF bad_x) with (S754_finite false 8992995278679201 (-53)) by (vm_compute; reflexivity).
  unfold SF2R, F2R. cbn [Fnum Fexp cond_Zopp]. change (bpow radix2 (-53)) with (/ IZR (2 ^ 53)). reflexivity.
Qed.

Lemma digits_lost : exists (x y : f64) b b', chebyshev_set FOps (fun a _ => a) (nofZ FOps 0) 30 = Ok b /\ finite x /\ Rabs (value x) <= 1 /\
  bs_call 29 x b = RRet b' y /\ Rabs (value y - chebyshev 29 (value x)) > 1 / 100000.
Proof.
  pose proof (make_size chebyshev_classes chebyshev_cases FOps (fun a _ => a) (nofZ FOps 0) "Chebyshev"%string 30 ltac:(lia)) as A. cbn [Z.leb Z.compare] in A.
  destruct A as (b & A & Sb & _). 
  destruct (later_history _ _ FOps _ _ _ 30 b b ltac:(lia) A (LaterNow _ b)) as (_ & n & m & Hh & _). destruct (stored_is_last _ _ _ _ _ Hh) as (Hs & _).
  assert (n = 30%Z) by (transitivity (bs_size b); [symmetry; exact Hs|exact Sb]). subst n.
  pose proof (single_returns _ _ _ _ _ KVal 29%Z bad_x Hh ltac:(lia)) as R.
  assert (C : match family_of chebyshev_classes chebyshev_cases FOps (fun a _ => a) KVal 29%Z bad_x with Ok y => B2SF y = S754_finite true 8363160318771200 (-57) | _ => False end)
    by (vm_compute; reflexivity).
  destruct (family_of chebyshev_classes chebyshev_cases FOps (fun a _ => a) KVal 29%Z bad_x) as [y| | | |]; try contradiction.
  destruct bad_x_value as [Fx Ex].
  change (bevaluate KVal 29%Z bad_x b) with (bs_call 29 bad_x b) in R. destruct (bs_call 29 bad_x b) as [b' y'| | | |] eqn:EC; try discriminate. injection R as ->.
  exists bad_x, y, b, b'. split; [exact A|]. split; [exact Fx|]. rewrite Ex. split; [rewrite Rabs_pos_eq; [|apply Rmult_le_pos; [apply IZR_le; lia|apply Rlt_le, Rinv_0_lt_compat, IZR_lt; lia]]; 
    apply Rmult_le_reg_r with (IZR (2 ^ 53)); [apply IZR_lt; lia|]; unfold Rdiv; rewrite Rmult_assoc, Rinv_l, Rmult_1_r, Rmult_1_l by (apply not_0_IZR; lia); apply IZR_le; lia|].
  split; [exact EC|].
  assert (Ey : value y = IZR (-8363160318771200) / IZR (2 ^ 57)).
  { unfold value. rewrite <- SF2R_B2SF. match goal with |- context [B2SF ?z] => change (B2SF z) with (B2SF y) end. rewrite C. unfold SF2R, F2R. cbn [Fnum Fexp cond_Zopp]. change (bpow radix2 (-57)) with (/ IZR (2 ^ 57)). reflexivity. }
  rewrite Ey. pose proof (proj1 (scaled2_ok 8992995278679201 (2 ^ 53) 29 ltac:(lia))) as T.
  set (X := chebyshev 29 (IZR 8992995278679201 / IZR (2 ^ 53))) in *. 
  assert (L : 0 < IZR (2 ^ 53) ^ 29) by (apply pow_lt, IZR_lt; lia).
  assert (B : X > IZR (-8363160318771200) / IZR (2 ^ 57) + 1 / 100000).
  { apply Rmult_lt_reg_l with (IZR (2 ^ 53) ^ 29); [exact L|]. rewrite <- T.
    replace (IZR (2 ^ 53) ^ 29 * (IZR (-8363160318771200) / IZR (2 ^ 57) + 1 / 100000)) with (IZR (2 ^ 53) ^ 29 * (IZR (-8363160318771200) * 100000 + IZR (2 ^ 57)) / (100000 * IZR (2 ^ 57))) by (field; apply not_0_IZR; lia).
    apply Rmult_lt_reg_r with (100000 * IZR (2 ^ 57)); [apply Rmult_lt_0_compat; [lra|apply IZR_lt; lia]|].
    unfold Rdiv. rewrite Rmult_assoc, Rinv_l, Rmult_1_r by (apply Rmult_integral_contrapositive_currified; [lra|apply not_0_IZR; lia]).
    rewrite pow_IZR, <- !mult_IZR, <- plus_IZR, <- !mult_IZR. apply IZR_lt. apply Z.ltb_lt. vm_compute. reflexivity. }
  rewrite Rabs_left; lra.
Qed.

(** Runs beside the theorems. *)
Lemma made64 : (exists b : bset f64 f64, chebyshev_set FOps (fun a _ => a) (nofZ FOps 0) 30 = Ok b /\ later (nofZ FOps 0 : f64) b b /\ bs_size b = 30%Z) /\
  (exists b : bset f64 f64, monomial_set FOps (fun a _ => a) (nofZ FOps 0) 30 = Ok b /\ later (nofZ FOps 0 : f64) b b /\ bs_size b = 30%Z) /\
  finite bad_x /\ Rabs (value bad_x) <= 1.
Proof.
  pose proof (make_size chebyshev_classes chebyshev_cases FOps (fun a _ => a) (nofZ FOps 0) "Chebyshev"%string 30 ltac:(lia)) as A.
  pose proof (make_size monomial_classes monomial_cases FOps (fun a _ => a) (nofZ FOps 0) "Monomial"%string 30 ltac:(lia)) as B. cbn [Z.leb Z.compare] in A, B.
  destruct A as (a & A & Sa & _), B as (b & B & Sb & _).
  split; [exists a; split; [exact A|]; split; [apply LaterNow|exact Sa]|]. split; [exists b; split; [exact B|]; split; [apply LaterNow|exact Sb]|].
  destruct bad_x_value as [F E]. split; [exact F|]. rewrite E.
  rewrite Rabs_pos_eq; [|apply Rmult_le_pos; [apply IZR_le; lia|apply Rlt_le, Rinv_0_lt_compat, IZR_lt; lia]].
  apply Rmult_le_reg_r with (IZR (2 ^ 53)); [apply IZR_lt; lia|]. unfold Rdiv. rewrite Rmult_assoc, Rinv_l, Rmult_1_r, Rmult_1_l by (apply not_0_IZR; lia). apply IZR_le; lia.
Qed.
Lemma growth_power : forall n x, 0 <= x <= 1 -> growth n x <= (1 + sqrt 2) ^ n.
Proof.
  intros n x Hx. pose proof (sqrt_lt_R0 2 ltac:(lra)) as S0. pose proof (sqrt_sqrt 2 ltac:(lra)) as SS.
  assert (H : growth n x <= (1 + sqrt 2) ^ n /\ growth (S n) x <= (1 + sqrt 2) ^ S n).
  { induction n as [|n [H1 H2]]; [simpl; lra|]. split; [exact H2|].
    change (growth (S (S n)) x) with (2 * x * growth (S n) x + growth n x). pose proof (growth_mono (S n) x Hx) as [G _].
    replace ((1 + sqrt 2) ^ S (S n)) with (2 * (1 + sqrt 2) ^ S n + (1 + sqrt 2) ^ n).
    - nra.
    - cbn [pow]. replace ((1 + sqrt 2) * ((1 + sqrt 2) * (1 + sqrt 2) ^ n)) with ((1 + 2 * sqrt 2 + sqrt 2 * sqrt 2) * (1 + sqrt 2) ^ n) by ring. rewrite SS. ring. }
  apply H.
Qed.
