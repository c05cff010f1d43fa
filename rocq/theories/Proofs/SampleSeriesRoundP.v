(** Series of Chebyshev polynomials in doubles: C60. *)
From Coq Require Import ZArith List Bool String Reals Lra Lia Psatz.
From Coquelicot Require Import Coquelicot.
From Flocq Require Import Core.Raux Core.Zaux Core.Defs IEEE754.BinarySingleNaN.
From Coq Require Import List.
From Verif Require Import Model.Outcome Model.Num Model.NumInst Model.BasisSet Model.Series Model.CExpr Model.Samples.
From Verif Require Import Spec.Tensor Spec.Basis Spec.Series Spec.Poly Spec.Rounding Spec.SeriesRounding Spec.PolyRounding.
From Verif Require Import Proofs.OutcomeP Proofs.BasisP Proofs.RoundP Proofs.SumRoundP Proofs.PolyP Proofs.SampleSetsP Proofs.PolyRoundP Proofs.SampleRoundP Proofs.SeriesRoundP.
Import ListNotations.
Local Open Scope R_scope.

(** The texts can be evaluated at any doubles. *)
Lemma analyse_total : forall pw X (x : f64) e r, analyse X e = Some r -> exists y, ceval FOps pw [x : num FOps] e = Ok y.
Proof.
  intros pw X x. induction e as [c ex|j|e IH|e1 IH1 e2 IH2|e1 IH1 e2 IH2|e1 IH1 e2 IH2|e1 _ e2 _|e1 _ e2 _|e1 _ n]; intros r H; cbn [analyse] in H; try discriminate.
  - eexists. reflexivity.
  - destruct (Z.eqb_spec j 0) as [->|]; [|discriminate]. eexists. reflexivity.
  - destruct (IH _ H) as (y & E). cbn [ceval]. rewrite E. eexists. reflexivity.
  - destruct (analyse X e1) as [[[k1 m1] s1]|]; [|discriminate]. destruct (analyse X e2) as [[[k2 m2] s2]|]; [|discriminate].
    destruct (IH1 _ eq_refl) as (y1 & E1). destruct (IH2 _ eq_refl) as (y2 & E2). cbn [ceval]. rewrite E1, E2. eexists. reflexivity.
  - destruct (analyse X e1) as [[[k1 m1] s1]|]; [|discriminate]. destruct (analyse X e2) as [[[k2 m2] s2]|]; [|discriminate].
    destruct (IH1 _ eq_refl) as (y1 & E1). destruct (IH2 _ eq_refl) as (y2 & E2). cbn [ceval]. rewrite E1, E2. eexists. reflexivity.
  - destruct (analyse X e1) as [[[k1 m1] s1]|]; [|discriminate]. destruct (analyse X e2) as [[[k2 m2] s2]|]; [|discriminate].
    destruct (IH1 _ eq_refl) as (y1 & E1). destruct (IH2 _ eq_refl) as (y2 & E2). cbn [ceval]. rewrite E1, E2. eexists. reflexivity.
Qed.

Section Chebyshev.
Variable pw : f64 -> f64 -> f64.
Local Notation fam := (family_of chebyshev_classes chebyshev_cases FOps pw).

Definition phi64 (k : kind) (t : Z) (x : f64) : f64 := match fam k t x with Ok y => y | _ => nofZ FOps 0 end.
Definition phiR (k : kind) (t : Z) (x : R) : R :=
  match k with KVal => chebyshev (Z.to_nat t) x | _ => peval (polyk k (tcoefs (Z.to_nat t))) x end.
Definition order (k : kind) : nat := match k with KVal => 0 | KGrad => 1 | KHess => 2 end.
Definition sizeR (k : kind) (t : Z) (x : R) : R := Derive_n (growth (Z.to_nat t)) (order k) x.
Lemma phiR_ok : forall k t x, phiR k t x = peval (polyk k (tcoefs (Z.to_nat t))) x.
Proof. intros [] t x; [symmetry; apply tcoefs_ok|reflexivity|reflexivity]. Qed.
Lemma sizeR_ok : forall k t x, sizeR k t x = peval (polyk k (gcoefs (Z.to_nat t))) x.
Proof.
  intros k t x. unfold sizeR. transitivity (Derive_n (peval (gcoefs (Z.to_nat t))) (order k) x); [apply Derive_n_ext; intros; symmetry; apply gcoefs_ok|].
  destruct k; cbn [order polyk].
  - reflexivity.
  - cbn [Derive_n]. apply is_derive_unique, pderiv_ok.
  - apply is_derive_n_unique, second_derivative.
Qed.

Lemma phi64_ok : forall k t x, (0 <= t < 30)%Z -> fam k t x = Ok (phi64 k t x).
Proof.
  intros k t x Ht. unfold phi64. destruct (term_code _ _ tcoefs gcoefs 1 40 (2 ^ 88) ltac:(lia) chebyshev_within k t Ht) as (c & Ec & n & m & s & An & _).
  destruct (analyse_total pw 1 x c _ An) as (y & Ey).
  assert (E : fam k t x = Ok y) by (unfold family_of; destruct k; cbn [terms_of]; rewrite Ec; exact Ey). rewrite E. reflexivity.
Qed.

Lemma set_facts : forall b, chebyshev_doubles pw b -> (0 <= bs_size b <= 30)%Z /\ reachable_bset (nofZ FOps 0 : f64) b /\
  forall k t x, (0 <= t < bs_size b)%Z -> terms_of (bs_fun b) (bs_dfun b) (bs_ddfun b) k t x = Ok (phi64 k t x).
Proof.
  intros b (N & b0 & HN & Hm & Hl). destruct (later_history _ _ FOps pw _ _ N b0 b HN Hm Hl) as (_ & n & m & Hh & H30).
  destruct (stored_is_last _ _ _ _ _ Hh) as (Hs & _). pose proof (history_agrees_basis _ _ _ _ _ Hh) as (Hn & Hf & _). change (num FOps) with f64 in *.
  split; [rewrite Hs; split; [apply Hn|exact H30]|]. split; [exists fam, n, m; exact Hh|].
  intros k t x Ht. rewrite Hs in Ht. rewrite <- (phi64_ok k t x) by lia. rewrite <- Hf. destruct k; reflexivity.
Qed.

Lemma sets_facts : forall bs : list (bset f64 f64), Forall (chebyshev_doubles pw) bs ->
  Forall (reachable_bset (nofZ FOps 0 : f64)) bs /\ Forall (fun n => 0 <= n <= 30)%Z (sizes (S := DS) bs) /\
  forall k, implements (S := DS) k bs (map (fun _ => phi64 k) bs).
Proof.
  intros bs H. induction H as [|b bs Hb H (IH1 & IH2 & IH3)].
  - split; [constructor|]. split; [constructor|]. intros k. constructor.
  - destruct (set_facts b Hb) as (A & B & C). split; [constructor; assumption|]. split; [constructor; assumption|]. intros k. constructor; [exact (C k)|exact (IH3 k)].
Qed.

Definition families (k : kind) (bs : list (bset f64 f64)) : list (Z -> R -> R) := map (fun _ => phiR k) bs.
Definition term_sizes (k : kind) (xs : list f64) : list (Z -> R) := map (fun x t => 1 + sizeR k t (Rabs (value x))) xs.

Lemma chebyshev_close : forall k (bs : list (bset f64 f64)) (xs : list f64), List.length xs = List.length bs ->
  Forall (fun n => 0 <= n <= 30)%Z (sizes (S := DS) bs) -> Forall (fun x => finite x /\ Rabs (value x) <= 1) xs ->
  close_to (sizes (S := DS) bs) (41 * unit_roundoff) (at_point (map (fun _ => phi64 k) bs) xs) (at_point (families k bs) (map value xs)) (term_sizes k xs).
Proof.
  intros k bs xs HL Hn Hx. unfold close_to, at_point, families, term_sizes, sizes. rewrite !map_length, !combine_length, !map_length.
  split; [apply Nat.min_l, Nat.eq_le_incl; symmetry; exact HL|]. split; [apply Nat.min_l, Nat.eq_le_incl; symmetry; exact HL|]. split; [exact HL|].
  intros j n f F B t Ej Ef EF EB Ht.
  revert bs HL Hn j Ej Ef EF EB. induction Hx as [|x xs [Fx Bx] Hx IH]; intros [|b bs] HL Hn [|j] Ej Ef EF EB; try discriminate; cbn in HL.
  - cbn in Ej, Ef, EF, EB. injection Ej as <-. injection Ef as <-. injection EF as <-. injection EB as <-. cbn [fst snd].
    inversion Hn as [|? ? Hb _]; subst.
    destruct (term_within_ok _ _ tcoefs gcoefs 1 40 (2 ^ 88) ltac:(lia) ltac:(lia) chebyshev_within pw k t x ltac:(lia) Fx Bx) as (y & Ey & Fy & By & E).
    assert (EE : phi64 k t x = y) by (unfold phi64; rewrite Ey; reflexivity). rewrite EE. rewrite <- phiR_ok in By, E. rewrite <- sizeR_ok in By, E.
    assert (S0 : 0 <= sizeR k t (Rabs (value x))) by (pose proof (Rabs_pos (phiR k t (value x))); lra).
    split; [exact Fy|]. split; [lra|]. eapply Rle_trans; [exact E|].
    assert (T : IZR (2 ^ 88) * tiny <= 41 * unit_roundoff).
    { change (IZR (2 ^ 88)) with (bpow radix2 88). unfold tiny, unit_roundoff. rewrite <- bpow_plus. apply Rle_trans with (bpow radix2 (-53)); [apply bpow_le; lia|].
      pose proof (bpow_gt_0 radix2 (-53)). lra. }
    replace (INR 40 + 1) with 41 by (simpl; lra). lra.
  - inversion Hn as [|? ? _ Hn']; subst. injection HL as HL. exact (IH bs HL Hn' j Ej Ef EF EB).
Qed.

Lemma families_derivatives : forall (bs : list (bset f64 f64)), derivatives (families KVal bs) (families KGrad bs) /\ derivatives (families KGrad bs) (families KHess bs).
Proof.
  induction bs as [|b bs [A B]]; [split; constructor|]. split; (constructor; [|assumption]); intros t x.
  - apply (is_derive_ext (peval (tcoefs (Z.to_nat t)))); [intros; apply tcoefs_ok|]. apply pderiv_ok.
  - apply pderiv_ok.
Qed.

Lemma many_modest : forall (bs : list (bset f64 f64)), (Z.of_nat (List.length bs) <= int_max)%Z -> modest (sizes (S := DS) bs) (41 * unit_roundoff).
Proof.
  intros bs H. unfold modest, sizes. rewrite map_length. pose proof u_pos as U. change (bpow radix2 (-53)) with unit_roundoff in U. split; [lra|]. split; [|exact H].
  apply Rle_trans with (bpow radix2 31 * (bpow radix2 6 * unit_roundoff)).
  - apply Rmult_le_compat; [apply pos_INR|lra| |apply Rmult_le_compat_r; [lra|simpl; lra]].
    rewrite INR_IZR_INZ. change (bpow radix2 31) with (IZR (2 ^ 31)). apply IZR_le. apply Z.le_trans with int_max; [exact H|unfold int_max; lia].
  - unfold unit_roundoff. rewrite <- !bpow_plus. apply Rle_trans with (bpow radix2 (-2)); [apply bpow_le; lia|simpl; lra].
Qed.

Section Series_.
Variables (bs : list (bset f64 f64)) (one : f64) (s : series DS) (c : list Z -> f64) (xs : list f64).
Hypothesis Hb : Forall (chebyshev_doubles pw) bs.
Hypothesis Hfit : fit_sizes (sizes (S := DS) bs).
Hypothesis Hs : series_over (S := DS) bs (nofZ FOps 0) one s.
Hypothesis Hc : coefficients (S := DS) s (sizes (S := DS) bs) c.
Hypothesis HL : List.length xs = List.length bs.
Hypothesis Hn : (Z.of_nat (List.length bs) <= int_max)%Z.
Hypothesis Hx : Forall (fun x => finite x /\ Rabs (value x) <= 1) xs.

Lemma cheb_proper : proper_basis (S := DS) bs.
Proof. split; [exact (proj1 (sets_facts bs Hb))|exact Hfit]. Qed.
Lemma cheb_close : forall k, close_to (sizes (S := DS) bs) (41 * unit_roundoff) (at_point (map (fun _ => phi64 k) bs) xs) (at_point (families k bs) (map value xs)) (term_sizes k xs).
Proof. intros k. apply chebyshev_close; [exact HL|exact (proj1 (proj2 (sets_facts bs Hb)))|exact Hx]. Qed.

Lemma cheb_value : in_scale (sizes (S := DS) bs) c (chebyshev_sizes 0 xs) ->
  exists s' a, se_call (S := DS) xs s = RRet s' a /\ se_get s' = Ok a /\ finite a /\
    Rabs (value a - series_fun (sizes (S := DS) bs) (fun t => value (c t)) (chebyshev_families bs) (map value xs)) <=
      series_error (sizes (S := DS) bs) (41 * unit_roundoff) * size_sum (sizes (S := DS) bs) c (chebyshev_sizes 0 xs).
Proof.
  exact (value_error59 bs one s c cheb_proper Hs Hc _ (chebyshev_families bs) _ _ xs (proj2 (proj2 (sets_facts bs Hb)) KVal) HL (many_modest bs Hn) (cheb_close KVal)).
Qed.
Lemma cheb_gradient : forall i, (0 <= i < Z.of_nat (List.length bs))%Z -> in_scale (sizes (S := DS) bs) c (by1 (chebyshev_sizes 0 xs) (chebyshev_sizes 1 xs) i) ->
  exists s' a g, se_eval_grad (S := DS) xs s = RRet s' tt /\ se_get_grad s' i = Ok a /\ finite a /\
    partial (series_fun (sizes (S := DS) bs) (fun t => value (c t)) (chebyshev_families bs)) i (map value xs) g /\
    Rabs (value a - g) <= series_error (sizes (S := DS) bs) (41 * unit_roundoff) * size_sum (sizes (S := DS) bs) c (by1 (chebyshev_sizes 0 xs) (chebyshev_sizes 1 xs) i).
Proof.
  intros i Hi Hsc. refine (gradient_error59 bs one s c cheb_proper Hs Hc _ _ (chebyshev_families bs) _ _ _ _ xs i (proj2 (proj2 (sets_facts bs Hb)) KVal)
    (proj2 (proj2 (sets_facts bs Hb)) KGrad) HL (proj1 (families_derivatives bs)) _ (many_modest bs Hn) (cheb_close KVal) (cheb_close KGrad) Hi Hsc).
  unfold chebyshev_families. apply map_length.
Qed.
Lemma cheb_hessian : forall i j, (0 <= i < Z.of_nat (List.length bs))%Z -> (0 <= j < Z.of_nat (List.length bs))%Z ->
  in_scale (sizes (S := DS) bs) c (by2 (chebyshev_sizes 0 xs) (chebyshev_sizes 1 xs) (chebyshev_sizes 2 xs) i j) ->
  exists s' a g, se_eval_hess (S := DS) xs s = RRet s' tt /\ se_get_hess s' i j = Ok a /\ finite a /\
    second (series_fun (sizes (S := DS) bs) (fun t => value (c t)) (chebyshev_families bs)) i j (map value xs) g /\
    Rabs (value a - g) <= series_error (sizes (S := DS) bs) (41 * unit_roundoff) *
      size_sum (sizes (S := DS) bs) c (by2 (chebyshev_sizes 0 xs) (chebyshev_sizes 1 xs) (chebyshev_sizes 2 xs) i j).
Proof.
  intros i j Hi Hj Hsc. refine (hessian_error59 bs one s c cheb_proper Hs Hc _ _ _ (chebyshev_families bs) _ _ _ _ _ _ xs i j (proj2 (proj2 (sets_facts bs Hb)) KVal)
    (proj2 (proj2 (sets_facts bs Hb)) KGrad) (proj2 (proj2 (sets_facts bs Hb)) KHess) HL (proj1 (families_derivatives bs)) (proj2 (families_derivatives bs)) _
    (many_modest bs Hn) (cheb_close KVal) (cheb_close KGrad) (cheb_close KHess) Hi Hj Hsc).
  unfold chebyshev_families. apply map_length.
Qed.
End Series_.
End Chebyshev.
