(** Rounding errors of products and sums of any length, binary64: C59. *)
From Coq Require Import ZArith List Bool Lia Reals Lra Psatz.
From Flocq Require Import Core Relative BinarySingleNaN.
From Verif Require Import Model.Num Model.NumInst.
From Verif Require Import Proofs.BinFloatP Proofs.RoundP Proofs.FloatShapeP.
Import ListNotations.
Local Open Scope R_scope.

Lemma pow_ge1 : forall x n, 1 <= x -> 1 <= x ^ n.
Proof. intros x n H. induction n as [|n IH]; simpl; [lra|]. nra. Qed.

Lemma pow_grow : forall x n m, 1 <= x -> (n <= m)%nat -> x ^ n <= x ^ m.
Proof. intros. apply Rle_pow; auto. Qed.

(** (1 + x)^n is at most 1 / (1 - n x). *)
Lemma pow_bound : forall x n, 0 <= x -> x <= 1 -> (1 + x) ^ n * (1 - INR n * x) <= 1.
Proof.
  intros x n H0 H1. induction n as [|n IH]; [simpl; lra|].
  assert (P : 0 <= (1 + x) ^ n) by (apply pow_le; lra). rewrite S_INR. change ((1 + x) ^ S n) with ((1 + x) * (1 + x) ^ n).
  assert (N : 0 <= INR n) by apply pos_INR. assert (Q : 0 <= x * x * (INR n + 1)) by (apply Rmult_le_pos; nra).
  apply Rle_trans with ((1 + x) ^ n * (1 - INR n * x)); [|exact IH].
  replace ((1 + x) * (1 + x) ^ n * (1 - (INR n + 1) * x)) with ((1 + x) ^ n * (1 - INR n * x - x * x * (INR n + 1))) by ring.
  apply Rmult_le_compat_l; [exact P|]. lra.
Qed.

Definition prod_list (l : list R) : R := fold_right Rmult 1 l.

(** A computed factor, the factor meant, and a bound on it. *)
Definition near_factor (delta : R) (p : f64 * (R * R)) : Prop :=
  fin (fst p) /\ Rabs (fst (snd p)) <= snd (snd p) /\ Rabs (B2R (fst p) - fst (snd p)) <= delta * snd (snd p).

Local Notation big := (bpow radix2 1000).
Local Notation small := (bpow radix2 (-1000)).

Lemma eta_rel : 4 * eta <= u * small.
Proof. change 4 with (bpow radix2 2). rewrite <- !bpow_plus. apply bpow_le. lia. Qed.

Section Chain.
Variable delta : R.
Hypothesis D0 : 0 <= delta.
Let rho := (1 + delta) * (1 + u).

Lemma rho_ge1 : 1 <= rho.
Proof. unfold rho. pose proof u_pos. nra. Qed.

(** One rounded product: a product that is too small to be rounded well is small beside the bound. *)
Lemma rne_err_max : forall y m, Rabs y <= m -> small <= m -> Rabs (rne y - y) <= u * m.
Proof.
  intros y m Hy Hm. destruct (Rle_or_lt (bpow radix2 (-1022)) (Rabs y)) as [L|L].
  - pose proof (relative_error_N_FLT radix2 (-1074) 53 eq_refl (fun t => negb (Z.even t)) y) as E.
    assert (B : Rabs (rne y - y) <= u * Rabs y).
    { eapply Rle_trans; [apply E; exact L|]. right. f_equal. change (/ 2) with (bpow radix2 (-1)). rewrite <- bpow_plus. f_equal. }
    eapply Rle_trans; [exact B|]. apply Rmult_le_compat_l; [left; apply u_pos|exact Hy].
  - eapply Rle_trans; [apply rne_err|]. assert (A : u * Rabs y <= u * bpow radix2 (-1022)) by (apply Rmult_le_compat_l; [left; apply u_pos|lra]).
    assert (B : u * bpow radix2 (-1022) = eta) by (rewrite <- bpow_plus; reflexivity).
    pose proof eta_rel as C. pose proof u_pos as U0. pose proof eta_pos as E0. assert (u * small <= u * m) by (apply Rmult_le_compat_l; lra). lra.
Qed.

Lemma prod_chain : forall l (x : f64) X P k, fin x -> Rabs X <= P -> Rabs (B2R x - X) <= (rho ^ k - 1) * P ->
  Forall (near_factor delta) l ->
  (forall j, (j <= List.length l)%nat -> small <= P * prod_list (firstn j (map (fun p => snd (snd p)) l)) <= big) ->
  rho ^ (k + List.length l) <= 2 ->
  let y := fold_left (nmul FOps) (map fst l) x in
  fin y /\ Rabs (B2R (y : f64) - X * prod_list (map (fun p => fst (snd p)) l)) <= (rho ^ (k + List.length l) - 1) * (P * prod_list (map (fun p => snd (snd p)) l)).
Proof.
  induction l as [|[f [F B]] l IH]; intros x X P k Fx HX HE Hl HP Hr y.
  - unfold y, prod_list. simpl. rewrite Nat.add_0_r, !Rmult_1_r. auto.
  - inversion Hl as [|? ? (Ff & HF & HfF) Hl']; subst. cbn [fst snd] in Ff, HF, HfF.
    assert (R1 : 1 <= rho) by apply rho_ge1.
    assert (Rk : 1 <= rho ^ k) by (apply pow_ge1; exact R1).
    assert (B0 : 0 <= B) by (pose proof (Rabs_pos F); lra).
    assert (P0 : 0 <= P) by (pose proof (Rabs_pos X); lra).
    assert (PB : small <= P * B <= big).
    { specialize (HP 1%nat). simpl in HP. unfold prod_list in HP. simpl in HP. rewrite Rmult_1_r in HP. apply HP. lia. }
    assert (Rk1 : rho ^ S k <= 2).
    { eapply Rle_trans; [|exact Hr]. apply pow_grow; [exact R1|]. simpl. lia. }
    assert (Ax : Rabs (B2R x) <= rho ^ k * P).
    { replace (B2R x) with (X + (B2R x - X)) by ring. eapply Rle_trans; [apply Rabs_triang|]. lra. }
    assert (Af : Rabs (B2R f) <= (1 + delta) * B).
    { replace (B2R f) with (F + (B2R f - F)) by ring. eapply Rle_trans; [apply Rabs_triang|]. lra. }
    set (m := rho ^ k * (1 + delta) * (P * B)).
    assert (Am : Rabs (B2R x * B2R f) <= m).
    { rewrite Rabs_mult. unfold m. replace (rho ^ k * (1 + delta) * (P * B)) with ((rho ^ k * P) * ((1 + delta) * B)) by ring.
      apply Rmult_le_compat; auto using Rabs_pos. }
    assert (M1 : m * (1 + u) = rho ^ S k * (P * B)) by (unfold m, rho; simpl; ring).
    assert (U0 := u_pos). assert (PB0 : 0 < P * B) by (pose proof (bpow_gt_0 radix2 (-1000)); lra).
    assert (M2 : P * B <= m).
    { unfold m. assert (1 <= rho ^ k * (1 + delta)) by nra. nra. }
    assert (M0 : 0 <= m) by lra.
    assert (Mb : m <= 2 * big).
    { apply Rle_trans with (m * (1 + u)); [nra|]. rewrite M1. nra. }
    destruct (mul64 x f 1001 ltac:(lia) Fx Ff) as [Fy Ey].
    { eapply Rle_trans; [exact Am|]. eapply Rle_trans; [exact Mb|]. right. change 2 with (bpow radix2 1) at 1. rewrite <- bpow_plus. f_equal. }
    assert (Er : Rabs (B2R (nmul FOps x f : f64) - B2R x * B2R f) <= u * m).
    { rewrite Ey. apply rne_err_max; [exact Am|]. lra. }
    assert (Ed : Rabs (B2R x * B2R f - X * F) <= m - P * B).
    { replace (B2R x * B2R f - X * F) with (B2R x * (B2R f - F) + (B2R x - X) * F) by ring.
      eapply Rle_trans; [apply Rabs_triang|]. rewrite !Rabs_mult.
      assert (T1 : Rabs (B2R x) * Rabs (B2R f - F) <= (rho ^ k * P) * (delta * B)) by (apply Rmult_le_compat; auto using Rabs_pos).
      assert (T2 : Rabs (B2R x - X) * Rabs F <= ((rho ^ k - 1) * P) * B) by (apply Rmult_le_compat; auto using Rabs_pos).
      unfold m. nra. }
    destruct (IH (nmul FOps x f) (X * F) (P * B) (S k)) as [G1 G2].
    + exact Fy.
    + rewrite Rabs_mult. apply Rmult_le_compat; auto using Rabs_pos.
    + replace (B2R (nmul FOps x f : f64) - X * F) with ((B2R (nmul FOps x f : f64) - B2R x * B2R f) + (B2R x * B2R f - X * F)) by ring.
      eapply Rle_trans; [apply Rabs_triang|]. replace ((rho ^ S k - 1) * (P * B)) with (m * (1 + u) - P * B) by (rewrite M1; ring). lra.
    + exact Hl'.
    + intros j Hj. specialize (HP (S j)). cbn [List.length] in HP. assert (HP' := HP ltac:(lia)). simpl in HP'. unfold prod_list in *. simpl in HP'.
      rewrite Rmult_assoc. exact HP'.
    + simpl in Hr |- *. rewrite Nat.add_succ_r in Hr. simpl in Hr. exact Hr.
    + split; [exact G1|]. unfold y, prod_list in *. cbn [map fold_left fst snd fold_right List.length] in *.
      rewrite Nat.add_succ_r. rewrite <- !Rmult_assoc in *. change (S k + List.length l)%nat with (S (k + List.length l)) in G2. exact G2.
Qed.

(** A product that starts at zero stays there. *)
Lemma prod_zero : forall (l : list f64) (x : f64), fin x -> B2R x = 0 -> Forall (fun f : f64 => fin f) l ->
  fin (fold_left (nmul FOps) l x) /\ B2R (fold_left (nmul FOps) l x : f64) = 0.
Proof.
  induction l as [|f l IH]; intros x Fx Zx Hl; [auto|]. inversion Hl as [|? ? Ff Hl']; subst. simpl.
  destruct (mul64 x f 0 ltac:(lia) Fx Ff) as [Fy Ey]; [rewrite Zx, Rmult_0_l, Rabs_R0; left; apply bpow_gt_0|].
  apply IH; auto. transitivity (rne (B2R x * B2R f)); [exact Ey|]. rewrite Zx, Rmult_0_l. apply rne_0.
Qed.

(** A sum of computed terms [(x, (X, P))]: the first computed, the second meant, the third its bound. *)
Lemma sum_chain : forall g (l : list (f64 * (R * R))) (s : f64) T Q k, 1 <= g -> fin s -> Rabs T <= Q -> Rabs (B2R s - T) <= (g * (1 + u) ^ k - 1) * Q ->
  Forall (fun p => fin (fst p) /\ Rabs (fst (snd p)) <= snd (snd p) /\ Rabs (B2R (fst p) - fst (snd p)) <= (g - 1) * snd (snd p)) l ->
  Q + fold_right Rplus 0 (map (fun p => snd (snd p)) l) <= big -> g * (1 + u) ^ (k + List.length l) <= 2 ->
  let y := fold_left (nadd FOps) (map fst l) s in
  fin y /\ Rabs (B2R (y : f64) - (T + fold_right Rplus 0 (map (fun p => fst (snd p)) l))) <=
    (g * (1 + u) ^ (k + List.length l) - 1) * (Q + fold_right Rplus 0 (map (fun p => snd (snd p)) l)).
Proof.
  intros g l. induction l as [|[x [X P]] l IH]; intros s T Q k Hg Fs HT HE Hl HQ Hr y.
  - unfold y. simpl. rewrite Nat.add_0_r, !Rplus_0_r. auto.
  - inversion Hl as [|? ? (Fx & HX & HxX) Hl']; subst. cbn [fst snd] in Fx, HX, HxX.
    assert (U0 := u_pos). assert (Uk : 1 <= (1 + u) ^ k) by (apply pow_ge1; lra).
    assert (P0 : 0 <= P) by (pose proof (Rabs_pos X); lra). assert (Q0 : 0 <= Q) by (pose proof (Rabs_pos T); lra).
    set (gk := g * (1 + u) ^ k) in *. assert (Gk : g <= gk) by (unfold gk; nra).
    assert (Gk1 : gk * (1 + u) <= 2).
    { eapply Rle_trans; [|exact Hr]. unfold gk. rewrite Rmult_assoc. apply Rmult_le_compat_l; [lra|].
      replace ((1 + u) ^ k * (1 + u)) with ((1 + u) ^ S k) by (simpl; ring). apply pow_grow; [lra|]. simpl. lia. }
    assert (Rest : 0 <= fold_right Rplus 0 (map (fun p : f64 * (R * R) => snd (snd p)) l)).
    { clear - Hl'. induction l as [|[x [X P]] l IH]; simpl; [lra|]. inversion Hl' as [|? ? (_ & H & _) Hl2]; subst. cbn [fst snd] in H.
      pose proof (Rabs_pos X). specialize (IH Hl2). lra. }
    cbn [map fold_right fst snd] in HQ. assert (QP : Q + P <= big) by lra.
    assert (Ed : Rabs (B2R s + B2R x - (T + X)) <= (gk - 1) * (Q + P)).
    { replace (B2R s + B2R x - (T + X)) with ((B2R s - T) + (B2R x - X)) by ring. eapply Rle_trans; [apply Rabs_triang|]. nra. }
    assert (Am : Rabs (B2R s + B2R x) <= gk * (Q + P)).
    { replace (B2R s + B2R x) with ((T + X) + (B2R s + B2R x - (T + X))) by ring. eapply Rle_trans; [apply Rabs_triang|].
      assert (Rabs (T + X) <= Q + P) by (eapply Rle_trans; [apply Rabs_triang|]; lra). lra. }
    destruct (add64 s x 1001 ltac:(lia) Fs Fx) as [Fy Ey].
    { eapply Rle_trans; [exact Am|]. apply Rle_trans with (2 * big); [nra|]. right. change 2 with (bpow radix2 1) at 1. rewrite <- bpow_plus. f_equal. }
    assert (Er : Rabs (B2R (nadd FOps s x : f64) - (B2R s + B2R x)) <= u * (gk * (Q + P))).
    { rewrite Ey. eapply Rle_trans; [apply rne_add_err; apply f64_fmt|]. apply Rmult_le_compat_l; [lra|exact Am]. }
    destruct (IH (nadd FOps s x) (T + X) (Q + P) (S k)) as [G1 G2]; auto.
    + eapply Rle_trans; [apply Rabs_triang|]. lra.
    + replace (B2R (nadd FOps s x : f64) - (T + X)) with ((B2R (nadd FOps s x : f64) - (B2R s + B2R x)) + (B2R s + B2R x - (T + X))) by ring.
      eapply Rle_trans; [apply Rabs_triang|]. replace ((g * (1 + u) ^ S k - 1) * (Q + P)) with (u * (gk * (Q + P)) + (gk - 1) * (Q + P)) by (unfold gk; simpl; ring). lra.
    + lra.
    + simpl in Hr |- *. rewrite Nat.add_succ_r in Hr. simpl in Hr. exact Hr.
    + split; [exact G1|]. unfold y. cbn [map fold_left fst snd fold_right List.length] in *.
      rewrite Nat.add_succ_r. rewrite <- !Rplus_assoc in *. change (S k + List.length l)%nat with (S (k + List.length l)) in G2. exact G2.
Qed.

End Chain.

(** The powers stay below 2. *)
Lemma powers_below_2 : forall delta d n, 0 <= delta -> INR d * delta <= 1 / 4 -> INR (d + n) <= bpow radix2 32 ->
  ((1 + delta) * (1 + u)) ^ d * (1 + u) ^ n <= 2.
Proof.
  intros delta d n D0 Hd Hn. rewrite Rpow_mult_distr, Rmult_assoc, <- pow_add.
  assert (U0 := u_pos). assert (U1 := u_small).
  pose proof (pow_bound u (d + n) (Rlt_le _ _ U0) ltac:(lra)) as B.
  assert (N : INR (d + n) * u <= / 1024).
  { apply Rle_trans with (bpow radix2 32 * u); [apply Rmult_le_compat_r; lra|]. rewrite <- bpow_plus. change (/ 1024) with (bpow radix2 (-10)). apply bpow_le. lia. }
  assert (P : 1 <= (1 + u) ^ (d + n)) by (apply pow_ge1; lra).
  assert (B2 : (1 + u) ^ (d + n) <= 11 / 10) by nra.
  assert (E : (1 + delta) ^ d <= 4 / 3).
  { destruct d as [|d]; [simpl; lra|]. assert (delta <= 1).
    { rewrite S_INR in Hd. pose proof (pos_INR d). nra. }
    pose proof (pow_bound delta (S d) D0 ltac:(assumption)) as A. assert (1 <= (1 + delta) ^ S d) by (apply pow_ge1; lra). nra. }
  assert (1 <= (1 + delta) ^ d) by (apply pow_ge1; lra). nra.
Qed.
