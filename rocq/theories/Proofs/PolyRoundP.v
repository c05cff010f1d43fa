(** Rounding errors of polynomial expressions: C60. *)
From Coq Require Import ZArith List Bool Lia Reals Lra Psatz.
From Flocq Require Import Core BinarySingleNaN.
From Verif Require Import Model.Outcome Model.Num Model.NumInst Model.CExpr.
From Verif Require Import Proofs.BinFloatP Proofs.RoundP Proofs.FloatShapeP Proofs.FloatAxisP Proofs.SumRoundP Proofs.PolyP.
Import ListNotations.
Local Open Scope R_scope.

(** The same polynomial with all signs positive. *)
Fixpoint anorm (e : cexpr) : option (list Z) :=
  match e with
  | CNum m x => if Z.leb 0 x then Some [Z.abs (m * 10 ^ x)] else None
  | CVar k => if Z.eqb k 0 then Some [0%Z; 1%Z] else None
  | CNeg a => anorm a
  | CAdd a b => match anorm a, anorm b with Some p, Some q => Some (padd p q) | _, _ => None end
  | CSub a b => match anorm a, anorm b with Some p, Some q => Some (padd p q) | _, _ => None end
  | CMul a b => match anorm a, anorm b with Some p, Some q => Some (pmul p q) | _, _ => None end
  | _ => None
  end.

(** Rounding steps, size for |x| <= X, and the weight of underflows. *)
Definition ok3 (r : nat * Z * Z) : option (nat * Z * Z) :=
  let '(k, m, s) := r in if (Nat.leb k 1000 && Z.leb m (2 ^ 500) && Z.leb s (2 ^ 500))%bool then Some r else None.
Fixpoint analyse (X : Z) (e : cexpr) : option (nat * Z * Z) :=
  match e with
  | CNum m x => if (Z.leb 0 x && Z.leb (Z.abs (m * 10 ^ x)) (2 ^ 53))%bool then Some (0%nat, Z.abs (m * 10 ^ x), 0%Z) else None
  | CVar k => if Z.eqb k 0 then Some (0%nat, X, 0%Z) else None
  | CNeg a => analyse X a
  | CAdd a b | CSub a b =>
      match analyse X a, analyse X b with
      | Some (k, m, s), Some (k', m', s') => ok3 (S (Nat.max k k'), (m + m')%Z, (2 * (s + s'))%Z)
      | _, _ => None
      end
  | CMul a b =>
      match analyse X a, analyse X b with
      | Some (k, m, s), Some (k', m', s') => ok3 (S (k + k'), (m * m')%Z, (2 * (2 * s' * m + 2 * s * m' + s * s') + 1)%Z)
      | _, _ => None
      end
  | _ => None
  end.

(** [y] was computed for [P], whose size is at most [A]. *)
Definition within (y P A : R) (k : nat) (m s : Z) : Prop :=
  (k <= 1000)%nat /\ (0 <= m <= 2 ^ 500)%Z /\ (0 <= s <= 2 ^ 500)%Z /\
  Rabs P <= A <= IZR m /\ Rabs (y - P) <= ((1 + u) ^ k - 1) * A + IZR s * eta.

Lemma pow_1000 : forall k, (k <= 2001)%nat -> 1 <= (1 + u) ^ k <= 2.
Proof.
  intros k Hk. pose proof u_pos as U0. pose proof u_small as U1. assert (P : 1 <= (1 + u) ^ k) by (apply pow_ge1; lra). split; [exact P|].
  pose proof (pow_bound u k ltac:(lra) ltac:(lra)) as B.
  assert (N : INR k * u <= / 2).
  { apply Rle_trans with (bpow radix2 11 * u).
    - apply Rmult_le_compat_r; [lra|]. rewrite INR_IZR_INZ. change (bpow radix2 11) with (IZR 2048). apply IZR_le. lia.
    - rewrite <- bpow_plus. change (/ 2) with (bpow radix2 (-1)). apply bpow_le. lia. }
  nra.
Qed.

Lemma eta_500 : forall s, (0 <= s <= 2 ^ 1100)%Z -> 0 <= IZR s * eta <= bpow radix2 100.
Proof.
  intros s [H0 H1]. pose proof eta_pos as E. apply IZR_le in H0, H1. split; [apply Rmult_le_pos; lra|].
  apply Rle_trans with (bpow radix2 1100 * eta); [|rewrite <- bpow_plus; apply bpow_le; lia].
  apply Rmult_le_compat_r; [lra|]. change (bpow radix2 1100) with (IZR (2 ^ 1100)). exact H1.
Qed.

Lemma IZR_bpow : forall z e, (0 <= e)%Z -> (z <= 2 ^ e)%Z -> IZR z <= bpow radix2 e.
Proof. intros z e He H. rewrite <- (IZR_Zpower radix2 e He). apply IZR_le. exact H. Qed.

Lemma within_size : forall y P A k m s, within y P A k m s -> Rabs y <= (1 + u) ^ k * A + IZR s * eta.
Proof.
  intros y P A k m s (_ & _ & _ & [H1 _] & H). replace y with (P + (y - P)) by ring. eapply Rle_trans; [apply Rabs_triang|]. lra.
Qed.

Lemma within_opp : forall y P A k m s, within y P A k m s -> within (- y) (- P) A k m s.
Proof.
  intros y P A k m s (K & M & S & H1 & H2). repeat split; try tauto; try apply K; try apply M; try apply S.
  - rewrite Rabs_Ropp. apply H1.
  - replace (- y - - P) with (- (y - P)) by ring. rewrite Rabs_Ropp. exact H2.
Qed.

Lemma within_add : forall y P A k m s y' P' A' k' m' s', fmt y -> fmt y' -> within y P A k m s -> within y' P' A' k' m' s' ->
  (S (Nat.max k k') <= 1000)%nat -> (m + m' <= 2 ^ 500)%Z -> (2 * (s + s') <= 2 ^ 500)%Z ->
  within (rne (y + y')) (P + P') (A + A') (S (Nat.max k k')) (m + m') (2 * (s + s')) /\ Rabs (y + y') <= bpow radix2 502.
Proof.
  intros y P A k m s y' P' A' k' m' s' Fy Fy' W W' HK HM HS. pose proof W as (K1 & M1 & S1 & [B1 C1] & E1). pose proof W' as (K2 & M2 & S2 & [B2 C2] & E2).
  pose proof (within_size _ _ _ _ _ _ W) as Z1. pose proof (within_size _ _ _ _ _ _ W') as Z2.
  pose proof u_pos as U0. pose proof u_small as U1. pose proof eta_pos as T0.
  set (g := (1 + u) ^ Nat.max k k').
  assert (G1 : (1 + u) ^ k <= g) by (apply pow_grow; [lra|lia]). assert (G2 : (1 + u) ^ k' <= g) by (apply pow_grow; [lra|lia]).
  assert (G : 1 <= g <= 2) by (apply pow_1000; lia).
  assert (A0 : 0 <= A) by (pose proof (Rabs_pos P); lra). assert (A0' : 0 <= A') by (pose proof (Rabs_pos P'); lra).
  set (t := IZR s * eta + IZR s' * eta). assert (t0 : 0 <= t).
  { unfold t. pose proof (eta_500 s ltac:(lia)). pose proof (eta_500 s' ltac:(lia)). lra. }
  assert (D : Rabs (y + y' - (P + P')) <= (g - 1) * (A + A') + t).
  { replace (y + y' - (P + P')) with ((y - P) + (y' - P')) by ring. eapply Rle_trans; [apply Rabs_triang|]. unfold t. nra. }
  assert (Zs : Rabs (y + y') <= g * (A + A') + t).
  { eapply Rle_trans; [apply Rabs_triang|]. unfold t. nra. }
  pose proof (rne_add_err y y' Fy Fy') as R.
  split.
  - split; [exact HK|]. split; [lia|]. split; [lia|]. split.
    + split; [eapply Rle_trans; [apply Rabs_triang|]; lra|rewrite plus_IZR; lra].
    + replace (rne (y + y') - (P + P')) with ((rne (y + y') - (y + y')) + (y + y' - (P + P'))) by ring. eapply Rle_trans; [apply Rabs_triang|].
      replace (IZR (2 * (s + s')) * eta) with (2 * t) by (unfold t; rewrite mult_IZR, plus_IZR; ring).
      change ((1 + u) ^ S (Nat.max k k')) with ((1 + u) * g).
      assert (u * Rabs (y + y') <= u * (g * (A + A') + t)) by (apply Rmult_le_compat_l; lra).
      assert (u * t <= / 1024 * t) by (apply Rmult_le_compat_r; lra). nra.
  - assert (Ts : t <= bpow radix2 101).
    { pose proof (eta_500 s ltac:(lia)). pose proof (eta_500 s' ltac:(lia)). unfold t. replace (bpow radix2 101) with (2 * bpow radix2 100) by (change 2 with (bpow radix2 1) at 1; rewrite <- bpow_plus; f_equal). lra. }
    assert (Ms : A + A' <= bpow radix2 500) by (pose proof (IZR_bpow (m + m') 500 ltac:(lia) HM) as I; rewrite plus_IZR in I; lra).
    assert (bpow radix2 101 <= bpow radix2 500) by (apply bpow_le; lia).
    replace (bpow radix2 502) with (4 * bpow radix2 500) by (change 4 with (bpow radix2 2) at 1; rewrite <- bpow_plus; f_equal).
    assert (g * (A + A') <= 2 * bpow radix2 500) by nra. pose proof (bpow_gt_0 radix2 500). lra.
Qed.

Lemma within_mul : forall y P A k m s y' P' A' k' m' s', within y P A k m s -> within y' P' A' k' m' s' ->
  (S (k + k') <= 1000)%nat -> (m * m' <= 2 ^ 500)%Z -> (2 * (2 * s' * m + 2 * s * m' + s * s') + 1 <= 2 ^ 500)%Z ->
  within (rne (y * y')) (P * P') (A * A') (S (k + k')) (m * m') (2 * (2 * s' * m + 2 * s * m' + s * s') + 1) /\ Rabs (y * y') <= bpow radix2 502.
Proof.
  intros y P A k m s y' P' A' k' m' s' W W' HK HM HS. pose proof W as (K1 & M1 & S1 & [B1 C1] & E1). pose proof W' as (K2 & M2 & S2 & [B2 C2] & E2).
  pose proof (within_size _ _ _ _ _ _ W) as Z1. pose proof (within_size _ _ _ _ _ _ W') as Z2.
  pose proof u_pos as U0. pose proof u_small as U1. pose proof eta_pos as T0. pose proof eta_small as T1.
  set (g := (1 + u) ^ k) in *. set (g' := (1 + u) ^ k') in *.
  assert (G : 1 <= g <= 2) by (apply pow_1000; lia). assert (G' : 1 <= g' <= 2) by (apply pow_1000; lia).
  assert (GG : g * g' = (1 + u) ^ (k + k')) by (unfold g, g'; rewrite pow_add; reflexivity).
  assert (GG2 : 1 <= g * g' <= 2) by (rewrite GG; apply pow_1000; lia).
  assert (A0 : 0 <= A) by (pose proof (Rabs_pos P); lra). assert (A0' : 0 <= A') by (pose proof (Rabs_pos P'); lra).
  set (a := IZR s * eta) in *. set (b := IZR s' * eta) in *.
  assert (a0 : 0 <= a) by (pose proof (eta_500 s ltac:(lia)); unfold a; lra). assert (b0 : 0 <= b) by (pose proof (eta_500 s' ltac:(lia)); unfold b; lra).
  set (q := (2 * s' * m + 2 * s * m' + s * s')%Z) in *. assert (q0 : (0 <= q)%Z) by (unfold q; nia).
  set (t := IZR q * eta). assert (t0 : 0 <= t) by (unfold t; apply Rmult_le_pos; [apply IZR_le; exact q0|lra]).
  assert (X1 : g * A * b + g' * A' * a + a * b <= t).
  { unfold t, q. rewrite !plus_IZR, !mult_IZR. fold a b. 
    assert (g * A * b <= 2 * IZR m * b) by (apply Rmult_le_compat_r; [exact b0|]; apply Rmult_le_compat; lra).
    assert (g' * A' * a <= 2 * IZR m' * a) by (apply Rmult_le_compat_r; [exact a0|]; apply Rmult_le_compat; lra).
    assert (a * b <= IZR s * IZR s' * eta).
    { unfold a, b. replace (IZR s * eta * (IZR s' * eta)) with (IZR s * IZR s' * eta * eta) by ring.
      rewrite <- (Rmult_1_r (IZR s * IZR s' * eta)) at 2. apply Rmult_le_compat_l; [|nra].
      apply Rmult_le_pos; [|lra]. apply Rmult_le_pos; apply IZR_le; lia. }
    replace ((2 * IZR s' * IZR m + 2 * IZR s * IZR m' + IZR s * IZR s') * eta) with (2 * IZR m * b + 2 * IZR m' * a + IZR s * IZR s' * eta) by (unfold a, b; ring). lra. }
  assert (Zs : Rabs (y * y') <= g * g' * (A * A') + t).
  { rewrite Rabs_mult. apply Rle_trans with ((g * A + a) * (g' * A' + b)); [apply Rmult_le_compat; auto using Rabs_pos|].
    replace ((g * A + a) * (g' * A' + b)) with (g * g' * (A * A') + (g * A * b + g' * A' * a + a * b)) by ring. lra. }
  assert (D : Rabs (y * y' - P * P') <= (g * g' - 1) * (A * A') + t).
  { replace (y * y' - P * P') with (y * (y' - P') + (y - P) * P') by ring. eapply Rle_trans; [apply Rabs_triang|]. rewrite !Rabs_mult.
    assert (Rabs y * Rabs (y' - P') <= (g * A + a) * ((g' - 1) * A' + b)) by (apply Rmult_le_compat; auto using Rabs_pos).
    assert (Rabs (y - P) * Rabs P' <= ((g - 1) * A + a) * A') by (apply Rmult_le_compat; auto using Rabs_pos).
    assert ((g * A + a) * ((g' - 1) * A' + b) + ((g - 1) * A + a) * A' = (g * g' - 1) * (A * A') + (g * A * b + g' * A' * a + a * b)) by ring. lra. }
  assert (AA : 0 <= A * A') by (apply Rmult_le_pos; lra).
  assert (MM : A * A' <= IZR (m * m')) by (rewrite mult_IZR; apply Rmult_le_compat; lra).
  pose proof (rne_err (y * y')) as R.
  split.
  - split; [exact HK|]. split; [nia|]. split; [lia|]. split.
    + split; [rewrite Rabs_mult; apply Rmult_le_compat; auto using Rabs_pos|exact MM].
    + replace (rne (y * y') - P * P') with ((rne (y * y') - y * y') + (y * y' - P * P')) by ring. eapply Rle_trans; [apply Rabs_triang|].
      replace (IZR (2 * q + 1) * eta) with (2 * t + eta) by (unfold t; rewrite plus_IZR, mult_IZR; ring).
      change ((1 + u) ^ S (k + k')) with ((1 + u) * (1 + u) ^ (k + k')). rewrite <- GG.
      assert (u * Rabs (y * y') <= u * (g * g' * (A * A') + t)) by (apply Rmult_le_compat_l; lra).
      assert (u * t <= / 1024 * t) by (apply Rmult_le_compat_r; lra). nra.
  - assert (Ts : t <= bpow radix2 100) by (apply eta_500; lia).
    assert (Ms : A * A' <= bpow radix2 500) by (pose proof (IZR_bpow (m * m') 500 ltac:(lia) HM) as I; lra).
    assert (bpow radix2 100 <= bpow radix2 500) by (apply bpow_le; lia).
    replace (bpow radix2 502) with (4 * bpow radix2 500) by (change 4 with (bpow radix2 2) at 1; rewrite <- bpow_plus; f_equal).
    assert (g * g' * (A * A') <= 2 * bpow radix2 500) by nra. pose proof (bpow_gt_0 radix2 500). lra.
Qed.

Lemma ok3_spec : forall k m s r, ok3 (k, m, s) = Some r -> r = (k, m, s) /\ (k <= 1000)%nat /\ (m <= 2 ^ 500)%Z /\ (s <= 2 ^ 500)%Z.
Proof.
  intros k m s r H. unfold ok3 in H. destruct (Nat.leb_spec k 1000); [|discriminate]. destruct (Z.leb_spec m (2 ^ 500)); [|discriminate].
  destruct (Z.leb_spec s (2 ^ 500)); [|discriminate]. injection H as <-. auto.
Qed.

Lemma analyse_ok : forall pw X (x : f64), (0 <= X <= 2 ^ 500)%Z -> fin x -> Rabs (B2R x) <= IZR X -> forall e k m s, analyse X e = Some (k, m, s) ->
  exists (y : f64) p a, ceval FOps pw [x : num FOps] e = Ok y /\ norm e = Some p /\ anorm e = Some a /\ fin y /\ within (B2R y) (peval p (B2R x)) (peval a (Rabs (B2R x))) k m s.
Proof.
  intros pw X x HX Fx Bx. set (r := B2R x) in *. pose proof u_pos as U0. pose proof eta_pos as T0.
  induction e as [c ex|j|e IH|e1 IH1 e2 IH2|e1 IH1 e2 IH2|e1 IH1 e2 IH2|e1 _ e2 _|e1 _ e2 _|e1 _ n]; intros k m s H; cbn [analyse] in H; try discriminate.
  - destruct (Z.leb_spec 0 ex) as [L|L]; [|discriminate]. cbn [andb] in H. destruct (Z.leb_spec (Z.abs (c * 10 ^ ex)) (2 ^ 53)) as [G|G]; [|discriminate].
    injection H as <- <- <-. cbn [ceval norm anorm]. unfold literal. destruct (Z.leb_spec 0 ex) as [_|L']; [|lia].
    destruct (whole64 _ G) as [Fy Ey]. exists (nofZ FOps (c * 10 ^ ex)), [(c * 10 ^ ex)%Z], [Z.abs (c * 10 ^ ex)].
    split; [reflexivity|]. split; [reflexivity|]. split; [reflexivity|]. split; [exact Fy|]. cbn [peval]. rewrite !Rmult_0_r, !Rplus_0_r.
    split; [lia|]. split; [lia|]. split; [lia|]. split.
    + rewrite <- abs_IZR. lra.
    + match goal with |- Rabs (?a - _) <= _ => replace a with (IZR (c * 10 ^ ex)) by (symmetry; exact Ey) end. rewrite Rminus_diag_eq, Rabs_R0 by reflexivity. simpl. lra.
  - destruct (Z.eqb_spec j 0) as [->|]; [|discriminate]. injection H as <- <- <-. exists x, [0%Z; 1%Z], [0%Z; 1%Z].
    split; [reflexivity|]. split; [reflexivity|]. split; [reflexivity|]. split; [exact Fx|]. cbn [peval]. fold r.
    replace (0 + r * (1 + r * 0)) with r by ring. replace (0 + Rabs r * (1 + Rabs r * 0)) with (Rabs r) by ring.
    split; [lia|]. split; [exact HX|]. split; [lia|]. split; [lra|]. rewrite Rminus_diag_eq, Rabs_R0 by reflexivity. simpl. lra.
  - destruct (IH k m s H) as (y & p & a & E & N & A & F & W). exists (nopp FOps y), (pscale (-1) p), a. cbn [ceval norm anorm]. rewrite E, N, A. cbn [obind option_map].
    split; [reflexivity|]. split; [reflexivity|]. split; [reflexivity|].
    assert (F' : fin (nopp FOps y)) by (etransitivity; [apply is_finite_Bopp|exact F]).
    split; [exact F'|]. rewrite pscale_ok. replace (IZR (-1) * peval p r) with (- peval p r) by (change (IZR (-1)) with (-1); ring).
    match goal with |- within ?b _ _ _ _ _ => replace b with (- B2R y) by (symmetry; apply B2R_Bopp) end. apply within_opp. exact W.
  - destruct (analyse X e1) as [[[k1 m1] s1]|]; [|discriminate]. destruct (analyse X e2) as [[[k2 m2] s2]|]; [|discriminate].
    destruct (ok3_spec _ _ _ _ H) as (E & HK & HM & HS). injection E as -> -> ->.
    destruct (IH1 _ _ _ eq_refl) as (y1 & p1 & a1 & E1 & N1 & A1 & F1 & W1). destruct (IH2 _ _ _ eq_refl) as (y2 & p2 & a2 & E2 & N2 & A2 & F2 & W2).
    destruct (within_add _ _ _ _ _ _ _ _ _ _ _ _ (f64_fmt y1) (f64_fmt y2) W1 W2 HK HM HS) as [W B].
    destruct (add64 y1 y2 502 ltac:(lia) F1 F2 B) as [Fy Ey].
    exists (nadd FOps y1 y2), (padd p1 p2), (padd a1 a2). cbn [ceval norm anorm]. rewrite E1, E2, N1, N2, A1, A2. cbn [obind].
    split; [reflexivity|]. split; [reflexivity|]. split; [reflexivity|]. split; [exact Fy|]. rewrite !padd_ok.
    match goal with |- within ?b _ _ _ _ _ => replace b with (rne (B2R y1 + B2R y2)) by (symmetry; exact Ey) end. exact W.
  - destruct (analyse X e1) as [[[k1 m1] s1]|]; [|discriminate]. destruct (analyse X e2) as [[[k2 m2] s2]|]; [|discriminate].
    destruct (ok3_spec _ _ _ _ H) as (E & HK & HM & HS). injection E as -> -> ->.
    destruct (IH1 _ _ _ eq_refl) as (y1 & p1 & a1 & E1 & N1 & A1 & F1 & W1). destruct (IH2 _ _ _ eq_refl) as (y2 & p2 & a2 & E2 & N2 & A2 & F2 & W2).
    assert (F2' : fmt (- B2R y2)) by (apply generic_format_opp, f64_fmt).
    destruct (within_add _ _ _ _ _ _ _ _ _ _ _ _ (f64_fmt y1) F2' W1 (within_opp _ _ _ _ _ _ W2) HK HM HS) as [W B].
    destruct (sub64 y1 y2 502 ltac:(lia) F1 F2 B) as [Fy Ey].
    exists (nsub FOps y1 y2), (padd p1 (pscale (-1) p2)), (padd a1 a2). cbn [ceval norm anorm]. rewrite E1, E2, N1, N2, A1, A2. cbn [obind].
    split; [reflexivity|]. split; [reflexivity|]. split; [reflexivity|]. split; [exact Fy|]. rewrite !padd_ok, pscale_ok.
    replace (IZR (-1) * peval p2 r) with (- peval p2 r) by (change (IZR (-1)) with (-1); ring).
    match goal with |- within ?b _ _ _ _ _ => replace b with (rne (B2R y1 + - B2R y2)) by (symmetry; exact Ey) end. exact W.
  - destruct (analyse X e1) as [[[k1 m1] s1]|]; [|discriminate]. destruct (analyse X e2) as [[[k2 m2] s2]|]; [|discriminate].
    destruct (ok3_spec _ _ _ _ H) as (E & HK & HM & HS). injection E as -> -> ->.
    destruct (IH1 _ _ _ eq_refl) as (y1 & p1 & a1 & E1 & N1 & A1 & F1 & W1). destruct (IH2 _ _ _ eq_refl) as (y2 & p2 & a2 & E2 & N2 & A2 & F2 & W2).
    destruct (within_mul _ _ _ _ _ _ _ _ _ _ _ _ W1 W2 HK HM HS) as [W B].
    destruct (mul64 y1 y2 502 ltac:(lia) F1 F2 B) as [Fy Ey].
    exists (nmul FOps y1 y2), (pmul p1 p2), (pmul a1 a2). cbn [ceval norm anorm]. rewrite E1, E2, N1, N2, A1, A2. cbn [obind].
    split; [reflexivity|]. split; [reflexivity|]. split; [reflexivity|]. split; [exact Fy|]. rewrite !pmul_ok.
    match goal with |- within ?b _ _ _ _ _ => replace b with (rne (B2R y1 * B2R y2)) by (symmetry; exact Ey) end. exact W.
Qed.
