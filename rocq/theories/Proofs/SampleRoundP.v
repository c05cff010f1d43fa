(** The sample basis sets in doubles: C60. *)
From Coq Require Import ZArith List Bool String Reals Lra Lia Psatz.
From Coquelicot Require Import Coquelicot.
From Flocq Require Import Core.Raux Core.Zaux Core.Defs IEEE754.BinarySingleNaN.
From Coq Require Import List.
From Verif Require Import Model.Outcome Model.Num Model.NumInst Model.BasisSet Model.CExpr Model.Samples.
From Verif Require Import Spec.Basis Spec.Poly Spec.Rounding Spec.PolyRounding.
From Verif Require Import Proofs.OutcomeP Proofs.BasisP Proofs.RoundP Proofs.SumRoundP Proofs.PolyP Proofs.SampleSetsP Proofs.PolyRoundP.
Import ListNotations.
Local Open Scope R_scope.

Fixpoint gcoefs2 (n : nat) : list Z * list Z :=
  match n with
  | 0%nat => ([1%Z], [0%Z; 1%Z])
  | S m => let (a, b) := gcoefs2 m in (b, padd (pmul [0%Z; 2%Z] b) a)
  end.
Definition gcoefs (n : nat) : list Z := fst (gcoefs2 n).
Lemma gcoefs2_ok : forall n x, peval (fst (gcoefs2 n)) x = growth n x /\ peval (snd (gcoefs2 n)) x = growth (S n) x.
Proof.
  induction n as [|n IH]; intros x.
  - simpl. lra.
  - cbn [gcoefs2]. destruct (gcoefs2 n) as [a b]. destruct (IH x) as [H1 H2]. cbn [fst snd] in *. split; [exact H2|].
    rewrite padd_ok, pmul_ok, H1, H2. change (growth (S (S n)) x) with (2 * x * growth (S n) x + growth n x). simpl. lra.
Qed.
Lemma gcoefs_ok : forall n x, peval (gcoefs n) x = growth n x.
Proof. intros. apply gcoefs2_ok. Qed.

(** What is checked of one text. *)
Definition text_within (p a : list Z) (X : Z) (K : nat) (S : Z) (e : option cexpr) : bool :=
  match e with
  | Some e =>
      match analyse X e, norm e, anorm e with
      | Some (k, _, s), Some q, Some r =>
          (Nat.leb k K && Z.leb s S && (if list_eq_dec Z.eq_dec (ptrim q) (ptrim p) then true else false) &&
           (if list_eq_dec Z.eq_dec (ptrim r) (ptrim a) then true else false))%bool
      | _, _, _ => false
      end
  | None => false
  end.
Definition term_within l cases (p a : nat -> list Z) X K S (n : nat) : bool :=
  match nth_error cases n with
  | Some c => forallb (fun k => text_within (polyk k (p n)) (polyk k (a n)) X K S (named_code l (sel k c))) [KVal; KGrad; KHess]
  | None => false
  end.
Definition set_within l cases p a X K S : bool := forallb (term_within l cases p a X K S) (seq 0 30).

Lemma chebyshev_within : set_within chebyshev_classes chebyshev_cases tcoefs gcoefs 1 40 (2 ^ 88) = true.
Proof. vm_compute. reflexivity. Qed.
Lemma monomial_within1 : set_within monomial_classes monomial_cases xcoefs xcoefs 1 28 (2 ^ 47) = true.
Proof. vm_compute. reflexivity. Qed.
Lemma monomial_within2 : set_within monomial_classes monomial_cases xcoefs xcoefs 1024 28 (2 ^ 284) = true.
Proof. vm_compute. reflexivity. Qed.

Lemma peval_pos : forall p x, Forall (fun c => 0 <= c)%Z p -> 0 <= x -> 0 <= peval p x.
Proof.
  induction p as [|c p IH]; intros x H Hx; cbn [peval]; [lra|]. inversion H as [|? ? H1 H2]; subst. apply IZR_le in H1. specialize (IH x H2 Hx). nra.
Qed.

(** The relative error as a multiple of the roundoff. *)
Lemma steps_linear : forall k, (k <= 100)%nat -> (1 + u) ^ k - 1 <= (INR k + 1) * u.
Proof.
  intros k Hk. pose proof u_pos as U0. pose proof u_small as U1. pose proof (pow_bound u k ltac:(lra) ltac:(lra)) as B.
  assert (Nk : 0 <= INR k <= 100) by (split; [apply pos_INR|change 100 with (IZR 100); rewrite INR_IZR_INZ; apply IZR_le; lia]).
  assert (P : 1 <= (1 + u) ^ k <= 2) by (apply pow_1000; lia).
  assert (U2 : u <= / 20000).
  { apply Rle_trans with (bpow radix2 (-20)); [apply bpow_le; lia|]. simpl. lra. }
  set (n := INR k) in *. set (g := (1 + u) ^ k) in *. 
  assert (E : g - 1 <= g * (n * u)) by lra.
  assert (g - 1 <= 2 * (n * u)) by (assert (0 <= n * u) by nra; nra).
  assert (g * (n * u) <= n * u + 2 * (n * u) * (n * u)) by (assert (0 <= n * u) by nra; nra).
  assert (2 * (n * u) * (n * u) <= u).
  { replace (2 * (n * u) * (n * u)) with (2 * (n * n) * u * u) by ring. rewrite <- (Rmult_1_l u) at 3. apply Rmult_le_compat_r; [lra|]. assert (n * n <= 10000) by nra.
    assert (2 * (n * n) * u <= 20000 * u) by (apply Rmult_le_compat_r; lra). lra. }
  lra.
Qed.

Section Set_.
Variables (l : list sclass) (cases : list (string * string * string)) (p a : nat -> list Z) (X : Z) (K : nat) (S : Z).
Hypothesis HX : (0 <= X <= 2 ^ 500)%Z.
Hypothesis HK : (K <= 100)%nat.
Hypothesis ok : set_within l cases p a X K S = true.

Lemma text_spec : forall q r e, text_within q r X K S e = true -> exists c, e = Some c /\
  exists k m s, analyse X c = Some (k, m, s) /\ (k <= K)%nat /\ (s <= S)%Z /\ exists q' r', norm c = Some q' /\ anorm c = Some r' /\ ptrim q' = ptrim q /\ ptrim r' = ptrim r.
Proof.
  intros q r [c|] H; [|discriminate]. exists c. split; [reflexivity|]. unfold text_within in H.
  destruct (analyse X c) as [[[k m] s]|]; [|discriminate]. destruct (norm c) as [q'|]; [|discriminate]. destruct (anorm c) as [r'|]; [|discriminate].
  exists k, m, s. split; [reflexivity|]. destruct (Nat.leb_spec k K); [|discriminate]. destruct (Z.leb_spec s S); [|discriminate]. cbn [andb] in H.
  destruct (list_eq_dec Z.eq_dec (ptrim q') (ptrim q)) as [E|]; [|discriminate]. destruct (list_eq_dec Z.eq_dec (ptrim r') (ptrim r)) as [E'|]; [|discriminate].
  split; [assumption|]. split; [assumption|]. exists q', r'. auto.
Qed.

Lemma term_code : forall k t, (0 <= t < 30)%Z -> exists c, 
  (forall O pw x, term_fun O pw l cases (sel k) t x = ceval O pw [x] c) /\
  exists n m s, analyse X c = Some (n, m, s) /\ (n <= K)%nat /\ (s <= S)%Z /\ exists q r, norm c = Some q /\ anorm c = Some r /\
    ptrim q = ptrim (polyk k (p (Z.to_nat t))) /\ ptrim r = ptrim (polyk k (a (Z.to_nat t))).
Proof.
  intros k t Ht. pose proof ok as Hok. unfold set_within in Hok. rewrite forallb_forall in Hok. specialize (Hok (Z.to_nat t) ltac:(apply in_seq; lia)).
  unfold term_within in Hok. destruct (nth_error cases (Z.to_nat t)) as [tr|] eqn:E; [|discriminate]. rewrite forallb_forall in Hok.
  specialize (Hok k ltac:(destruct k; simpl; auto)). destruct (text_spec _ _ _ Hok) as (c & Ec & H). exists c. split; [|exact H].
  intros O pw x. unfold term_fun. rewrite (proj2 (vget_some _ cases t tr)) by (split; [lia|exact E]). cbn [obind]. rewrite named_eval_code, Ec. reflexivity.
Qed.

Lemma term_within_ok : forall pw k t (x : f64), (0 <= t < 30)%Z -> finite x -> Rabs (value x) <= IZR X ->
  exists y : f64, family_of l cases FOps pw k t (x : num FOps) = Ok y /\ finite y /\
    Rabs (peval (polyk k (p (Z.to_nat t))) (value x)) <= peval (polyk k (a (Z.to_nat t))) (Rabs (value x)) /\
    Rabs (value y - peval (polyk k (p (Z.to_nat t))) (value x)) <=
      (INR K + 1) * unit_roundoff * peval (polyk k (a (Z.to_nat t))) (Rabs (value x)) + IZR S * tiny.
Proof.
  intros pw k t x Ht Fx Bx. destruct (term_code k t Ht) as (c & Ec & n & m & s & An & Hn & Hs & q & r & Nq & Nr & Tq & Tr).
  destruct (analyse_ok pw X x HX Fx Bx c n m s An) as (y & q' & r' & Ey & Nq' & Nr' & Fy & W). rewrite Nq in Nq'. injection Nq' as <-. rewrite Nr in Nr'. injection Nr' as <-.
  exists y. split; [unfold family_of; destruct k; cbn [terms_of]; rewrite Ec; exact Ey|]. split; [exact Fy|].
  destruct W as (_ & _ & [S0 _] & [B _] & E). change (B2R x) with (value x) in *. change (B2R y) with (value y) in *.
  rewrite <- (peval_trim_eq _ _ (value x) Tq), <- (peval_trim_eq _ _ (Rabs (value x)) Tr). split; [exact B|].
  eapply Rle_trans; [exact E|]. pose proof u_pos as U0. pose proof eta_pos as T0.
  assert (A0 : 0 <= peval r (Rabs (value x))) by (pose proof (Rabs_pos (peval q (value x))); lra).
  apply Rplus_le_compat.
  - apply Rmult_le_compat_r; [exact A0|]. apply Rle_trans with ((1 + u) ^ K - 1); [|apply steps_linear; exact HK].
    assert ((1 + u) ^ n <= (1 + u) ^ K) by (apply pow_grow; [lra|exact Hn]). lra.
  - apply Rmult_le_compat_r; [unfold eta; apply bpow_ge_0|]. apply IZR_le. exact Hs.
Qed.

Lemma set_offers_within : forall pw d name N (b0 b : bset f64 f64) f g, (forall n x, peval (p n) x = f n x) -> (forall n x, peval (a n) x = g n x) ->
  (0 <= N)%Z -> sample_set FOps pw d name l cases N = Ok b0 -> later (d : f64) b0 b ->
  (0 <= bs_size b <= 30)%Z /\ offers_within b f g (IZR X) ((INR K + 1) * unit_roundoff) (IZR S * tiny).
Proof.
  intros pw d name N b0 b f g Hf Hg HN Hm Hl. destruct (later_history _ _ FOps pw d name N b0 b HN Hm Hl) as (_ & n & m & Hh & H30).
  destruct (stored_is_last _ _ _ _ _ Hh) as (Hs & _). pose proof (history_agrees_basis _ _ _ _ _ Hh) as (Hn & _). change (num FOps) with f64 in *.
  split; [rewrite Hs; split; [apply Hn|exact H30]|]. intros t x Ht Fx Bx F G. rewrite Hs in Ht.
  assert (Q : forall k, exists y : f64, res_outcome (bevaluate k t x b) = Ok y /\ finite y /\
    Rabs (value y - peval (polyk k (p (Z.to_nat t))) (value x)) <=
      (INR K + 1) * unit_roundoff * peval (polyk k (a (Z.to_nat t))) (Rabs (value x)) + IZR S * tiny).
  { intros k. destruct (term_within_ok pw k t x ltac:(lia) Fx Bx) as (y & Ey & Fy & _ & E). exists y. split; [|auto].
    etransitivity; [exact (single_returns d (family_of l cases FOps pw) b n m k t x Hh Ht)|exact Ey]. }
  split; [|split].
  - destruct (Q KVal) as (y & Ey & Fy & E). exists y. split; [exact Ey|]. split; [exact Fy|]. unfold F, G. rewrite <- Hf, <- Hg. exact E.
  - destruct (Q KGrad) as (y & Ey & Fy & E). eexists y, _, _. split; [exact Ey|]. split; [exact Fy|]. split; [|split; [|exact E]].
    + apply (is_derive_ext (peval (p (Z.to_nat t)))); [intros; apply Hf|]. apply pderiv_ok.
    + apply (is_derive_ext (peval (a (Z.to_nat t)))); [intros; apply Hg|]. apply pderiv_ok.
  - destruct (Q KHess) as (y & Ey & Fy & E). eexists y, _, _. split; [exact Ey|]. split; [exact Fy|]. split; [|split; [|exact E]].
    + apply (is_derive_n_ext (peval (p (Z.to_nat t)))); [intros; apply Hf|]. apply second_derivative.
    + apply (is_derive_n_ext (peval (a (Z.to_nat t)))); [intros; apply Hg|]. apply second_derivative.
Qed.
End Set_.
