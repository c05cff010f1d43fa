(** Lemmas about the outcome infrastructure. *)
From Coq Require Import ZArith List Bool Lia ZifyBool.
From Verif Require Import Model.Outcome.
Import ListNotations.
Local Open Scope Z_scope.

Lemma obind_ok : forall (A B : Type) (m : outcome A) (k : A -> outcome B) b,
  obind m k = Ok b -> exists a, m = Ok a /\ k a = Ok b.
Proof. intros A B [a| | | |] k b H; simpl in H; try discriminate. eauto. Qed.

Lemma mbind_ret : forall (S A B : Type) (m : M S A) (k : A -> M S B) s s' b,
  mbind m k s = RRet s' b -> exists s1 a, m s = RRet s1 a /\ k a s1 = RRet s' b.
Proof.
  intros S A B m k s s' b H; unfold mbind in H.
  destruct (m s) as [s1 a| | | |]; try discriminate. eauto.
Qed.

Lemma length_lset : forall (A : Type) (l : list A) n a, length (lset l n a) = length l.
Proof. induction l as [|x l IH]; intros [|n] a; simpl; auto. Qed.

Lemma nth_error_lset_same : forall (A : Type) (l : list A) n a,
  (n < length l)%nat -> nth_error (lset l n a) n = Some a.
Proof.
  induction l as [|x l IH]; intros [|n] a H; simpl in *; try lia; auto.
  apply IH; lia.
Qed.

Lemma nth_error_lset_other : forall (A : Type) (l : list A) n m a,
  n <> m -> nth_error (lset l n a) m = nth_error l m.
Proof.
  induction l as [|x l IH]; intros [|n] [|m] a H; simpl in *; auto; try congruence.
Qed.

Lemma vget_ok_iff : forall (A : Type) (l : list A) i,
  (exists a, vget l i = Ok a) <-> 0 <= i < Z.of_nat (length l).
Proof.
  intros A l i; unfold vget; split.
  - intros [a H]. destruct (0 <=? i) eqn:E; try discriminate.
    destruct (nth_error l (Z.to_nat i)) eqn:E2; try discriminate.
    assert (Z.to_nat i < length l)%nat by (apply nth_error_Some; congruence). lia.
  - intros H. replace (0 <=? i) with true by lia.
    destruct (nth_error l (Z.to_nat i)) eqn:E2; eauto.
    apply nth_error_None in E2. lia.
Qed.

Lemma vget_nat : forall (A : Type) (l : list A) n,
  vget l (Z.of_nat n) = match nth_error l n with Some a => Ok a | None => UB UBOutOfBounds end.
Proof.
  intros A l n; unfold vget. replace (0 <=? Z.of_nat n) with true by lia.
  now rewrite Nat2Z.id.
Qed.

Lemma vget_some : forall (A : Type) (l : list A) i a,
  vget l i = Ok a <-> 0 <= i /\ nth_error l (Z.to_nat i) = Some a.
Proof.
  intros A l i a; unfold vget. destruct (0 <=? i) eqn:E.
  - destruct (nth_error l (Z.to_nat i)); split; intros H; try discriminate.
    + injection H as ->. split; auto; lia.
    + destruct H as [_ H]; injection H as ->; auto.
    + destruct H; discriminate.
  - split; intros H; try discriminate. lia.
Qed.

Lemma vget_out : forall (A : Type) (l : list A) i,
  ~ (0 <= i < Z.of_nat (length l)) -> vget l i = UB UBOutOfBounds.
Proof.
  intros A l i H; unfold vget. destruct (0 <=? i) eqn:E; auto.
  destruct (nth_error l (Z.to_nat i)) eqn:E2; auto.
  assert (Z.to_nat i < length l)%nat by (apply nth_error_Some; congruence). lia.
Qed.

Lemma vset_ok : forall (A : Type) (l : list A) i a,
  0 <= i < Z.of_nat (length l) -> vset l i a = Ok (lset l (Z.to_nat i) a).
Proof.
  intros A l i a H; unfold vset.
  replace ((0 <=? i) && (i <? Z.of_nat (length l))) with true by lia. auto.
Qed.

Lemma vset_inv : forall (A : Type) (l : list A) i a l',
  vset l i a = Ok l' -> 0 <= i < Z.of_nat (length l) /\ l' = lset l (Z.to_nat i) a.
Proof.
  intros A l i a l' H; unfold vset in H.
  destruct ((0 <=? i) && (i <? Z.of_nat (length l))) eqn:E; try discriminate.
  injection H as <-. split; auto; lia.
Qed.

Lemma length_vresize : forall (A : Type) (d : A) l n, length (vresize d l n) = n.
Proof.
  intros A d l n; unfold vresize. rewrite app_length, firstn_length, repeat_length. lia.
Qed.

Lemma nth_error_repeat : forall (A : Type) (d : A) n i, (i < n)%nat -> nth_error (repeat d n) i = Some d.
Proof.
  induction n as [|n IH]; intros [|i] H; simpl; try lia; auto. apply IH; lia.
Qed.

Lemma nth_error_vresize : forall (A : Type) (d : A) l n i,
  (i < n)%nat ->
  nth_error (vresize d l n) i =
    match nth_error l i with Some a => Some a | None => Some d end.
Proof.
  intros A d l n i H; unfold vresize.
  destruct (nth_error l i) eqn:E.
  - assert (i < length l)%nat by (apply nth_error_Some; congruence).
    rewrite nth_error_app1 by (rewrite firstn_length; lia).
    rewrite <- E. clear -H.
    revert l i H; induction n as [|n IH]; intros l i H; [lia|].
    destruct l as [|x l]; destruct i as [|i]; simpl; auto. apply IH; lia.
  - apply nth_error_None in E.
    rewrite nth_error_app2 by (rewrite firstn_length; lia).
    apply nth_error_repeat. rewrite firstn_length. lia.
Qed.

Lemma cint_ok : forall z, INT_MIN <= z <= INT_MAX -> cint z = Ok z.
Proof.
  intros z H; unfold cint, in_int. replace ((INT_MIN <=? z) && (z <=? INT_MAX)) with true by lia. auto.
Qed.

Lemma cint_out : forall z, ~ (INT_MIN <= z <= INT_MAX) -> cint z = UB UBOverflow.
Proof.
  intros z H; unfold cint, in_int. replace ((INT_MIN <=? z) && (z <=? INT_MAX)) with false by lia. auto.
Qed.

Lemma cint_inv : forall z z', cint z = Ok z' -> z' = z /\ INT_MIN <= z <= INT_MAX.
Proof.
  intros z z' H; unfold cint, in_int in H.
  destruct ((INT_MIN <=? z) && (z <=? INT_MAX)) eqn:E; try discriminate.
  injection H as <-. split; auto; lia.
Qed.
