(** Basis sets: the stored results are those of the last evaluations. *)
From Coq Require Import ZArith List Bool String Lia ZifyBool.
From Verif Require Import Model.Outcome Model.BasisSet Spec.Basis Proofs.OutcomeP.
Import ListNotations.
Local Open Scope Z_scope.

Lemma length_vresize_b : forall (A : Type) (d : A) l n, List.length (vresize d l n) = n.
Proof.
  intros A d l n. unfold vresize. rewrite app_length, firstn_length, repeat_length. lia.
Qed.

Lemma nth_error_vresize : forall (A : Type) (d : A) l n t, (t < n)%nat ->
  nth_error (vresize d l n) t = match nth_error l t with Some a => Some a | None => Some d end.
Proof.
  intros A d l n t H. unfold vresize. destruct (nth_error l t) as [a|] eqn:E.
  - assert (t < List.length l)%nat by (apply nth_error_Some; congruence).
    rewrite nth_error_app1 by (rewrite firstn_length; lia).
    rewrite <- E. revert n H. clear. revert t. induction l as [|x l IH]; intros [|t] [|n] H; simpl; auto; try lia.
    apply IH; lia.
  - apply nth_error_None in E. rewrite nth_error_app2 by (rewrite firstn_length; lia).
    rewrite firstn_length. rewrite nth_error_repeat; auto. lia.
Qed.

Lemma nth_error_inj : forall (A : Type) (l l' : list A), (forall t, nth_error l t = nth_error l' t) -> l = l'.
Proof.
  induction l as [|x l IH]; intros [|y l'] H; auto.
  - specialize (H 0%nat). discriminate.
  - specialize (H 0%nat). discriminate.
  - pose proof (H 0%nat) as H0. simpl in H0. injection H0 as ->. f_equal. apply IH. intros t. apply (H (S t)).
Qed.

Section Basis.
Context {X A : Type}.
Implicit Types (b : bset X A) (F : terms X A).

Definition cache b (k : kind) : list A := match k with KVal => bs_val b | KGrad => bs_gval b | KHess => bs_hval b end.
Definition set_cache b (k : kind) (l : list A) : bset X A :=
  match k with
  | KVal => bs_store b l (bs_gval b) (bs_hval b)
  | KGrad => bs_store b (bs_val b) l (bs_hval b)
  | KHess => bs_store b (bs_val b) (bs_gval b) l
  end.
Definition fun_of b : terms X A := terms_of (bs_fun b) (bs_dfun b) (bs_ddfun b).

Lemma cache_set_same : forall b k l, cache (set_cache b k l) k = l.
Proof. intros b []; reflexivity. Qed.
Lemma cache_set_other : forall b k k' l, k' <> k -> cache (set_cache b k l) k' = cache b k'.
Proof. intros b [] [] l H; try reflexivity; congruence. Qed.
Lemma fun_of_set : forall b k l, fun_of (set_cache b k l) = fun_of b.
Proof. intros b []; reflexivity. Qed.
Lemma set_cache_twice : forall b k l l', set_cache (set_cache b k l) k l' = set_cache b k l'.
Proof. intros b [] l l'; reflexivity. Qed.
Lemma set_cache_self : forall b k, set_cache b k (cache b k) = b.
Proof. intros [] []; reflexivity. Qed.
Lemma limit_set : forall b k l, bs_limit (set_cache b k l) = bs_limit b.
Proof. intros b []; reflexivity. Qed.
Lemma bstored_cache : forall b k t, bstored b k t = vget (cache b k) t.
Proof. intros b [] t; reflexivity. Qed.

Lemma bevaluate_eq : forall b k t x,
  bevaluate k t x b =
  match fun_of b k t x with
  | Ok a => match vset (cache b k) t a with
            | Ok l => RRet (set_cache b k l) a
            | Throw e => RThrow b e
            | Exit => RExit
            | UB r => RUB r
            | NoFuel => RNoFuel
            end
  | Throw e => RThrow b e
  | Exit => RExit
  | UB r => RUB r
  | NoFuel => RNoFuel
  end.
Proof.
  intros b [] t x; unfold bevaluate, bs_call, bs_call_grad, bs_call_hess, mbind, mget, mlift, mput, mret, fun_of; simpl;
    [destruct (bs_fun b t x)|destruct (bs_dfun b t x)|destruct (bs_ddfun b t x)]; simpl; auto;
    [destruct (vset (bs_val b) t a)|destruct (vset (bs_gval b) t a)|destruct (vset (bs_hval b) t a)]; simpl; auto.
Qed.

Lemma bevaluate_all_eq : forall b k x,
  bevaluate_all k x b =
  match mfor (zseq (bs_size b)) (fun i => bevaluate k i x ;;; mret tt) b with
  | RRet b' _ => RRet b' (cache b' k)
  | RThrow b' e => RThrow b' e
  | RExit => RExit
  | RUB r => RUB r
  | RNoFuel => RNoFuel
  end.
Proof. intros b [] x; reflexivity. Qed.

(** Terms i..t all return. *)
Definition ok_from F (k : kind) (x : X) (i t : nat) : bool :=
  forallb (fun u => match F k (Z.of_nat u) x with Ok _ => true | _ => false end) (seq i (S t - i)).

Lemma ok_from_step : forall F k x i t, (i < t)%nat ->
  ok_from F k x i t = (match F k (Z.of_nat i) x with Ok _ => true | _ => false end) && ok_from F k x (S i) t.
Proof.
  intros F k x i t H. unfold ok_from. replace (S t - i)%nat with (S (S t - S i)) by lia. reflexivity.
Qed.

Lemma ok_from_one : forall F k x i, ok_from F k x i i = match F k (Z.of_nat i) x with Ok _ => true | _ => false end.
Proof.
  intros F k x i. unfold ok_from. replace (S i - i)%nat with 1%nat by lia. simpl. now rewrite andb_true_r.
Qed.

(** The effect of evaluating terms i, ..., i+m-1 in turn. *)
Definition swept F (k : kind) (x : X) (i m : nat) (l l' : list A) : Prop :=
  List.length l' = List.length l /\
  forall t, nth_error l' t =
    if (i <=? t)%nat && (t <? i + m)%nat && ok_from F k x i t
    then match F k (Z.of_nat t) x with Ok a => Some a | _ => nth_error l t end
    else nth_error l t.

Lemma sweep : forall k x m i b, (i + m <= List.length (cache b k))%nat ->
  match mfor (map Z.of_nat (seq i m)) (fun i => bevaluate k i x ;;; mret tt) b with
  | RRet b' _ => (exists l, b' = set_cache b k l /\ swept (fun_of b) k x i m (cache b k) l) /\
                 (forall t, (i <= t < i + m)%nat -> exists a, fun_of b k (Z.of_nat t) x = Ok a)
  | RThrow b' _ => exists l, b' = set_cache b k l /\ swept (fun_of b) k x i m (cache b k) l
  | _ => True
  end.
Proof.
  intros k x m. induction m as [|m IH]; intros i b Hlen.
  - simpl. split; [|intros; lia]. exists (cache b k). rewrite set_cache_self. split; auto. split; auto.
    intros t. replace ((i <=? t)%nat && (t <? i + 0)%nat) with false by lia. reflexivity.
  - simpl seq. simpl map. simpl mfor. unfold mbind at 1. unfold mbind at 1. rewrite bevaluate_eq.
    destruct (fun_of b k (Z.of_nat i) x) as [a|e| | |] eqn:Ef; simpl; auto.
    + unfold vset at 1. replace ((0 <=? Z.of_nat i) && (Z.of_nat i <? Z.of_nat (List.length (cache b k)))) with true by lia.
      rewrite Nat2Z.id. simpl. set (b1 := set_cache b k (lset (cache b k) i a)).
      assert (Hc : cache b1 k = lset (cache b k) i a) by apply cache_set_same.
      assert (Hl1 : (S i + m <= List.length (cache b1 k))%nat) by (rewrite Hc, length_lset; lia).
      specialize (IH (S i) b1 Hl1).
      assert (Hf : fun_of b1 = fun_of b) by apply fun_of_set.
      assert (Hswept : forall l, swept (fun_of b1) k x (S i) m (cache b1 k) l ->
                                 swept (fun_of b) k x i (S m) (cache b k) l).
      { intros l (Hll & Hn). rewrite Hc, length_lset in Hll. split; auto. intros t. rewrite Hn, Hc, Hf.
        destruct (Nat.eq_dec t i) as [->|Hti].
        - replace ((S i <=? i)%nat) with false by lia. simpl.
          replace ((i <=? i)%nat && (i <? i + S m)%nat) with true by lia. rewrite ok_from_one, Ef. simpl.
          apply nth_error_lset_same. lia.
        - rewrite nth_error_lset_other by lia. replace (S i + m)%nat with (i + S m)%nat by lia.
          destruct (i <=? t)%nat eqn:E1.
          + rewrite (ok_from_step (fun_of b) k x i t) by lia. rewrite Ef.
            replace (S i <=? t)%nat with true by lia. reflexivity.
          + replace (S i <=? t)%nat with false by lia. reflexivity. }
      unfold mret at 1.
      match goal with
      | IH : match ?r with _ => _ end |- match ?r' with _ => _ end => change r' with r; destruct r as [b'|b' e| | |]; auto
      end.
      * destruct IH as [(l & -> & Hs) Hall]. split.
        -- exists l. split; [apply set_cache_twice|apply Hswept; exact Hs].
        -- intros t Ht. destruct (Nat.eq_dec t i) as [->|Hti]; [eauto|]. rewrite <- Hf. apply Hall. lia.
      * destruct IH as (l & -> & Hs). exists l. split; [apply set_cache_twice|apply Hswept; exact Hs].
    + exists (cache b k). rewrite set_cache_self. split; auto. split; auto. intros t.
      destruct ((i <=? t)%nat && (t <? i + S m)%nat) eqn:E; auto.
      replace (ok_from (fun_of b) k x i t) with false; auto.
      destruct (Nat.eq_dec t i) as [->|Hti].
      * now rewrite ok_from_one, Ef.
      * rewrite ok_from_step by lia. now rewrite Ef.
Qed.

(** What the object of a history looks like. *)
Definition agrees (d : A) F b (n : Z) (m : bmemory A) : Prop :=
  0 <= n < size_too_big /\
  (forall k t x, fun_of b k t x = F k t x) /\
  (forall k, List.length (cache b k) = Z.to_nat n) /\
  (forall k t, 0 <= t < n -> vget (cache b k) t = Ok (match m k t with Some a => a | None => d end)) /\
  (forall k t, ~ 0 <= t < n -> m k t = None).

Lemma agrees_set_cache : forall d F b n m m' k l,
  agrees d F b n m -> List.length l = Z.to_nat n ->
  (forall k' t, k' <> k -> m' k' t = m k' t) ->
  (forall t, 0 <= t < n -> vget l t = Ok (match m' k t with Some a => a | None => d end)) ->
  (forall t, ~ 0 <= t < n -> m' k t = None) ->
  agrees d F (set_cache b k l) n m'.
Proof.
  intros d F b n m m' k l (Hn & Hf & Hlen & Hst & Hout) Hl Ho Hv Hno. split; auto.
  split; [|split; [|split]].
  - intros. rewrite fun_of_set. apply Hf.
  - intros k'. destruct (kind_eq_dec k' k) as [->|Hk]; [now rewrite cache_set_same|rewrite cache_set_other by auto; auto].
  - intros k' t Ht. destruct (kind_eq_dec k' k) as [->|Hk].
    + rewrite cache_set_same. auto.
    + rewrite cache_set_other by auto. rewrite Ho by auto. auto.
  - intros k' t Ht. destruct (kind_eq_dec k' k) as [->|Hk]; auto. rewrite Ho; auto.
Qed.

Lemma bs_size_cache : forall b n, List.length (cache b KVal) = Z.to_nat n -> 0 <= n -> bs_size b = n.
Proof. intros b n H Hn. unfold bs_size. simpl in H. rewrite H. lia. Qed.

Lemma agrees_make : forall d F name limit f df ddf n b,
  (forall k t x, F k t x = terms_of f df ddf k t x) -> 0 <= n ->
  bs_make d name limit f df ddf n = Ok b -> agrees d F b n nothing.
Proof.
  intros d F name limit f df ddf n b HF Hn H. unfold bs_make, bs_resize, mbind, mget in H. simpl in H.
  destruct (size_too_big <=? n) eqn:E; [discriminate|].
  destruct (match limit with Some l => l <? n | None => false end); [discriminate|].
  simpl in H. injection H as <-.
  split; [lia|]. split; [|split; [|split; auto]].
  - intros. symmetry. apply HF.
  - intros []; simpl; apply length_vresize_b.
  - intros k t Ht. simpl.
    assert (Hr : vget (vresize d [] (Z.to_nat n)) t = Ok d).
    { apply vget_some. split; [lia|]. rewrite nth_error_vresize by lia. now destruct (Z.to_nat t). }
    destruct k; exact Hr.
Qed.

Lemma agrees_resize : forall d F b n m n' b',
  agrees d F b n m -> 0 <= n' -> bs_resize d n' b = RRet b' tt ->
  agrees d F b' n' (brecall F n m (BResize n')).
Proof.
  intros d F b n m n' b' (Hn & Hf & Hlen & Hst & Hout) Hn' H. unfold bs_resize, mbind, mget in H.
  destruct (match bs_limit b with Some l => l <? n' | None => false end); [discriminate|].
  destruct (size_too_big <=? n') eqn:E; [discriminate|]. unfold mput in H. injection H as <-.
  split; [lia|]. split; [|split; [|split]].
  - intros. apply Hf.
  - intros []; simpl; apply length_vresize_b.
  - intros k t Ht. unfold brecall. replace ((0 <=? t) && (t <? n')) with true by lia.
    assert (Hc : cache (bs_store b (vresize d (bs_val b) (Z.to_nat n')) (vresize d (bs_gval b) (Z.to_nat n'))
                          (vresize d (bs_hval b) (Z.to_nat n'))) k = vresize d (cache b k) (Z.to_nat n')) by (destruct k; reflexivity).
    rewrite Hc. apply vget_some. split; [lia|]. rewrite nth_error_vresize by lia.
    destruct (Z_lt_dec t n) as [Hlt|Hge].
    + specialize (Hst k t ltac:(lia)). apply vget_some in Hst. destruct Hst as [_ ->]. reflexivity.
    + rewrite (Hout k t) by lia. replace (nth_error (cache b k) (Z.to_nat t)) with (@None A); auto.
      symmetry. apply nth_error_None. rewrite Hlen. lia.
  - intros k t Ht. unfold brecall. replace ((0 <=? t) && (t <? n')) with false by lia. reflexivity.
Qed.

Lemma returns_ok_from : forall F k x t, 0 <= t -> returns_upto F k x t = ok_from F k x 0 (Z.to_nat t).
Proof. intros. unfold returns_upto, ok_from. rewrite Nat.sub_0_r. reflexivity. Qed.

Lemma swept_agrees : forall d F b n m k x l,
  agrees d F b n m -> swept (fun_of b) k x 0 (Z.to_nat n) (cache b k) l ->
  agrees d F (set_cache b k l) n (brecall F n m (BAll k x)).
Proof.
  intros d F b n m k x l Hag (Hll & Hs). pose proof Hag as (Hn & Hf & Hlen & Hst & Hout).
  assert (Hof : forall t, ok_from (fun_of b) k x 0 t = ok_from F k x 0 t).
  { intros t. unfold ok_from. induction (seq 0 (S t - 0)) as [|u s IH]; simpl; auto.
    rewrite Hf, IH. reflexivity. }
  apply agrees_set_cache with (m := m); auto.
  - now rewrite Hll.
  - intros k' t Hk. unfold brecall. destruct (kind_eq_dec k' k); congruence.
  - intros t Ht. apply vget_some. split; [lia|]. rewrite Hs. unfold brecall. rewrite Hof, Z2Nat.id, Hf by lia.
    destruct (kind_eq_dec k k); [|congruence].
    replace ((0 <=? t) && (t <? n)) with true by lia.
    replace ((0 <=? Z.to_nat t)%nat && (Z.to_nat t <? 0 + Z.to_nat n)%nat) with true by lia. rewrite !andb_true_l.
    rewrite returns_ok_from by lia.
    specialize (Hst k t Ht). apply vget_some in Hst. destruct Hst as [_ Hst].
    destruct (ok_from F k x 0 (Z.to_nat t)); [|exact Hst]. destruct (F k t x); auto.
  - intros t Ht. unfold brecall. destruct (kind_eq_dec k k); [|congruence].
    replace ((0 <=? t) && (t <? n)) with false by lia. simpl. auto.
Qed.

Lemma agrees_run : forall d F b n m c b',
  agrees d F b n m -> (forall n', c = BResize n' -> 0 <= n') ->
  (brun d c b = RRet b' tt -> agrees d F b' (match c with BResize n' => n' | _ => n end) (brecall F n m c)) /\
  (forall e, brun d c b = RThrow b' e -> agrees d F b' n (match c with BResize _ => m | _ => brecall F n m c end)).
Proof.
  intros d F b n m c b' Hag Hc. pose proof Hag as (Hn & Hf & Hlen & Hst & Hout).
  destruct c as [k t x|k x|n'].
  - simpl. unfold mbind, mret. rewrite bevaluate_eq.
    assert (Hsame : forall b1, (forall a, F k t x <> Ok a) -> b1 = b -> agrees d F b1 n (brecall F n m (BOne k t x))).
    { intros b1 Hne ->. split; auto. split; auto. split; auto.
      assert (Heq : forall k' t', brecall F n m (BOne k t x) k' t' = m k' t').
      { intros k' t'. unfold brecall. destruct (kind_eq_dec k' k); auto. destruct (t' =? t); auto.
        destruct (F k t x) eqn:E; auto. exfalso. eapply Hne; eauto. }
      split; intros k' t' Ht; rewrite Heq; auto. }
    rewrite Hf. destruct (F k t x) as [a|e| | |] eqn:Ef.
    + unfold vset. destruct ((0 <=? t) && (t <? Z.of_nat (List.length (cache b k)))) eqn:Eb; [|split; intros; discriminate].
      split; [|intros; discriminate]. intros H. injection H as <-.
      rewrite Hlen in Eb. apply agrees_set_cache with (m := m); auto.
      * now rewrite length_lset.
      * intros k' t' Hk. unfold brecall. destruct (kind_eq_dec k' k); congruence.
      * intros t' Ht'. unfold brecall. destruct (kind_eq_dec k k); [|congruence]. apply vget_some. split; [lia|].
        destruct (t' =? t) eqn:Et.
        -- apply Z.eqb_eq in Et as ->. rewrite Ef. apply nth_error_lset_same. rewrite Hlen. lia.
        -- apply Z.eqb_neq in Et. rewrite nth_error_lset_other by lia.
           specialize (Hst k t' Ht'). apply vget_some in Hst. tauto.
      * intros t' Ht'. unfold brecall. destruct (kind_eq_dec k k); [|congruence].
        destruct (t' =? t) eqn:Et; auto. lia.
    + split; [intros; discriminate|]. intros e' H. injection H as <- <-. apply Hsame; auto. congruence.
    + split; intros; discriminate.
    + split; intros; discriminate.
    + split; intros; discriminate.
  - simpl brun. unfold mbind, mret. rewrite bevaluate_all_eq.
    rewrite (bs_size_cache b n) by (auto; lia). unfold zseq.
    pose proof (sweep k x (Z.to_nat n) 0 b) as Hsw. rewrite Hlen in Hsw. specialize (Hsw ltac:(lia)).
    match goal with
    | H : match ?r with _ => _ end |- _ => destruct r as [b1|b1 e1| | |]
    end; try (split; intros; discriminate).
    + split; [|intros; discriminate]. intros H. simpl in H. injection H as <-. destruct Hsw as [(l & -> & Hs) _].
      now apply swept_agrees.
    + split; [intros; discriminate|]. intros e H. simpl in H. injection H as <- <-. destruct Hsw as (l & -> & Hs).
      now apply swept_agrees.
  - split.
    + intros H. apply agrees_resize with (b := b); auto.
    + intros e H. simpl in H. unfold bs_resize, mbind, mget in H.
      destruct (match bs_limit b with Some l => l <? n' | None => false end); [discriminate|].
      destruct (size_too_big <=? n'); [|discriminate]. unfold mlift in H. injection H as <- _. exact Hag.
Qed.

Lemma history_agrees_basis : forall d F b n m, bhistory d F b n m -> agrees d F b n m.
Proof.
  intros d F b n m H. induction H as [name limit f df ddf n b HF Hn Hm|b n m c b' H IH Hc Hr|b n m c b' e H IH Hc Hr].
  - eapply agrees_make; eauto.
  - apply (proj1 (agrees_run d F b n m c b' IH Hc)). exact Hr.
  - apply (proj2 (agrees_run d F b n m c b' IH Hc) e). exact Hr.
Qed.

Lemma stored_is_last : forall d F b n m, bhistory d F b n m ->
  bs_size b = n /\
  (forall k t, 0 <= t < n -> bstored b k t = Ok (match m k t with Some a => a | None => d end)) /\
  (forall k t, ~ 0 <= t < n -> bstored b k t = UB UBOutOfBounds).
Proof.
  intros d F b n m H. apply history_agrees_basis in H. destruct H as (Hn & Hf & Hlen & Hst & Hout).
  split; [apply bs_size_cache; [apply Hlen|lia]|]. split; intros k t Ht; rewrite bstored_cache.
  - auto.
  - apply vget_out. rewrite Hlen. lia.
Qed.

(** The same through the wrapper, whose terms are ints. *)
Lemma wrapper_reads_the_same : forall d F b n m k t, bhistory d F b n m -> - 2 ^ 31 <= t < 2 ^ 31 ->
  pbstored (Some b) k t = bstored b k t.
Proof.
  intros d F b n m k t H Ht. pose proof (history_agrees_basis _ _ _ _ _ H) as (Hn & Hf & Hlen & Hst & Hout).
  assert (Hp : pbstored (Some b) k t = vget (cache b k) (int_to_size t)) by (destruct k; reflexivity).
  rewrite Hp, bstored_cache. unfold int_to_size. unfold size_too_big in Hn.
  destruct (Z_lt_dec t 0) as [Hneg|Hpos].
  - replace (t mod 2 ^ 64) with (t + 2 ^ 64).
    + rewrite !vget_out; auto; rewrite Hlen; lia.
    + apply Zmod_unique with (-1); lia.
  - rewrite Z.mod_small by lia. reflexivity.
Qed.

(** What the evaluations return. *)
Lemma single_returns : forall d F b n m k t x, bhistory d F b n m -> 0 <= t < n ->
  res_outcome (bevaluate k t x b) = F k t x.
Proof.
  intros d F b n m k t x H Ht. apply history_agrees_basis in H. destruct H as (Hn & Hf & Hlen & Hst & Hout).
  rewrite bevaluate_eq, Hf. destruct (F k t x) as [a|e| | |]; auto.
  unfold vset. rewrite Hlen. replace ((0 <=? t) && (t <? Z.of_nat (Z.to_nat n))) with true by lia. reflexivity.
Qed.

Lemma all_return_gen : forall b n k x g, 0 <= n ->
  (forall k, List.length (cache b k) = Z.to_nat n) ->
  (forall t, 0 <= t < n -> fun_of b k t x = Ok (g t)) ->
  bevaluate_all k x b = RRet (set_cache b k (map g (zseq n))) (map g (zseq n)).
Proof.
  intros b n k x g Hn Hlen Hg.
  rewrite bevaluate_all_eq, (bs_size_cache b n) by (auto; lia). unfold zseq at 1.
  assert (Hl : forall m i b, (i + m <= List.length (cache b k))%nat ->
     (forall t, (i <= t < i + m)%nat -> fun_of b k (Z.of_nat t) x = Ok (g (Z.of_nat t))) ->
     exists b' , mfor (map Z.of_nat (seq i m)) (fun i => bevaluate k i x ;;; mret tt) b = RRet b' tt).
  { clear. induction m as [|m IH]; intros i b Hlen Hg; [simpl; unfold mret; eauto|].
    simpl seq. simpl map. simpl mfor. unfold mbind at 1. unfold mbind at 1. rewrite bevaluate_eq, Hg by lia.
    unfold vset. replace ((0 <=? Z.of_nat i) && (Z.of_nat i <? Z.of_nat (List.length (cache b k)))) with true by lia.
    unfold mret at 1. apply IH.
    - rewrite cache_set_same, length_lset. lia.
    - intros t Ht. rewrite fun_of_set. apply Hg. lia. }
  destruct (Hl (Z.to_nat n) 0%nat b) as (b' & Hb').
  - rewrite Hlen. lia.
  - intros t Ht. apply Hg. lia.
  - rewrite Hb'. pose proof (sweep k x (Z.to_nat n) 0 b) as Hsw. rewrite Hlen in Hsw. specialize (Hsw ltac:(lia)).
    rewrite Hb' in Hsw. destruct Hsw as [(l & -> & Hll & Hs) Hok]. rewrite cache_set_same.
    assert (Hoks : forall t, (t < Z.to_nat n)%nat -> ok_from (fun_of b) k x 0 t = true).
    { intros t Ht. unfold ok_from. apply forallb_forall. intros u Hu. apply in_seq in Hu.
      destruct (Hok u) as (a & ->); [lia|reflexivity]. }
    assert (Hnth : forall t, (t < Z.to_nat n)%nat -> nth_error l t = Some (g (Z.of_nat t))).
    { intros t Ht. rewrite Hs. rewrite Hoks by auto. replace ((0 <=? t)%nat && (t <? 0 + Z.to_nat n)%nat) with true by lia.
      simpl. rewrite Hg by lia. reflexivity. }
    assert (Heq : l = map g (zseq n)).
    { apply nth_error_inj. intros t. destruct (le_lt_dec (Z.to_nat n) t) as [Hge|Hlt].
      * rewrite !(proj2 (nth_error_None _ _)); auto.
        -- unfold zseq. rewrite !map_length, seq_length. auto.
        -- rewrite Hll, Hlen. auto.
      * rewrite Hnth by auto. unfold zseq. rewrite map_map. symmetry. apply map_nth_error with (f := fun u => g (Z.of_nat u)).
        rewrite nth_error_nth' with (d := 0%nat) by (rewrite seq_length; auto). now rewrite seq_nth. }
    now rewrite Heq.
Qed.

Lemma vget_tab : forall (g : Z -> A) n t, 0 <= t < n -> vget (map g (zseq n)) t = Ok (g t).
Proof.
  intros g n t Ht. apply vget_some. split; [lia|]. unfold zseq. rewrite map_map.
  rewrite <- (Z2Nat.id t) at 2 by lia. apply map_nth_error with (f := fun u => g (Z.of_nat u)).
  rewrite nth_error_nth' with (d := 0%nat) by (rewrite seq_length; lia). rewrite seq_nth by lia. reflexivity.
Qed.

Lemma all_return : forall d F b n m k x g, bhistory d F b n m ->
  (forall t, 0 <= t < n -> F k t x = Ok (g t)) ->
  exists b', bevaluate_all k x b = RRet b' (map g (zseq n)) /\
    (forall t, 0 <= t < n -> bstored b' k t = Ok (g t)).
Proof.
  intros d F b n m k x g H Hg. apply history_agrees_basis in H. destruct H as (Hn & Hf & Hlen & Hst & Hout).
  exists (set_cache b k (map g (zseq n))). split.
  - apply all_return_gen; auto; [lia|]. intros t Ht. rewrite Hf. auto.
  - intros t Ht. rewrite bstored_cache, cache_set_same. now apply vget_tab.
Qed.

End Basis.

(** ** Sizes through the wrapper *)

Lemma size_to_int_small : forall n, 0 <= n < 2 ^ 31 -> size_to_int n = n.
Proof. intros n H. unfold size_to_int. rewrite Z.mod_small by lia. replace (n <? 2 ^ 31) with true by lia. reflexivity. Qed.

Lemma wrapper_sizes : forall (X A : Type) (d : A) (F : terms X A) b n m, bhistory d F b n m ->
  (n < 2 ^ 31 -> pb_size (Some b) = Ok n) /\
  (forall l, bs_limit b = Some l -> 0 <= l < 2 ^ 31 -> pb_max_size (Some b) = Ok l) /\
  (bs_limit b = None -> pb_max_size (Some b) = Ok (-1)).
Proof.
  intros X A d F b n m H. destruct (stored_is_last _ _ _ _ _ H) as (Hs & _). destruct (history_agrees_basis _ _ _ _ _ H) as (Hn & _).
  split; [|split].
  - intros Hi. unfold pb_size, of_ptr. rewrite Hs, size_to_int_small by lia. reflexivity.
  - intros l Hl Hi. unfold pb_max_size, of_ptr, bs_max_size. rewrite Hl, size_to_int_small by lia. reflexivity.
  - intros Hl. unfold pb_max_size, of_ptr, bs_max_size. rewrite Hl. reflexivity.
Qed.

Lemma wrapper_resize : forall (X A : Type) (d : A) (F : terms X A) b n m N, bhistory d F b n m -> - 2 ^ 31 <= N < 2 ^ 31 ->
  (0 <= N -> (forall l, bs_limit b = Some l -> N <= l) ->
     exists b', pb_resize d N (Some b) = RRet (Some b') tt /\ bhistory d F b' N (brecall F n m (BResize N))) /\
  (forall l, bs_limit b = Some l -> 0 <= l < 2 ^ 63 -> l < N \/ N < 0 -> pb_resize d N (Some b) = RExit) /\
  (bs_limit b = None -> N < 0 -> pb_resize d N (Some b) = RThrow (Some b) LengthError).
Proof.
  intros X A d F b n m N H HN. unfold pb_resize, on_ptr, int_to_size. split; [|split].
  - intros H0 Hl. rewrite Z.mod_small by lia.
    assert (E : exists b', bs_resize d N b = RRet b' tt).
    { unfold bs_resize, mget, mbind. cbv zeta. destruct (bs_limit b) as [l|] eqn:El.
      - specialize (Hl l eq_refl). replace (l <? N) with false by lia. unfold size_too_big. replace (2 ^ 63 <=? N) with false by lia. eexists. reflexivity.
      - unfold size_too_big. replace (2 ^ 63 <=? N) with false by lia. eexists. reflexivity. }
    destruct E as (b' & E). exists b'. rewrite E. split; [reflexivity|]. apply (BRet d F b n m (BResize N) b' H); [|exact E]. intros n' En. injection En as <-. exact H0.
  - intros l El Hl Hc. unfold bs_resize, mget, mbind. cbv zeta. rewrite El.
    assert (L : (l <? N mod 2 ^ 64) = true).
    { destruct (Z_lt_dec N 0); [replace (N mod 2 ^ 64) with (N + 2 ^ 64) by (apply Zmod_unique with (-1); lia); lia|rewrite Z.mod_small by lia; lia]. }
    rewrite L. reflexivity.
  - intros El Hc. unfold bs_resize, mget, mbind. cbv zeta. rewrite El. replace (N mod 2 ^ 64) with (N + 2 ^ 64) by (apply Zmod_unique with (-1); lia).
    unfold size_too_big. replace (2 ^ 63 <=? N + 2 ^ 64) with true by lia. reflexivity.
Qed.

(** ** The base class *)
Lemma base_class_exits : forall (X A : Type) (d : A) name n, 0 <= n < 2 ^ 63 ->
  exists b : bset X A, bs_make d name None bs_undefined bs_undefined bs_undefined n = Ok b /\ bs_size b = n /\
    (forall k t x, bevaluate k t x b = RExit) /\ (forall k x, 0 < n -> bevaluate_all k x b = RExit) /\ (forall k x, n = 0 -> bevaluate_all k x b = RRet b []).
Proof.
  intros X A d name n Hn. unfold bs_make, bs_resize, mget, mbind, mput. cbv zeta. cbn [bs_limit]. unfold size_too_big. replace (2 ^ 63 <=? n) with false by lia. eexists. split; [reflexivity|].
  match goal with |- bs_size ?b0 = _ /\ _ => set (b := b0) end.
  assert (L : bs_size b = n) by (unfold b, bs_size, bs_store; cbn [bs_val]; rewrite length_vresize_b; lia).
  split; [exact L|]. split; [intros k t x; destruct k; reflexivity|].
  split; intros k x H.
  - destruct k; unfold bevaluate_all, bs_eval, bs_eval_grad, bs_eval_hess, mbind, mget; rewrite L; unfold zseq; destruct (Z.to_nat n) as [|j] eqn:E; try lia; reflexivity.
  - unfold b. rewrite H. destruct k; reflexivity.
Qed.
