(** Ownership proofs for the wrappers. *)
From Coq Require Import ZArith List Bool Lia Arith.
From Verif Require Import Model.Outcome Model.Wrapper Spec.Ownership Proofs.OutcomeP.
Import ListNotations.

Lemma nth_lset : forall (A : Type) (l : list A) n m a,
  nth_error (lset l n a) m = if Nat.eqb n m then match nth_error l m with Some _ => Some a | None => None end else nth_error l m.
Proof.
  induction l as [|x l IH]; intros n m a.
  - cbn. destruct m; cbn; destruct (Nat.eqb n _); reflexivity.
  - destruct n as [|n], m as [|m]; cbn; try reflexivity. apply IH.
Qed.
Lemma nth_snoc : forall (A : Type) (l : list A) a m,
  nth_error (l ++ [a]) m = if Nat.eqb m (length l) then Some a else nth_error l m.
Proof.
  induction l as [|x l IH]; intros a m.
  - destruct m as [|m]; [reflexivity|]. cbn. destruct m; reflexivity.
  - destruct m as [|m]; [reflexivity|]. cbn. apply IH.
Qed.
Lemma lset_twice : forall (A : Type) (l : list A) n a b, lset (lset l n a) n b = lset l n b.
Proof. induction l as [|x l IH]; intros [|n] a b; cbn; try reflexivity. f_equal. apply IH. Qed.
Lemma nth_len : forall (A : Type) (l : list A) n a, nth_error l n = Some a -> n < length l.
Proof. intros A l n a H. apply nth_error_Some. congruence. Qed.

Section P.
Context {T B : Type} (clone : T -> outcome T).
Notation wstate := (wstate T).
Notation values := (values T).

Ltac cases := repeat (first
  [ rewrite nth_lset in * | rewrite nth_snoc in * ]);
  repeat match goal with
  | |- context [Nat.eqb ?a ?b] => destruct (Nat.eqb_spec a b); subst
  | H : context [Nat.eqb ?a ?b] |- _ => destruct (Nat.eqb_spec a b); subst
  end.

(** A wrapper's contents in the two views. *)
Lemma slot_of : forall (s : wstate) (v : values) i x, represents s v -> holds v i (Some x) ->
  exists a, nth_error (w_ptr s) i = Some (Some (Some a)) /\ nth_error (w_heap s) a = Some (Some x).
Proof.
  intros s v i x R H. assert (S := rep_slots _ _ R i). unfold holds in H. rewrite H in S.
  destruct (nth_error (w_ptr s) i) as [[[a|]|]|] eqn:E; try contradiction. exists a. split; auto.
  apply (rep_value _ _ R (Wrapper i) a x); auto.
Qed.
Lemma slot_empty : forall (s : wstate) (v : values) i, represents s v -> holds v i None -> nth_error (w_ptr s) i = Some (Some None).
Proof.
  intros s v i R H. assert (S := rep_slots _ _ R i). unfold holds in H. rewrite H in S.
  destruct (nth_error (w_ptr s) i) as [[[a|]|]|] eqn:E; try contradiction. reflexivity.
Qed.

(** ** Elementary changes *)
Lemma rep_clear : forall (s : wstate) (v : values) i a x, represents s v -> holds v i (Some x) -> nth_error (w_ptr s) i = Some (Some (Some a)) ->
  represents (mkW (lset (w_heap s) a None) (lset (w_ptr s) i (Some None)) (w_raw s)) (with_wr v i (Some None)).
Proof.
  intros s v i a x R Hv Hp. destruct R as [R1 R2 R3 R4 R5].
  assert (Hown : forall o b, owns (mkW (lset (w_heap s) a None) (lset (w_ptr s) i (Some None)) (w_raw s)) (with_wr v i (Some None)) o b ->
    owns s v o b /\ o <> Wrapper i).
  { intros [k|k] b; cbn [owns w_ptr w_raw with_wr v_raw]; [|intros H; split; [exact H|discriminate]].
    rewrite nth_lset. destruct (Nat.eqb_spec i k) as [->|Hn]; [rewrite Hp; discriminate|]. intros H. split; [exact H|congruence]. }
  constructor; cbn [w_ptr w_heap w_raw with_wr v_wr v_raw]; auto.
  - intros k. rewrite !nth_lset. destruct (Nat.eqb_spec i k) as [->|Hn]; [|apply R1]. rewrite Hp. unfold holds in Hv. rewrite Hv. exact I.
  - intros o b y Ho Hy. destruct (Hown _ _ Ho) as [Ho' Hne]. rewrite nth_lset. destruct (Nat.eqb_spec a b) as [->|Hn].
    + exfalso. apply Hne. apply (R4 o (Wrapper i) b); auto.
    + apply (R3 o b y); auto. destruct o as [k|k]; auto. cbn in Hy |- *. unfold holds in *. cbn in Hy. rewrite nth_lset in Hy.
      destruct (Nat.eqb_spec i k) as [->|Hk]; [congruence|exact Hy].
  - intros o o' b Ho Ho'. apply (R4 o o' b); [apply Hown in Ho|apply Hown in Ho']; tauto.
  - intros b y Hb. rewrite nth_lset in Hb. destruct (Nat.eqb_spec a b) as [->|Hn]; [destruct (nth_error (w_heap s) b); discriminate|].
    destruct (R5 b y Hb) as ([k|k] & Ho); [|exists (Client k); exact Ho]. exists (Wrapper k). cbn in Ho |- *. rewrite nth_lset.
    destruct (Nat.eqb_spec i k) as [->|Hk]; [congruence|exact Ho].
Qed.

Lemma rep_kill : forall (s : wstate) (v : values) i, represents s v -> holds v i None ->
  represents (mkW (w_heap s) (lset (w_ptr s) i None) (w_raw s)) (with_wr v i None).
Proof.
  intros s v i R Hv. assert (Hp := slot_empty _ _ _ R Hv). destruct R as [R1 R2 R3 R4 R5].
  assert (Hown : forall o b, owns (mkW (w_heap s) (lset (w_ptr s) i None) (w_raw s)) (with_wr v i None) o b <-> owns s v o b).
  { intros [k|k] b; cbn [owns w_ptr w_raw with_wr v_raw]; [|tauto].
    rewrite nth_lset. destruct (Nat.eqb_spec i k) as [->|Hn]; [rewrite Hp; split; discriminate|tauto]. }
  constructor; cbn [w_ptr w_heap w_raw with_wr v_wr v_raw]; auto.
  - intros k. rewrite !nth_lset. destruct (Nat.eqb_spec i k) as [->|Hn]; [|apply R1]. rewrite Hp. unfold holds in Hv. rewrite Hv. exact I.
  - intros o b y Ho Hy. apply Hown in Ho. apply (R3 o b y); auto. destruct o as [k|k]; auto. cbn in Hy |- *. unfold holds in *. cbn in Hy.
    rewrite nth_lset in Hy. destruct (Nat.eqb_spec i k) as [->|Hk]; [rewrite Hv in Hy; discriminate|exact Hy].
  - intros o o' b Ho Ho'. apply (R4 o o' b); apply Hown; auto.
  - intros b y Hb. destruct (R5 b y Hb) as (o & Ho). exists o. apply Hown. exact Ho.
Qed.

Lemma owned_bound : forall (s : wstate) (v : values) o a, represents s v -> owns s v o a -> a < length (w_heap s).
Proof.
  intros s v o a R H. destruct o as [i|k].
  - assert (S := rep_slots _ _ R i). cbn in H. rewrite H in S. destruct (nth_error (v_wr v) i) as [[[x|]|]|] eqn:E; try contradiction.
    eapply nth_len. apply (rep_value _ _ R (Wrapper i) a x); auto.
  - assert (H' := H). destruct H as [H1 (x & H2)]. eapply nth_len. apply (rep_value _ _ R (Client k) a x); auto.
Qed.

Lemma rep_fill : forall (s : wstate) (v : values) i x, represents s v -> holds v i None ->
  represents (mkW (w_heap s ++ [Some x]) (lset (w_ptr s) i (Some (Some (length (w_heap s))))) (w_raw s)) (with_wr v i (Some (Some x))).
Proof.
  intros s v i x R Hv. assert (Hp := slot_empty _ _ _ R Hv). assert (Hb := fun o a => owned_bound s v o a R). destruct R as [R1 R2 R3 R4 R5].
  assert (Hown : forall o b, owns (mkW (w_heap s ++ [Some x]) (lset (w_ptr s) i (Some (Some (length (w_heap s))))) (w_raw s)) (with_wr v i (Some (Some x))) o b <->
    (owns s v o b /\ o <> Wrapper i) \/ (o = Wrapper i /\ b = length (w_heap s))).
  { intros [k|k] b; cbn [owns w_ptr w_raw with_wr v_raw].
    - rewrite nth_lset. destruct (Nat.eqb_spec i k) as [->|Hn].
      + rewrite Hp. split; [intros E; right; split; congruence|intros [[_ E]|[_ ->]]; [congruence|reflexivity]].
      + split; [intros E; left; split; [exact E|congruence]|intros [[E _]|[E _]]; [exact E|congruence]].
    - split; [intros E; left; split; [exact E|discriminate]|intros [[E _]|[E _]]; [exact E|discriminate]]. }
  constructor; cbn [w_ptr w_heap w_raw with_wr v_wr v_raw]; auto.
  - intros k. rewrite !nth_lset. destruct (Nat.eqb_spec i k) as [->|Hn]; [|apply R1]. rewrite Hp. unfold holds in Hv. rewrite Hv. exact I.
  - intros o b y Ho Hy. apply Hown in Ho. rewrite nth_snoc. destruct Ho as [[Ho Hne]|[-> ->]].
    + assert (b < length (w_heap s)) by (eapply Hb; eauto). destruct (Nat.eqb_spec b (length (w_heap s))); [lia|]. apply (R3 o b y); auto.
      destruct o as [k|k]; auto. cbn in Hy |- *. unfold holds in *. cbn in Hy.
      rewrite nth_lset in Hy. destruct (Nat.eqb_spec i k) as [->|Hk]; [congruence|exact Hy].
    + rewrite Nat.eqb_refl. cbn in Hy. unfold holds in *. cbn in Hy. rewrite nth_lset, Nat.eqb_refl, Hv in Hy. congruence.
  - intros o o' b Ho Ho'. apply Hown in Ho, Ho'. destruct Ho as [[Ho Hne]|[-> ->]], Ho' as [[Ho' Hne']|[-> E]]; auto.
    + apply (R4 o o' b); auto.
    + subst b. apply Hb in Ho. lia.
    + apply Hb in Ho'. lia.
  - intros b y Hh. rewrite nth_snoc in Hh. destruct (Nat.eqb_spec b (length (w_heap s))) as [->|Hn].
    + exists (Wrapper i). apply Hown. right. auto.
    + destruct (R5 b y Hh) as (o & Ho). exists o. apply Hown. left. split; auto. intros ->. cbn in Ho. congruence.
Qed.

Lemma nth_past : forall (A : Type) (l : list A), nth_error l (length l) = None.
Proof. intros. apply nth_error_None. lia. Qed.

Lemma rep_len : forall (s : wstate) (v : values), represents s v -> length (w_ptr s) = length (v_wr v).
Proof.
  intros s v R. assert (H1 := rep_slots _ _ R (length (w_ptr s))). assert (H2 := rep_slots _ _ R (length (v_wr v))).
  rewrite nth_past in H1. rewrite nth_past in H2.
  destruct (nth_error (v_wr v) (length (w_ptr s))) eqn:E1; [destruct o; contradiction|].
  destruct (nth_error (w_ptr s) (length (v_wr v))) as [[[?|]|]|] eqn:E2; try contradiction.
  apply nth_error_None in E1, E2. lia.
Qed.

(** A new empty wrapper. *)
Lemma rep_declare : forall (s : wstate) (v : values), represents s v -> represents (mkW (w_heap s) (w_ptr s ++ [Some None]) (w_raw s)) (add_wr v None).
Proof.
  intros s v R. assert (L := rep_len _ _ R). destruct R as [R1 R2 R3 R4 R5].
  assert (Hown : forall o b, owns (mkW (w_heap s) (w_ptr s ++ [Some None]) (w_raw s)) (add_wr v None) o b <-> owns s v o b).
  { intros [k|k] b; cbn [owns w_ptr w_raw add_wr v_raw]; [|tauto].
    rewrite nth_snoc. destruct (Nat.eqb_spec k (length (w_ptr s))) as [->|Hn]; [rewrite nth_past; split; discriminate|tauto]. }
  constructor; cbn [w_ptr w_heap w_raw add_wr v_wr v_raw]; auto.
  - intros k. rewrite !nth_snoc, L. destruct (Nat.eqb_spec k (length (v_wr v))); [exact I|apply R1].
  - intros o b y Ho Hy. apply Hown in Ho. apply (R3 o b y); auto. destruct o as [k|k]; auto. cbn in Hy |- *. unfold holds in *. cbn in Hy.
    rewrite nth_snoc in Hy. destruct (Nat.eqb_spec k (length (v_wr v))) as [->|Hk]; [discriminate|exact Hy].
  - intros o o' b Ho Ho'. apply (R4 o o' b); apply Hown; auto.
  - intros b y Hb. destruct (R5 b y Hb) as (o & Ho). exists o. apply Hown. exact Ho.
Qed.

Lemma lset_snoc : forall (A : Type) (l : list A) a b, lset (l ++ [a]) (length l) b = l ++ [b].
Proof. induction l as [|x l IH]; intros a b; cbn; [reflexivity|]. f_equal. apply IH. Qed.

(** A new wrapper with a fresh object. *)
Lemma rep_declare_full : forall (s : wstate) (v : values) x, represents s v ->
  represents (mkW (w_heap s ++ [Some x]) (w_ptr s ++ [Some (Some (length (w_heap s)))]) (w_raw s)) (add_wr v (Some x)).
Proof.
  intros s v x R. assert (R' := rep_declare _ _ R). assert (L := rep_len _ _ R).
  assert (H : holds (add_wr v None) (length (w_ptr s)) None) by (unfold holds; cbn; rewrite nth_snoc, L, Nat.eqb_refl; reflexivity).
  assert (F := rep_fill _ _ _ x R' H). cbn [w_heap w_ptr w_raw with_wr add_wr v_wr v_raw] in F.
  rewrite lset_snoc in F. unfold with_wr in F. cbn [add_wr v_wr v_raw] in F. rewrite L, lset_snoc in F. exact F.
Qed.

(** A call's effect on the object. *)
Lemma rep_update : forall (s : wstate) (v : values) i a x y, represents s v -> holds v i (Some x) -> nth_error (w_ptr s) i = Some (Some (Some a)) ->
  represents (mkW (lset (w_heap s) a (Some y)) (w_ptr s) (w_raw s)) (with_wr v i (Some (Some y))).
Proof.
  intros s v i a x y R Hv Hp. assert (Hheap : nth_error (w_heap s) a = Some (Some x)) by (apply (rep_value _ _ R (Wrapper i) a x); auto).
  destruct R as [R1 R2 R3 R4 R5].
  assert (Hown : forall o b, owns (mkW (lset (w_heap s) a (Some y)) (w_ptr s) (w_raw s)) (with_wr v i (Some (Some y))) o b <-> owns s v o b).
  { intros [k|k] b; cbn [owns w_ptr w_raw with_wr v_raw]; tauto. }
  constructor; cbn [w_ptr w_heap w_raw with_wr v_wr v_raw]; [|exact R2| | |].
  - intros k. rewrite !nth_lset. destruct (Nat.eqb_spec i k) as [->|Hn]; [|apply R1]. rewrite Hp. unfold holds in Hv. rewrite Hv. exact I.
  - intros o b z Ho Hy. apply Hown in Ho. rewrite nth_lset. destruct (Nat.eqb_spec a b) as [->|Hn].
    + assert (o = Wrapper i) as -> by (apply (R4 o (Wrapper i) b); auto). rewrite Hheap. cbn in Hy. unfold holds in *. cbn in Hy.
      rewrite nth_lset, Nat.eqb_refl, Hv in Hy. congruence.
    + apply (R3 o b z); auto. destruct o as [k|k]; auto. cbn in Hy |- *. unfold holds in *. cbn in Hy.
      rewrite nth_lset in Hy. destruct (Nat.eqb_spec i k) as [->|Hk]; [cbn in Ho; congruence|exact Hy].
  - intros o o' b Ho Ho'. apply (R4 o o' b); apply Hown; auto.
  - intros b z Hb. rewrite nth_lset in Hb. destruct (Nat.eqb_spec a b) as [->|Hn].
    + exists (Wrapper i). apply Hown. exact Hp.
    + destruct (R5 b z Hb) as (o & Ho). exists o. apply Hown. exact Ho.
Qed.

(** The client's objects. *)
Lemma rep_raw : forall (s : wstate) (v : values) x, represents s v ->
  represents (mkW (w_heap s ++ [Some x]) (w_ptr s) (w_raw s ++ [length (w_heap s)])) (mkV (v_wr v) (v_raw v ++ [Some x])).
Proof.
  intros s v x R. assert (Hb := fun o a => owned_bound s v o a R). destruct R as [R1 R2 R3 R4 R5].
  set (s' := mkW (w_heap s ++ [Some x]) (w_ptr s) (w_raw s ++ [length (w_heap s)])). set (v' := mkV (v_wr v) (v_raw v ++ [Some x])).
  assert (Hown : forall o b, owns s' v' o b <-> owns s v o b \/ (o = Client (length (w_raw s)) /\ b = length (w_heap s))).
  { intros [k|k] b; cbn [owns w_ptr w_raw v_raw s' v'].
    - split; [auto|intros [E|[E _]]; [exact E|discriminate]].
    - rewrite !nth_snoc, <- R2. destruct (Nat.eqb_spec k (length (w_raw s))) as [->|Hn].
      + rewrite nth_past. split; [intros [E _]; right; split; congruence|intros [[E _]|[_ ->]]; [discriminate|split; eauto]].
      + split; [auto|intros [E|[E _]]; [exact E|congruence]]. }
  constructor; cbn [w_ptr w_heap w_raw v_wr v_raw s' v']; auto.
  - rewrite !app_length. cbn. lia.
  - intros o b y Ho Hy. apply Hown in Ho. rewrite nth_snoc. destruct Ho as [Ho|[-> ->]].
    + assert (b < length (w_heap s)) by (eapply Hb; eauto). destruct (Nat.eqb_spec b (length (w_heap s))); [lia|]. apply (R3 o b y); auto.
      destruct o as [k|k]; auto. cbn in Hy, Ho |- *. destruct Ho as [E _]. apply nth_len in E. rewrite nth_snoc, <- R2 in Hy.
      destruct (Nat.eqb_spec k (length (w_raw s))) as [->|Hk]; [lia|exact Hy].
    + rewrite Nat.eqb_refl. cbn in Hy. rewrite nth_snoc, <- R2, Nat.eqb_refl in Hy. congruence.
  - intros o o' b Ho Ho'. apply Hown in Ho, Ho'. destruct Ho as [Ho|[-> ->]], Ho' as [Ho'|[-> E]]; auto.
    + apply (R4 o o' b); auto.
    + subst b. apply Hb in Ho. lia.
    + apply Hb in Ho'. lia.
  - intros b y Hh. rewrite nth_snoc in Hh. destruct (Nat.eqb_spec b (length (w_heap s))) as [->|Hn].
    + exists (Client (length (w_raw s))). apply Hown. right. auto.
    + destruct (R5 b y Hh) as (o & Ho). exists o. apply Hown. left. auto.
Qed.

Lemma raw_addr : forall (s : wstate) (v : values) k x, represents s v -> nth_error (v_raw v) k = Some (Some x) ->
  exists a, nth_error (w_raw s) k = Some a /\ nth_error (w_heap s) a = Some (Some x) /\ owns s v (Client k) a.
Proof.
  intros s v k x R H. destruct (nth_error (w_raw s) k) as [a|] eqn:E.
  - exists a. assert (O : owns s v (Client k) a) by (split; eauto). split; auto. split; auto. apply (rep_value _ _ R (Client k) a x); auto.
  - apply nth_error_None in E. apply nth_len in H. rewrite (rep_raws _ _ R) in E. lia.
Qed.

Lemma rep_raw_delete : forall (s : wstate) (v : values) k x a, represents s v -> nth_error (v_raw v) k = Some (Some x) -> nth_error (w_raw s) k = Some a ->
  represents (mkW (lset (w_heap s) a None) (w_ptr s) (w_raw s)) (mkV (v_wr v) (lset (v_raw v) k None)).
Proof.
  intros s v k x a R Hk Ha. destruct R as [R1 R2 R3 R4 R5].
  set (s' := mkW (lset (w_heap s) a None) (w_ptr s) (w_raw s)). set (v' := mkV (v_wr v) (lset (v_raw v) k None)).
  assert (Hown : forall o b, owns s' v' o b <-> owns s v o b /\ o <> Client k).
  { intros [j|j] b; cbn [owns w_ptr w_raw v_raw s' v'].
    - split; [intros E; split; [exact E|discriminate]|tauto].
    - rewrite nth_lset. destruct (Nat.eqb_spec k j) as [->|Hn].
      + rewrite Hk. split; [intros [_ (y & E)]; discriminate|intros [_ E]; congruence].
      + split; [intros E; split; [exact E|congruence]|tauto]. }
  constructor; cbn [w_ptr w_heap w_raw v_wr v_raw s' v']; auto.
  - rewrite length_lset. exact R2.
  - intros o b y Ho Hy. apply Hown in Ho. destruct Ho as [Ho Hne]. rewrite nth_lset. destruct (Nat.eqb_spec a b) as [->|Hn].
    + exfalso. apply Hne. apply (R4 o (Client k) b); auto. split; eauto.
    + apply (R3 o b y); auto. destruct o as [j|j]; auto. cbn in Hy |- *. rewrite nth_lset in Hy.
      destruct (Nat.eqb_spec k j) as [->|Hj]; [congruence|exact Hy].
  - intros o o' b Ho Ho'. apply Hown in Ho, Ho'. apply (R4 o o' b); tauto.
  - intros b y Hh. rewrite nth_lset in Hh. destruct (Nat.eqb_spec a b) as [->|Hn]; [destruct (nth_error (w_heap s) b); discriminate|].
    destruct (R5 b y Hh) as (o & Ho). exists o. apply Hown. split; auto. intros ->. destruct Ho as [E _]. congruence.
Qed.

(** set: the client's object becomes the wrapper's. *)
Lemma rep_give : forall (s : wstate) (v : values) i k x a, represents s v -> holds v i None -> nth_error (v_raw v) k = Some (Some x) -> nth_error (w_raw s) k = Some a ->
  represents (mkW (w_heap s) (lset (w_ptr s) i (Some (Some a))) (w_raw s)) (mkV (lset (v_wr v) i (Some (Some x))) (lset (v_raw v) k None)).
Proof.
  intros s v i k x a R Hv Hk Ha. assert (Hp := slot_empty _ _ _ R Hv). destruct R as [R1 R2 R3 R4 R5].
  set (s' := mkW (w_heap s) (lset (w_ptr s) i (Some (Some a))) (w_raw s)). set (v' := mkV (lset (v_wr v) i (Some (Some x))) (lset (v_raw v) k None)).
  assert (Oa : owns s v (Client k) a) by (split; eauto).
  assert (Hown : forall o b, owns s' v' o b <-> (owns s v o b /\ o <> Client k /\ o <> Wrapper i) \/ (o = Wrapper i /\ b = a)).
  { intros [j|j] b; cbn [owns w_ptr w_raw v_raw s' v'].
    - rewrite nth_lset. destruct (Nat.eqb_spec i j) as [->|Hn].
      + rewrite Hp. split; [intros E; right; split; congruence|intros [[_ [_ E]]|[_ ->]]; [congruence|reflexivity]].
      + split; [intros E; left; repeat split; [exact E|discriminate|congruence]|intros [[E _]|[E _]]; [exact E|congruence]].
    - rewrite nth_lset. destruct (Nat.eqb_spec k j) as [->|Hn].
      + rewrite Hk. split; [intros [_ (y & E)]; discriminate|intros [[_ [E _]]|[E _]]; congruence].
      + split; [intros E; left; repeat split; [exact (proj1 E)|exact (proj2 E)|congruence|discriminate]|intros [[E _]|[E _]]; [exact E|discriminate]]. }
  constructor; cbn [w_ptr w_heap w_raw v_wr v_raw s' v']; auto.
  - intros j. rewrite !nth_lset. destruct (Nat.eqb_spec i j) as [->|Hn]; [|apply R1]. rewrite Hp. unfold holds in Hv. rewrite Hv. exact I.
  - rewrite length_lset. exact R2.
  - intros o b y Ho Hy. apply Hown in Ho. destruct Ho as [(Ho & Hne & Hne')|[-> ->]].
    + apply (R3 o b y); auto. destruct o as [j|j]; cbn in Hy |- *; unfold holds in *; cbn in Hy; rewrite nth_lset in Hy.
      * destruct (Nat.eqb_spec i j) as [->|Hj]; [congruence|exact Hy].
      * destruct (Nat.eqb_spec k j) as [->|Hj]; [congruence|exact Hy].
    + cbn in Hy. unfold holds in *. cbn in Hy. rewrite nth_lset, Nat.eqb_refl, Hv in Hy. injection Hy as <-.
      apply (R3 (Client k) a x); auto.
  - intros o o' b Ho Ho'. apply Hown in Ho, Ho'. destruct Ho as [(Ho & Hne & Hne2)|[-> ->]], Ho' as [(Ho' & Hne' & Hne2')|[-> E]]; auto.
    + apply (R4 o o' b); auto.
    + subst b. exfalso. apply Hne. apply (R4 o (Client k) a); auto.
    + exfalso. apply Hne'. apply (R4 o' (Client k) a); auto.
  - intros b y Hh. destruct (R5 b y Hh) as (o & Ho). destruct o as [j|j].
    + exists (Wrapper j). apply Hown. left. repeat split; auto; [discriminate|]. intros E. injection E as ->. cbn in Ho. congruence.
    + destruct (Nat.eq_dec j k) as [->|Hj].
      * exists (Wrapper i). apply Hown. right. split; auto. destruct Ho as [E _]. congruence.
      * exists (Client j). apply Hown. left. repeat split; [exact (proj1 Ho)|exact (proj2 Ho)|congruence|discriminate].
Qed.

(** ** Members *)
Lemma holds_clear : forall (v : values) i o x, holds v i o -> holds (with_wr v i (Some x)) i x.
Proof. intros v i o x H. unfold holds in *. cbn. rewrite nth_lset, Nat.eqb_refl, H. reflexivity. Qed.
Lemma holds_other : forall (v : values) i j o x, i <> j -> holds v j o -> holds (with_wr v i x) j o.
Proof. intros v i j o x Hn H. unfold holds in *. cbn. rewrite nth_lset. destruct (Nat.eqb_spec i j); [congruence|exact H]. Qed.
Lemma with_twice : forall (v : values) i x y, with_wr (with_wr v i x) i y = with_wr v i y.
Proof. intros. unfold with_wr. cbn. rewrite lset_twice. reflexivity. Qed.

(** After delete, the memory with the wrapper's pointer cleared represents the values with the wrapper emptied. *)
Lemma release_ok : forall (s : wstate) (v : values) i o, represents s v -> holds v i o -> exists h, w_release i s = RRet (mkW h (w_ptr s) (w_raw s)) tt /\
  represents (mkW h (lset (w_ptr s) i (Some None)) (w_raw s)) (with_wr v i (Some None)) /\ length h = length (w_heap s).
Proof.
  intros s v i o R H. unfold w_release, mbind, mget, mlift, w_slot, mput, mret. destruct o as [x|].
  - destruct (slot_of _ _ _ _ R H) as (a & E1 & E2). rewrite E1. cbn. unfold h_delete. rewrite E2.
    eexists. split; [reflexivity|]. split; [eapply rep_clear; eauto|apply length_lset].
  - assert (E := slot_empty _ _ _ R H). rewrite E. cbn. exists (w_heap s). split; [destruct s; reflexivity|]. split; [|reflexivity].
    assert (lset (w_ptr s) i (Some None) = w_ptr s) as ->.
    { clear - E. revert i E. induction (w_ptr s) as [|p l IH]; intros [|i] E; cbn in *; try discriminate; [congruence|]. f_equal. auto. }
    assert (with_wr v i (Some None) = v) as ->; [|destruct s; exact R].
    unfold with_wr. unfold holds in H. destruct v as [wr raw]. cbn in *. f_equal.
    clear - H. revert i H. induction wr as [|p l IH]; intros [|i] E; cbn in *; try discriminate; [congruence|]. f_equal. auto.
Qed.

Lemma clone_ok : forall (s : wstate) (v : values) j x, represents s v -> holds v j (Some x) -> w_clone clone j s =
  match clone x with
  | Ok y => RRet (mkW (w_heap s ++ [Some y]) (w_ptr s) (w_raw s)) (length (w_heap s))
  | Throw e => RThrow s e | Exit => RExit | UB r => RUB r | NoFuel => RNoFuel end.
Proof.
  intros s v j x R H. destruct (slot_of _ _ _ _ R H) as (a & E1 & E2). unfold w_clone, mbind, mget, mlift, w_slot. rewrite E1. cbn.
  unfold h_read. rewrite E2. cbn. destruct (clone x); reflexivity.
Qed.

Lemma lset_lset_fill : forall (A : Type) (l : list A) i a b, lset (lset l i a) i b = lset l i b.
Proof. intros. apply lset_twice. Qed.

Lemma copy_full : forall (s : wstate) j a, nth_error (w_ptr s) j = Some (Some (Some a)) ->
  w_copy clone j s = (do* a := w_clone clone j in w_declare (Some a)) s.
Proof. intros s j a E. unfold w_copy. cbn [mbind mget]. unfold mbind at 1, mget. unfold mbind at 1, mlift at 1, w_slot at 1. rewrite E. reflexivity. Qed.
Lemma bind_ret : forall (S A C : Type) (m : M S A) (k : A -> M S C) s s' a, m s = RRet s' a -> mbind m k s = k a s'.
Proof. intros S A C m k s s' a E. unfold mbind. rewrite E. reflexivity. Qed.
Lemma bind_throw : forall (S A C : Type) (m : M S A) (k : A -> M S C) s s' e, m s = RThrow s' e -> mbind m k s = RThrow s' e.
Proof. intros S A C m k s s' e E. unfold mbind. rewrite E. reflexivity. Qed.

Theorem step_ok : forall (s : wstate) (v : values) o r v', represents s v -> vstep clone v o r v' ->
  exists s', (step (B := B) clone o s = RRet s' r \/ exists e, r = Raised e /\ step clone o s = RThrow s' e) /\ represents s' v'.
Proof.
  intros s v o r v' R H.
  destruct H as [v|v j H|v j x y H Hc|v j x e H Hc|v x y Hc|v x e Hc|v i j x y o Hn Ho H Hc|v i x y o Ho Hc|v i k x o Ho Hk|v i o Ho
    |v i m x y b H Hm|v i m x y e H Hm|v x|v k x Hk].
  - eexists. split; [left; reflexivity|]. apply rep_declare. exact R.
  - eexists. split; [left|apply rep_declare; exact R]. cbn [step]. unfold w_copy, mbind, mget, mlift, w_slot. rewrite (slot_empty _ _ _ R H). reflexivity.
  - destruct (slot_of _ _ _ _ R H) as (a & E1 & E2).
    eexists. split; [left|apply rep_declare_full; exact R]. assert (C := clone_ok _ _ _ _ R H). rewrite Hc in C.
    cbn [step]. unfold mbind at 1. rewrite (copy_full _ _ _ E1). unfold mbind. rewrite C. reflexivity.
  - destruct (slot_of _ _ _ _ R H) as (a & E1 & E2).
    exists s. split; [right; exists e; split; [reflexivity|]|exact R]. assert (C := clone_ok _ _ _ _ R H). rewrite Hc in C.
    cbn [step]. unfold mbind at 1. rewrite (copy_full _ _ _ E1). unfold mbind. rewrite C. reflexivity.
  - eexists. split; [left|apply rep_declare_full; exact R]. cbn [step]. unfold w_from, obj_clone, mbind, mget, mlift. rewrite Hc. reflexivity.
  - exists s. split; [right; exists e; split; [reflexivity|]|exact R]. cbn [step]. unfold w_from, obj_clone, mbind, mget, mlift. rewrite Hc. reflexivity.
  - destruct (release_ok _ _ _ _ R Ho) as (h & E & R1 & L).
    set (s1 := mkW h (w_ptr s) (w_raw s)) in *. set (s2 := mkW h (lset (w_ptr s) i (Some None)) (w_raw s)) in *.
    assert (E2 : w_clone clone j s1 = RRet (mkW (h ++ [Some y]) (w_ptr s) (w_raw s)) (length h)).
    { assert (C := clone_ok _ _ _ _ R1 (holds_other _ _ _ _ (Some None) Hn H)). rewrite Hc in C.
      unfold w_clone, mbind, mget, mlift, w_slot in C |- *. cbn [s2 s1 w_ptr w_heap w_raw] in *. rewrite nth_lset in C.
      destruct (Nat.eqb_spec i j); [congruence|]. destruct (nth_error (w_ptr s) j) as [[[a|]|]|]; try discriminate.
      cbn in C |- *. destruct (h_read h a) as [z| | | |]; try discriminate. cbn in C |- *. destruct (clone z) as [z'| | | |]; try discriminate. cbn in C |- *. unfold mput, mret in C |- *. injection C as C. unfold h_new in *. rewrite C. reflexivity. }
    assert (F := rep_fill _ _ i y R1 (holds_clear _ _ _ None Ho)). cbn [s2 w_heap w_ptr w_raw] in F. rewrite lset_twice, with_twice in F.
    eexists. split; [left|exact F]. cbn [step]. unfold w_assign, mbind at 1 2. rewrite E. cbn [mbind]. unfold mbind. rewrite E2. reflexivity.
  - destruct (release_ok _ _ _ _ R Ho) as (h & E & R1 & L).
    assert (F := rep_fill _ _ i y R1 (holds_clear _ _ _ None Ho)). cbn [w_heap w_ptr w_raw] in F. rewrite lset_twice, with_twice in F.
    eexists. split; [left|exact F]. cbn [step]. unfold w_assign_obj, mbind at 1 2. rewrite E. unfold obj_clone, mbind, mget, mlift. rewrite Hc. reflexivity.
  - destruct (release_ok _ _ _ _ R Ho) as (h & E & R1 & L). destruct (raw_addr _ _ _ _ R Hk) as (a & Ea & _).
    assert (F := rep_give _ _ i k x a R1 (holds_clear _ _ _ None Ho) Hk Ea). cbn [w_heap w_ptr w_raw with_wr v_wr v_raw] in F.
    rewrite !lset_twice in F. eexists. split; [left|exact F]. cbn [step]. unfold mbind at 1, mget. rewrite Ea. unfold w_set, mbind. rewrite E. reflexivity.
  - destruct (release_ok _ _ _ _ R Ho) as (h & E & R1 & L).
    assert (F := rep_kill _ _ i R1 (holds_clear _ _ _ None Ho)). cbn [w_heap w_ptr w_raw] in F. rewrite lset_twice, with_twice in F.
    eexists. split; [left|exact F]. cbn [step]. unfold w_destroy, mbind. rewrite E. reflexivity.
  - destruct (slot_of _ _ _ _ R H) as (a & E1 & E2). eexists. split; [left|eapply rep_update; eauto].
    cbn [step]. unfold w_call, mbind, mget, mlift, w_slot, h_read. rewrite E1. cbn. rewrite E2, Hm. reflexivity.
  - destruct (slot_of _ _ _ _ R H) as (a & E1 & E2). eexists. split; [right; exists e; split; [reflexivity|]|eapply rep_update; eauto].
    cbn [step]. unfold w_call, mbind, mget, mlift, w_slot, h_read. rewrite E1. cbn. rewrite E2, Hm. reflexivity.
  - eexists. split; [left; reflexivity|]. apply rep_raw. exact R.
  - destruct (raw_addr _ _ _ _ R Hk) as (a & Ea & Eh & _). eexists. split; [left|eapply rep_raw_delete; eauto].
    cbn [step]. unfold raw_delete, mbind, mget, mlift. rewrite Ea. cbn. unfold h_delete. rewrite Eh. reflexivity.
Qed.

Lemma run_ok : forall (v : values) os rs v', vrun (B := B) clone v os rs v' -> forall s, represents s v ->
  exists s', run clone os s = Ok (rs, s') /\ represents s' v'.
Proof.
  intros v os rs v' H. induction H as [v|v o r v1 os rs v2 Hs H IH]; intros s R.
  - exists s. split; [reflexivity|exact R].
  - destruct (step_ok _ _ _ _ _ R Hs) as (s1 & E & R1). destruct (IH s1 R1) as (s2 & E2 & R2). exists s2. split; [|exact R2].
    cbn [run]. destruct E as [->|(e & -> & ->)]; cbn; rewrite E2; reflexivity.
Qed.

Lemma start_rep : represents (T := T) start vstart.
Proof.
  constructor; cbn.
  - intros [|i]; exact I.
  - reflexivity.
  - intros [i|k] a x H; [destruct i; discriminate|destruct H as [H _]; destruct k; discriminate].
  - intros [i|k] o' a H; [destruct i; discriminate|destruct H as [H _]; destruct k; discriminate].
  - intros [|a] x H; discriminate.
Qed.

(** ** Consequences *)
Lemma no_leak : forall (s : wstate) (v : values), represents s v -> (forall i x, ~ holds v i (Some x)) -> (forall k x, nth_error (v_raw v) k <> Some (Some x)) ->
  Forall (fun c => c = None) (w_heap s).
Proof.
  intros s v R H1 H2. apply Forall_forall. intros c Hc. apply In_nth_error in Hc. destruct Hc as (a & Ha). destruct c as [x|]; [|reflexivity].
  exfalso. destruct (rep_no_leak _ _ R a x Ha) as ([i|k] & Ho).
  - assert (S := rep_slots _ _ R i). cbn in Ho. rewrite Ho in S. destruct (nth_error (v_wr v) i) as [[[y|]|]|] eqn:E; try contradiction.
    apply (H1 i y). exact E.
  - destruct Ho as [_ (y & E)]. apply (H2 k y E).
Qed.

(** Assignment between two wrappers that are alive, in any state reached. *)
Lemma assign_iff : forall (s : wstate) (v : values) i j oi oj, represents s v -> holds v i oi -> holds v j oj ->
  (forall x, oj = Some x -> exists y, clone x = Ok y) ->
  (i = j -> oj = None -> step (B := B) clone (OpAssign i j) s = RUB UBNull) /\
  (i = j -> oj <> None -> step (B := B) clone (OpAssign i j) s = RUB UBDangling) /\
  (i <> j -> oj = None -> step (B := B) clone (OpAssign i j) s = RUB UBNull) /\
  (i <> j -> oj <> None -> exists s' v', step (B := B) clone (OpAssign i j) s = RRet s' Done /\ vstep (B := B) clone v (OpAssign i j) Done v' /\ represents s' v').
Proof.
  intros s v i j oi oj R Hi Hj Hc. destruct (release_ok _ _ _ _ R Hi) as (h & E & R1 & L). repeat split.
  - intros <- ->. cbn [step]. unfold w_assign, mbind at 1 2. rewrite E. unfold w_clone, mbind, mget, mlift, w_slot. cbn [w_ptr].
    rewrite (slot_empty _ _ _ R Hj). reflexivity.
  - intros <- Hne. destruct oj as [x|]; [|congruence]. destruct (slot_of _ _ _ _ R Hj) as (a & E1 & E2).
    unfold w_release, mbind, mget, mlift, w_slot, h_delete in E. rewrite E1 in E. cbn in E. rewrite E2 in E. cbn in E. injection E as <-.
    cbn [step]. unfold w_assign, w_release, w_clone, mbind, mget, mlift, w_slot, h_delete. rewrite E1. cbn. rewrite E2. cbn. rewrite E1. cbn.
    unfold h_read. rewrite nth_lset, Nat.eqb_refl, E2. reflexivity.
  - intros Hne ->. cbn [step]. unfold w_assign, mbind at 1 2. rewrite E. unfold w_clone, mbind, mget, mlift, w_slot. cbn [w_ptr].
    rewrite (slot_empty _ _ _ R Hj). reflexivity.
  - intros Hn Hne. destruct oj as [x|]; [|congruence]. destruct (Hc x eq_refl) as (y & Hy).
    assert (V := VAssign (B := B) clone v i j x y oi Hn Hi Hj Hy). destruct (step_ok _ _ _ _ _ R V) as (s' & [E'|(e & E' & _)] & R'); [|discriminate].
    exists s', (with_wr v i (Some (Some y))). auto.
Qed.

Lemma reached_rep : forall (s : wstate) (v : values), reached B clone s v -> represents s v.
Proof.
  intros s v (os & rs & H & E). destruct (run_ok _ _ _ _ H _ start_rep) as (s' & E' & R). rewrite E in E'. injection E' as <-. exact R.
Qed.

Lemma assign_bad_iff : forall (s : wstate) (v : values) i j oi oj, reached B clone s v -> holds v i oi -> holds v j oj ->
  (forall x, oj = Some x -> exists y, clone x = Ok y) ->
  ((i = j \/ oj = None) <-> exists u, step (B := B) clone (OpAssign i j) s = RUB u).
Proof.
  intros s v i j oi oj Hr Hi Hj Hc. destruct (assign_iff _ _ _ _ _ _ (reached_rep _ _ Hr) Hi Hj Hc) as (H1 & H2 & H3 & H4). split.
  - intros [E|E].
    + destruct oj as [x|]; [rewrite H2; eauto; discriminate|rewrite H1; eauto].
    + destruct (Nat.eq_dec i j); [rewrite H1; eauto|rewrite H3; eauto].
  - intros (u & E). destruct (Nat.eq_dec i j); [auto|]. destruct oj as [x|]; [|auto]. exfalso.
    destruct H4 as (s' & v' & E' & _); [auto|discriminate|]. congruence.
Qed.

Lemma assign_good : forall (s : wstate) (v : values) i j oi x y, reached B clone s v -> holds v i oi -> holds v j (Some x) -> i <> j ->
  clone x = Ok y ->
  exists s', step (B := B) clone (OpAssign i j) s = RRet s' Done /\ reached B clone s' (with_wr v i (Some (Some y))).
Proof.
  intros s v i j oi x y Hr Hi Hj Hn Hc. assert (V := VAssign (B := B) clone v i j x y oi Hn Hi Hj Hc).
  destruct (step_ok _ _ _ _ _ (reached_rep _ _ Hr) V) as (s' & [E'|(e & E' & _)] & R'); [|discriminate]. exists s'. split; auto.
  destruct Hr as (os & rs & Hv & E). exists (os ++ [OpAssign i j]), (rs ++ [Done]). split.
  - clear - Hv V. induction Hv; cbn; [econstructor; [exact V|constructor]|econstructor; eauto].
  - clear - E E'. revert E. generalize (@start T). revert rs. induction os as [|o os IH]; intros rs s0 E; cbn [run app] in *.
    + injection E as <- <-. rewrite E'. reflexivity.
    + destruct (step clone o s0) as [s1 r|s1 e| | |]; try discriminate;
        destruct (run clone os s1) as [[rs1 s2]| | | |] eqn:E1; try discriminate; cbn in E; injection E as <- <-; rewrite (IH _ _ E1); reflexivity.
Qed.

(** An assignment whose clone() throws: the old object is gone, the pointer to it is not. *)
Lemma assign_throw : forall (s : wstate) (v : values) i j x z e, reached B clone s v -> holds v i (Some z) -> holds v j (Some x) -> i <> j ->
  clone x = Throw e ->
  exists s', step (B := B) clone (OpAssign i j) s = RThrow s' e /\ step (B := B) clone (OpDestroy i) s' = RUB UBDoubleFree.
Proof.
  intros s v i j x z e Hr Hi Hj Hn Hc. assert (R := reached_rep _ _ Hr).
  destruct (slot_of _ _ _ _ R Hi) as (a & E1 & E2). destruct (slot_of _ _ _ _ R Hj) as (b & E3 & E4).
  assert (a <> b). { intros ->. assert (Wrapper i = Wrapper j) by (apply (rep_one_owner _ _ R _ _ b); auto). congruence. }
  exists (mkW (lset (w_heap s) a None) (w_ptr s) (w_raw s)). split.
  - cbn [step]. unfold w_assign, w_release, w_clone, mbind, mget, mlift, w_slot, h_delete. rewrite E1. cbn. rewrite E2. cbn. rewrite E3. cbn.
    unfold h_read. rewrite nth_lset. destruct (Nat.eqb_spec a b); [congruence|]. rewrite E4, Hc. reflexivity.
  - cbn [step]. unfold w_destroy, w_release, mbind, mget, mlift, w_slot, h_delete. cbn. rewrite E1. cbn. rewrite nth_lset, Nat.eqb_refl, E2. reflexivity.
Qed.

Lemma values_run : forall os rs (v : values), vrun (B := B) clone vstart os rs v ->
  exists s, run clone os start = Ok (rs, s) /\ represents s v.
Proof. intros os rs v H. exact (run_ok _ _ _ _ H _ start_rep). Qed.

Lemma nothing_leaks : forall os rs (v : values), vrun (B := B) clone vstart os rs v ->
  (forall i x, ~ holds v i (Some x)) -> (forall k x, nth_error (v_raw v) k <> Some (Some x)) ->
  exists s, run clone os start = Ok (rs, s) /\ Forall (fun c => c = None) (w_heap s).
Proof. intros os rs v H H1 H2. destruct (values_run _ _ _ H) as (s & E & R). exists s. split; [exact E|]. eapply no_leak; eauto. Qed.
(** *** Operations that are not permitted *)

Lemma set_null : forall (s : wstate) (v : values) i k, reached B clone s v -> length (v_raw v) <= k ->
  step (B := B) clone (OpSetRaw i k) s = RExit.
Proof.
  intros s v i k H L. assert (R := reached_rep _ _ H). rewrite <- (rep_raws _ _ R) in L. apply nth_error_None in L.
  cbn [step]. unfold mbind at 1, mget. rewrite L. reflexivity.
Qed.

Lemma call_empty : forall (s : wstate) (v : values) i m, reached B clone s v -> holds v i None ->
  step (B := B) clone (OpCall i m) s = RUB UBNull.
Proof.
  intros s v i m H Hi. assert (R := reached_rep _ _ H). cbn [step]. unfold w_call, mbind, mget, mlift, w_slot. rewrite (slot_empty _ _ _ R Hi). reflexivity.
Qed.

Lemma dead_slot : forall (s : wstate) (v : values) i, represents s v -> (forall o, ~ holds v i o) -> w_slot s i = UB UBDangling.
Proof.
  intros s v i R H. assert (S := rep_slots _ _ R i). unfold w_slot. destruct (nth_error (w_ptr s) i) as [[p|]|]; try reflexivity.
  exfalso. destruct (nth_error (v_wr v) i) as [[o|]|] eqn:E; try (destruct p; contradiction). exact (H o E).
Qed.

Lemma dead_wrapper : forall (s : wstate) (v : values) i, reached B clone s v -> (forall o, ~ holds v i o) ->
  Forall (fun o => step (B := B) clone o s = RUB UBDangling) [OpCopy i; OpDestroy i] /\
  (forall j, step (B := B) clone (OpAssign i j) s = RUB UBDangling) /\
  (forall x, step (B := B) clone (OpAssignObj i x) s = RUB UBDangling) /\
  (forall k, k < length (v_raw v) -> step (B := B) clone (OpSetRaw i k) s = RUB UBDangling) /\
  (forall m, step (B := B) clone (OpCall i m) s = RUB UBDangling).
Proof.
  intros s v i H Hd. assert (R := reached_rep _ _ H). assert (D := dead_slot _ _ _ R Hd).
  assert (Rel : w_release i s = RUB UBDangling) by (unfold w_release, mbind, mget, mlift; rewrite D; reflexivity).
  repeat split.
  - repeat constructor; cbn [step].
    + unfold w_copy, mbind, mget, mlift. rewrite D. reflexivity.
    + unfold w_destroy, mbind. rewrite Rel. reflexivity.
  - intros j. cbn [step]. unfold w_assign, mbind. rewrite Rel. reflexivity.
  - intros x. cbn [step]. unfold w_assign_obj, mbind. rewrite Rel. reflexivity.
  - intros k Hk. rewrite <- (rep_raws _ _ R) in Hk. apply nth_error_Some in Hk. cbn [step]. unfold mbind at 1, mget.
    destruct (nth_error (w_raw s) k) as [a|]; [|congruence]. unfold w_set, mbind. rewrite Rel. reflexivity.
  - intros m. cbn [step]. unfold w_call, mbind, mget, mlift. rewrite D. reflexivity.
Qed.

Lemma set_twice : forall (s : wstate) (v : values) i j k x oi oj, reached B clone s v -> holds v i oi -> holds v j oj ->
  nth_error (v_raw v) k = Some (Some x) ->
  run (B := B) clone [OpSetRaw i k; OpSetRaw j k; OpDestroy i; OpDestroy j] s = UB UBDoubleFree.
Proof.
  intros s v i j k x oi oj H Hi Hj Hk. assert (R := reached_rep _ _ H).
  destruct (raw_addr _ _ _ _ R Hk) as (a & Ea & _).
  destruct (release_ok _ _ _ _ R Hi) as (h & E & R1 & L).
  assert (F := rep_give _ _ i k x a R1 (holds_clear _ _ _ None Hi) Hk Ea). cbn [w_heap w_ptr w_raw with_wr v_wr v_raw] in F. rewrite !lset_twice in F.
  set (s1 := mkW h (lset (w_ptr s) i (Some (Some a))) (w_raw s)) in *.
  assert (E1 : step (B := B) clone (OpSetRaw i k) s = RRet s1 Done).
  { cbn [step]. unfold mbind at 1, mget. rewrite Ea. unfold w_set, mbind. rewrite E. reflexivity. }
  set (v1 := mkV (lset (v_wr v) i (Some (Some x))) (lset (v_raw v) k None)) in *.
  assert (Hi1 : holds v1 i (Some x)) by (unfold holds, v1; cbn; rewrite nth_lset, Nat.eqb_refl, Hi; reflexivity).
  assert (P1 : nth_error (w_ptr s1) i = Some (Some (Some a))).
  { cbn. rewrite nth_lset, Nat.eqb_refl. destruct (nth_error (w_ptr s) i) eqn:Q; [reflexivity|]. exfalso.
    assert (S := rep_slots _ _ R i). rewrite Q in S. unfold holds in Hi. rewrite Hi in S. destruct oi; contradiction. }
  assert (X1 : nth_error h a = Some (Some x)) by (apply (rep_value _ _ F (Wrapper i) a x); [exact P1|exact Hi1]).
  destruct (Nat.eq_dec i j) as [<-|Hn].
  - assert (E2 : step (B := B) clone (OpSetRaw i k) s1 = RRet (mkW (lset h a None) (w_ptr s1) (w_raw s)) Done).
    { cbn [step]. unfold mbind at 1, mget. cbn [s1 w_raw]. rewrite Ea. unfold w_set, w_release, mbind, mget, mlift, w_slot. rewrite P1. cbn.
      unfold h_delete. rewrite X1. cbn. unfold w_put. cbn. rewrite lset_twice. reflexivity. }
    assert (E3 : step (B := B) clone (OpDestroy i) (mkW (lset h a None) (w_ptr s1) (w_raw s)) = RUB UBDoubleFree).
    { cbn [step]. unfold w_destroy, w_release, mbind, mget, mlift, w_slot, h_delete. cbn [w_ptr w_heap]. rewrite P1. cbn. rewrite nth_lset, Nat.eqb_refl, X1. reflexivity. }
    cbn [run]. rewrite E1, E2, E3. reflexivity.
  - assert (Hj1 : holds v1 j oj) by (unfold holds, v1; cbn; rewrite nth_lset; destruct (Nat.eqb_spec i j); [contradiction|exact Hj]).
    destruct (release_ok _ _ _ _ F Hj1) as (h2 & G & R2 & L2).
    set (s2 := mkW h2 (lset (w_ptr s1) j (Some (Some a))) (w_raw s)).
    assert (E2 : step (B := B) clone (OpSetRaw j k) s1 = RRet s2 Done).
    { cbn [step]. unfold mbind at 1, mget. cbn [s1 w_raw]. rewrite Ea. unfold w_set, mbind. rewrite G. reflexivity. }
    assert (P2 : nth_error (lset (w_ptr s1) j (Some None)) i = Some (Some (Some a))).
    { rewrite nth_lset. destruct (Nat.eqb_spec j i); [congruence|exact P1]. }
    assert (X2 : nth_error h2 a = Some (Some x)).
    { apply (rep_value _ _ R2 (Wrapper i) a x); [exact P2|]. apply holds_other; [congruence|exact Hi1]. }
    assert (P2i : nth_error (w_ptr s2) i = Some (Some (Some a))).
    { cbn [s2 w_ptr]. rewrite nth_lset. destruct (Nat.eqb_spec j i); [congruence|exact P1]. }
    assert (P2j : nth_error (w_ptr s2) j = Some (Some (Some a))).
    { cbn [s2 w_ptr]. rewrite nth_lset, Nat.eqb_refl. destruct (nth_error (w_ptr s1) j) eqn:Q; [reflexivity|]. exfalso.
      assert (S := rep_slots _ _ F j). rewrite Q in S. unfold holds in Hj1. rewrite Hj1 in S. destruct oj; contradiction. }
    assert (E3 : step (B := B) clone (OpDestroy i) s2 = RRet (mkW (lset h2 a None) (lset (w_ptr s2) i None) (w_raw s)) Done).
    { cbn [step]. unfold w_destroy, w_release, mbind, mget, mlift, w_slot, h_delete. rewrite P2i. cbn [s2 w_heap w_raw]. rewrite X2. reflexivity. }
    assert (E4 : step (B := B) clone (OpDestroy j) (mkW (lset h2 a None) (lset (w_ptr s2) i None) (w_raw s)) = RUB UBDoubleFree).
    { cbn [step]. unfold w_destroy, w_release, mbind, mget, mlift, w_slot, h_delete. cbn [w_ptr w_heap]. rewrite nth_lset.
      destruct (Nat.eqb_spec i j); [contradiction|]. rewrite P2j. cbn. rewrite nth_lset, Nat.eqb_refl, X2. reflexivity. }
    cbn [run]. rewrite E1, E2, E3, E4. reflexivity.
Qed.
End P.

(** ** Examples: simple functions of an integer. *)
From Verif Require Import Model.PSimple.
From Coq Require Import String.
Definition square : simple Z Z := mkSimple "x*x" (fun x => Ok (x * x)%Z) None.
Definition copy_of (s : simple Z Z) : outcome (simple Z Z) := Ok s.
Definition getter : M (simple Z Z) Z := do* s := mget in mlift (sp_get s).

(** Two copies of a function evaluated at different arguments, then one assigned to the other. *)
Definition prog : list (wop (simple Z Z) Z) :=
  [OpRaw square; OpNew; OpSetRaw 0 0; OpCopy 0; OpCall 0 (sp_call 3%Z); OpCall 1 (sp_call 2%Z); OpCall 0 getter; OpCall 1 getter;
   OpAssign 1 0; OpCall 1 getter; OpDestroy 0; OpDestroy 1].
Definition prog_replies : list (reply Z) :=
  [Done; Done; Done; Done; Result 9%Z; Result 4%Z; Result 9%Z; Result 4%Z; Done; Result 9%Z; Done; Done].

Lemma prog_values : vrun copy_of vstart prog prog_replies (mkV [None; None] [None]).
Proof.
  unfold prog, prog_replies.
  eapply VThen; [apply VRaw|]. eapply VThen; [apply VNew|]. eapply VThen; [eapply VSet; reflexivity|].
  eapply VThen; [eapply VCopy; reflexivity|]. eapply VThen; [eapply VCall; reflexivity|]. eapply VThen; [eapply VCall; reflexivity|].
  eapply VThen; [eapply VCall; reflexivity|]. eapply VThen; [eapply VCall; reflexivity|].
  eapply VThen; [eapply VAssign; try reflexivity; discriminate|]. eapply VThen; [eapply VCall; reflexivity|].
  eapply VThen; [eapply VDestroy; reflexivity|]. eapply VThen; [eapply VDestroy; reflexivity|]. cbn. apply VEnd.
Qed.
Lemma prog_empty : (forall i x, ~ holds (T := simple Z Z) (mkV [None; None] [None]) i (Some x)) /\
  (forall k x, nth_error (v_raw (mkV (T := simple Z Z) [None; None] [None])) k <> Some (Some x)).
Proof. split; [intros [|[|[|i]]] x; discriminate|intros [|[|k]] x; discriminate]. Qed.

(** One full and one empty wrapper. *)
Definition two : values (simple Z Z) := mkV [Some (Some square); Some None] [].
Definition two_memory : wstate (simple Z Z) := mkW [Some square] [Some (Some 0); Some None] [].
Lemma two_reached : reached Z copy_of two_memory two.
Proof.
  exists [OpFrom square; OpNew], [Done; Done]. split; [|reflexivity].
  eapply VThen; [eapply VFrom; reflexivity|]. eapply VThen; [apply VNew|]. apply VEnd.
Qed.

(** A class whose clone() throws once a value was computed. *)
Definition throwing (s : simple Z Z) : outcome (simple Z Z) := match sp_val s with None => Ok s | Some _ => Throw RuntimeError end.
Definition used : simple Z Z := mkSimple "x*x" (fun x => Ok (x * x)%Z) (Some 9%Z).
Definition two_full : values (simple Z Z) := mkV [Some (Some square); Some (Some used)] [].
Definition two_full_memory : wstate (simple Z Z) := mkW [Some square; Some used] [Some (Some 0); Some (Some 1)] [].
Lemma two_full_reached : reached Z throwing two_full_memory two_full.
Proof.
  exists [OpFrom square; OpFrom square; OpCall 1 (sp_call 3%Z)], [Done; Done; Result 9%Z]. split; [|reflexivity].
  eapply VThen; [eapply VFrom; reflexivity|]. eapply VThen; [eapply VFrom; reflexivity|]. eapply VThen; [eapply VCall; reflexivity|]. apply VEnd.
Qed.
Lemma prog_memory : exists s, run copy_of prog start = Ok (prog_replies, s) /\ w_heap s = [None; None; None].
Proof. eexists. split; [vm_compute; reflexivity|reflexivity]. Qed.
Lemma two_assigned : exists s', step (B := Z) copy_of (OpAssign 1 0) two_memory = RRet s' Done /\ w_heap s' = [Some square; Some square].
Proof. eexists. split; [vm_compute; reflexivity|reflexivity]. Qed.

(** A destroyed wrapper, an empty one, one that holds a function, and an object of the client's. *)
Definition four : values (simple Z Z) := mkV [None; Some None; Some (Some square)] [Some square].
Definition four_memory : wstate (simple Z Z) := mkW [None; Some square; Some square] [None; Some None; Some (Some 1)] [2].
Lemma four_reached : reached Z copy_of four_memory four.
Proof.
  exists [OpFrom square; OpNew; OpFrom square; OpDestroy 0; OpRaw square], [Done; Done; Done; Done; Done]. split; [|reflexivity].
  eapply VThen; [eapply VFrom; reflexivity|]. eapply VThen; [apply VNew|]. eapply VThen; [eapply VFrom; reflexivity|].
  eapply VThen; [eapply VDestroy; reflexivity|]. eapply VThen; [apply VRaw|]. apply VEnd.
Qed.
Lemma four_facts : (forall o, ~ holds four 0 o) /\ holds four 1 None /\ holds four 2 (Some square) /\ nth_error (v_raw four) 0 = Some (Some square) /\
  List.length (v_raw four) = 1.
Proof. split; [intros o; discriminate|]. repeat split. Qed.
