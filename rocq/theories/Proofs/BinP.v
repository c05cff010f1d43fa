(** Proofs about the Bin model, for an arbitrary arithmetic. *)
From Coq Require Import ZArith List Bool Lia ZifyBool FinFun.
From Verif Require Import Model.Outcome Model.Num Model.NumInst Model.PNDArray Model.Bin.
From Verif Require Import Spec.Tensor Spec.NDHistory Spec.Grid Proofs.OutcomeP Proofs.PNDArrayP.
Import ListNotations.
Local Open Scope Z_scope.

(** ** Arbitrary arrays: a write changes one linear position. *)

Lemma nd_put_inv : forall (A : Type) (s s' : nd A) t a, nd_put s t a = Ok s' ->
  exists i, linear_index s t = Ok i /\ 0 <= i < Z.of_nat (length (nd_val s)) /\
    s' = mkNd (nd_dim s) (nd_unroll s) (lset (nd_val s) (Z.to_nat i) a) (nd_order s) (nd_volume s).
Proof.
  intros A s s' t a H. unfold nd_put in H. apply obind_ok in H. destruct H as (i & Hi & H).
  unfold nd_set in H. apply obind_ok in H. destruct H as (v & Hv & H). injection H as <-.
  apply vset_inv in Hv. destruct Hv as [Hb ->]. eauto.
Qed.

Lemma nd_put_at : forall (A : Type) (s s' : nd A) t a, nd_put s t a = Ok s' ->
  nd_at s' t = Ok a /\
  forall t' l, nd_at s t' = Ok l -> nd_at s' t' = Ok l \/ (nd_at s' t' = Ok a /\ nd_at s t' = nd_at s t).
Proof.
  intros A s s' t a H. destruct (nd_put_inv _ _ _ _ _ H) as (i & Hi & Hb & ->).
  split.
  - unfold nd_at. change (linear_index _ t) with (linear_index s t). rewrite Hi. simpl.
    unfold nd_get; simpl. apply vget_some. split; [lia|]. apply nth_error_lset_same. lia.
  - intros t' l Hl. unfold nd_at in *.
    change (linear_index (mkNd (nd_dim s) (nd_unroll s) (lset (nd_val s) (Z.to_nat i) a) (nd_order s) (nd_volume s)) t')
      with (linear_index s t').
    destruct (linear_index s t') as [j| | | |]; simpl in *; try discriminate.
    rewrite Hi. simpl. unfold nd_get in *; simpl.
    destruct (Z.eq_dec i j) as [->|Hne].
    + right. split; auto. apply vget_some. split; [lia|]. apply nth_error_lset_same. lia.
    + left. rewrite <- Hl. unfold vget in *. destruct (0 <=? j) eqn:E; auto.
      rewrite nth_error_lset_other by lia. auto.
Qed.

(** ** The odometer *)

(** Integers l, l+1, ..., h. *)
Definition zrange (l h : Z) : list Z := map (fun n => l + Z.of_nat n) (seq 0 (Z.to_nat (h - l + 1))).

(** All tuples between two corners, first index fastest. *)
Fixpoint box (lo hi : list Z) : list (list Z) :=
  match lo, hi with
  | l :: lo', h :: hi' => flat_map (fun r => map (fun k => k :: r) (zrange l h)) (box lo' hi')
  | _, _ => [[]]
  end.

Lemma in_zrange : forall l h k, In k (zrange l h) <-> l <= k <= h.
Proof.
  intros l h k; unfold zrange. rewrite in_map_iff. split.
  - intros (n & <- & Hn). apply in_seq in Hn. lia.
  - intros H. exists (Z.to_nat (k - l)). split; [lia|]. apply in_seq. lia.
Qed.

Lemma zrange_cons : forall l h, l <= h -> zrange l h = l :: zrange (l + 1) h.
Proof.
  intros l h H. unfold zrange. replace (Z.to_nat (h - l + 1)) with (S (Z.to_nat (h - (l + 1) + 1))) by lia.
  simpl. f_equal; [lia|]. rewrite <- seq_shift, map_map. apply map_ext. intros n. lia.
Qed.

Lemma zrange_nil : forall l h, h < l -> zrange l h = [].
Proof. intros l h H. unfold zrange. replace (Z.to_nat (h - l + 1)) with 0%nat by lia. reflexivity. Qed.

Lemma length_zrange : forall l h, length (zrange l h) = Z.to_nat (h - l + 1).
Proof. intros l h; unfold zrange. rewrite map_length, seq_length. auto. Qed.

Lemma NoDup_zrange : forall l h, NoDup (zrange l h).
Proof.
  intros l h. unfold zrange. apply Injective_map_NoDup; [|apply seq_NoDup].
  intros a b Hab. lia.
Qed.

Lemma in_box : forall lo hi t, length lo = length hi ->
  (In t (box lo hi) <-> Forall3 (fun l h k => l <= k <= h) lo hi t).
Proof.
  induction lo as [|l lo IH]; intros [|h hi] t Hlen; simpl in Hlen; try discriminate; simpl.
  - split.
    + intros [<-|[]]. constructor.
    + intros H. inversion H; auto.
  - rewrite in_flat_map. split.
    + intros (r & Hr & Ht). apply in_map_iff in Ht. destruct Ht as (k & <- & Hk).
      apply in_zrange in Hk. constructor; auto. apply IH; auto.
    + intros H. inversion H as [|? ? k ? ? t' Hk Ht']; subst.
      exists t'. split; [apply IH; auto|]. apply in_map_iff. exists k. split; auto. apply in_zrange; auto.
Qed.

Lemma length_box : forall lo hi, length lo = length hi -> length (box lo hi) = box_count lo hi.
Proof.
  induction lo as [|l lo IH]; intros [|h hi] Hlen; simpl in Hlen; try discriminate; auto.
  simpl. injection Hlen as Hlen. rewrite <- (IH hi Hlen). generalize (box lo hi) as rs.
  induction rs as [|r rs IHrs]; simpl; [lia|].
  rewrite app_length, map_length, length_zrange, IHrs. lia.
Qed.

Lemma NoDup_app_disjoint : forall (A : Type) (a b : list A),
  NoDup a -> NoDup b -> (forall x, In x a -> ~ In x b) -> NoDup (a ++ b).
Proof.
  intros A a b Ha Hb H. induction Ha as [|x a Hx Ha IH]; simpl; auto.
  constructor.
  - rewrite in_app_iff. intros [Hin|Hin]; [auto|]. apply (H x); simpl; auto.
  - apply IH. intros y Hy. apply H. simpl; auto.
Qed.

Lemma NoDup_box : forall lo hi, length lo = length hi -> NoDup (box lo hi).
Proof.
  induction lo as [|l lo IH]; intros [|h hi] Hlen; simpl in Hlen; try discriminate; simpl.
  - constructor; [simpl; tauto|constructor].
  - injection Hlen as Hlen. specialize (IH hi Hlen). revert IH. generalize (box lo hi) as rs.
    induction rs as [|r rs IHrs]; intros Hnd; simpl; [constructor|].
    inversion Hnd as [|? ? Hr Hrs]; subst.
    assert (Hmap : NoDup (map (fun k => k :: r) (zrange l h))).
    { apply Injective_map_NoDup; [|apply NoDup_zrange]. intros a b Hab; congruence. }
    apply NoDup_app_disjoint; auto.
    intros x Hx Hin. apply in_map_iff in Hx. destruct Hx as (k & <- & _).
    apply in_flat_map in Hin. destruct Hin as (r' & Hr' & Hin).
    apply in_map_iff in Hin. destruct Hin as (k' & Heq & _). injection Heq as _ ->. contradiction.
Qed.

(** [ts] is a run of the counter: each tuple's successor is the next one, the last has none. *)
Inductive run (next : list Z -> outcome (option (list Z))) : list (list Z) -> Prop :=
| run_last : forall t, next t = Ok None -> run next [t]
| run_more : forall t t' ts, next t = Ok (Some t') -> run next (t' :: ts) -> run next (t :: t' :: ts).

(** A partial run: ends in a tuple whose successor is given by [k]. *)
Inductive prun (next : list Z -> outcome (option (list Z))) (final : outcome (option (list Z))) : list (list Z) -> Prop :=
| prun_last : forall t, next t = final -> prun next final [t]
| prun_more : forall t t' ts, next t = Ok (Some t') -> prun next final (t' :: ts) -> prun next final (t :: t' :: ts).

Lemma prun_run : forall next ts, prun next (Ok None) ts -> run next ts.
Proof. intros next ts H; induction H; [apply run_last|apply run_more]; auto. Qed.

Lemma prun_app : forall next final ts t' ts',
  prun next (Ok (Some t')) ts -> prun next final (t' :: ts') -> prun next final (ts ++ t' :: ts').
Proof.
  intros next final ts t' ts' H1 H2. induction H1 as [t Ht|t t1 ts Ht H IH]; simpl.
  - apply prun_more; auto.
  - apply prun_more; auto.
Qed.

Lemma odo_inner : forall n l lo h hi r, in_int h = true ->
  forall k, k <= h -> INT_MIN <= k ->
  prun (odo_next n (l :: lo) (h :: hi)) (odo_next n (l :: lo) (h :: hi) (h :: r))
       (map (fun k => k :: r) (zrange k h)).
Proof.
  intros n l lo h hi r Hh k Hk Hmin.
  remember (Z.to_nat (h - k)) as m eqn:Hm. revert k Hk Hmin Hm.
  induction m as [|m IH]; intros k Hk Hmin Hm.
  - assert (k = h) by lia. subst k. rewrite zrange_cons, zrange_nil by lia. simpl. apply prun_last. auto.
  - rewrite zrange_cons by lia. rewrite (zrange_cons (k + 1)) by lia. simpl. apply prun_more.
    + unfold odo_next. destruct n; replace (k =? h) with false by lia;
      (rewrite cint_ok by (unfold in_int in Hh; lia)); reflexivity.
    + specialize (IH (k + 1) ltac:(lia) ltac:(lia) ltac:(lia)).
      rewrite (zrange_cons (k + 1)) in IH by lia. exact IH.
Qed.

Lemma odo_next_top : forall n l lo h hi r, 
  odo_next (S (S n)) (l :: lo) (h :: hi) (h :: r) =
  obind (odo_next (S n) lo hi r) (fun x => match x with None => Ok None | Some c => Ok (Some (l :: c)) end).
Proof. intros. cbn [odo_next]. rewrite Z.eqb_refl. reflexivity. Qed.

Lemma prun_flat : forall n l lo h hi rs, in_int h = true -> l <= h -> INT_MIN <= l ->
  prun (odo_next (S n) lo hi) (Ok None) rs ->
  prun (odo_next (S (S n)) (l :: lo) (h :: hi)) (Ok None)
       (flat_map (fun r => map (fun k => k :: r) (zrange l h)) rs).
Proof.
  intros n l lo h hi rs Hh Hlh Hmin Hrun.
  induction Hrun as [r Hr|r r' rs Hr Hrun IHrun].
  - cbn [flat_map]. rewrite app_nil_r.
    pose proof (odo_inner (S (S n)) l lo h hi r Hh l Hlh Hmin) as H.
    rewrite odo_next_top, Hr in H. exact H.
  - pose proof (odo_inner (S (S n)) l lo h hi r Hh l Hlh Hmin) as H.
    rewrite odo_next_top, Hr in H. cbn [obind] in H.
    change (flat_map (fun r => map (fun k => k :: r) (zrange l h)) (r :: r' :: rs))
      with (map (fun k => k :: r) (zrange l h) ++
            flat_map (fun r => map (fun k => k :: r) (zrange l h)) (r' :: rs)).
    assert (Hc : exists tl, flat_map (fun r => map (fun k => k :: r) (zrange l h)) (r' :: rs) = (l :: r') :: tl).
    { pose proof (zrange_cons l h Hlh) as Hz. destruct (zrange l h) as [|k zr]; [discriminate|].
      injection Hz as -> _. cbn [flat_map map app]. eauto. }
    destruct Hc as (tl & Hc). rewrite Hc in IHrun |- *. apply prun_app; auto.
Qed.

Lemma odo_run : forall lo hi, lo <> [] ->
  Forall2 Z.le lo hi -> Forall (fun z => in_int z = true) lo -> Forall (fun z => in_int z = true) hi ->
  run (odo_next (length lo) lo hi) (box lo hi) /\ exists ts, box lo hi = lo :: ts.
Proof.
  intros lo hi Hne Hle Hlo Hhi.
  enough (prun (odo_next (length lo) lo hi) (Ok None) (box lo hi) /\ exists ts, box lo hi = lo :: ts) as [H1 H2].
  { split; auto. apply prun_run; auto. }
  revert Hne Hlo Hhi. induction Hle as [|l h lo hi Hlh Hle IH]; intros Hne Hlo Hhi; [congruence|].
  inversion Hlo as [|? ? Hl Hlo']; subst. inversion Hhi as [|? ? Hh Hhi']; subst.
  assert (Hmin : INT_MIN <= l) by (unfold in_int in Hl; lia).
  destruct lo as [|l2 lo].
  - inversion Hle; subst hi. simpl box. rewrite app_nil_r. split.
    + pose proof (odo_inner 1 l [] h [] [] Hh l Hlh Hmin) as H.
      replace (odo_next 1 [l] [h] [h]) with (@Ok (option (list Z)) None) in H; auto.
      simpl. rewrite Z.eqb_refl. reflexivity.
    + rewrite zrange_cons by lia. simpl. eauto.
  - destruct (IH ltac:(discriminate) Hlo' Hhi') as [Hrun (ts & Hts)]. clear IH.
    split.
    + change (box (l :: l2 :: lo) (h :: hi)) with
        (flat_map (fun r => map (fun k => k :: r) (zrange l h)) (box (l2 :: lo) hi)).
      change (length (l :: l2 :: lo)) with (S (S (length lo))).
      apply prun_flat; auto.
    + change (box (l :: l2 :: lo) (h :: hi)) with
        (flat_map (fun r => map (fun k => k :: r) (zrange l h)) (box (l2 :: lo) hi)).
      rewrite Hts. pose proof (zrange_cons l h Hlh) as Hz. destruct (zrange l h) as [|k zr]; [discriminate|].
      injection Hz as -> _. cbn [flat_map map app]. eauto.
Qed.

(** ** Operations, for an arbitrary arithmetic *)

Section Generic.
Context {O : NumOps} {T : Type}.
Implicit Types (b : bin O T) (c : list (num O)).

(** The coordinate passes the range check. *)
Definition accepted (mn mx c : list (num O)) : Prop :=
  Forall3 (fun a z x => nltb O x a = false /\ nltb O z x = false) mn mx c.

(** The coordinate fails the range check. *)
Definition rejected (mn mx c : list (num O)) : Prop :=
  Exists3 (fun a z x => nltb O x a = true \/ nltb O z x = true) mn mx c.

(** The computed index tuple. *)
Definition has_index (mn inc c : list (num O)) (t : list Z) : Prop :=
  Forall4 (fun a h x k => nfloor O (ndiv O (nsub O x a) h) = Some k /\ in_int k = true) mn inc c t.

(** Every accepted coordinate component converts to an int. *)
Definition int_safe (mn mx inc : list (num O)) : Prop :=
  Forall3 (fun a z h => forall x, nltb O x a = false -> nltb O z x = false ->
     exists k, nfloor O (ndiv O (nsub O x a) h) = Some k /\ in_int k = true) mn mx inc.

Record bin_inv (mn inc mx : list (num O)) (N : list Z) (b : bin O T) : Prop := mkInv {
  inv_min : bin_min b = mn;
  inv_incr : bin_incr b = inc;
  inv_max : bin_max b = mx;
  inv_N : bin_N b = N;
  inv_wf : nd_wf (bin_item b);
  inv_dim : nd_dim (bin_item b) = N;
  inv_proper : proper_shape N;
  inv_ind : length (bin_indices b) = length N
}.

Lemma floor_to_int_ok : forall x k, nfloor O x = Some k -> in_int k = true -> floor_to_int O x = Ok k.
Proof. intros x k H1 H2. unfold floor_to_int. rewrite H1, H2. auto. Qed.

Lemma indices_loop_ok : forall mn mx inc c t term,
  accepted mn mx c -> has_index mn inc c t -> length term = length t ->
  bin_indices_loop (length t) c mn mx inc term = RRet t tt.
Proof.
  intros mn mx inc c t term Hacc Hidx. revert mx Hacc term.
  induction Hidx as [|a h x k mn inc c t [Hf Hi] Hidx IH]; intros mx Hacc term Hlen.
  - destruct term; simpl in *; try discriminate. auto.
  - inversion Hacc as [|? z ? ? mx' ? [H1 H2] Hacc']; subst.
    destruct term as [|y term]; simpl in Hlen; try discriminate. injection Hlen as Hlen.
    cbn [length bin_indices_loop]. rewrite H1, H2. simpl orb. cbv iota.
    rewrite (floor_to_int_ok _ _ Hf Hi). rewrite IH by auto. reflexivity.
Qed.

Lemma indices_loop_inv : forall n mn mx inc c t term u,
  bin_indices_loop n c mn mx inc term = RRet t u ->
  n = length mn -> length mx = n -> length inc = n -> length c = n -> length term = n ->
  accepted mn mx c /\ has_index mn inc c t.
Proof.
  induction n as [|n IH]; intros mn mx inc c t term u H H1 H2 H3 H4 H5.
  - destruct mn, mx, inc, c, term; simpl in *; try discriminate. injection H as <- _. split; constructor.
  - destruct mn as [|a mn], mx as [|z mx], inc as [|h inc], c as [|x c], term as [|y term];
      simpl in H1, H2, H3, H4, H5; try discriminate.
    cbn [bin_indices_loop] in H. destruct (nltb O x a) eqn:E1; [discriminate|].
    destruct (nltb O z x) eqn:E2; [discriminate|]. simpl orb in H. cbv iota in H.
    unfold floor_to_int in H. destruct (nfloor O (ndiv O (nsub O x a) h)) as [k|] eqn:E3; [|discriminate].
    destruct (in_int k) eqn:E4; [|discriminate].
    destruct (bin_indices_loop n c mn mx inc term) as [t' u'| | | |] eqn:E5; try discriminate.
    injection H as <- <-.
    destruct (IH _ _ _ _ _ _ _ E5) as [Ha Hi]; try lia. split; constructor; auto.
Qed.

Lemma indices_loop_reject : forall mn mx inc c term,
  rejected mn mx c -> int_safe mn mx inc -> length term = length c ->
  exists t, bin_indices_loop (length c) c mn mx inc term = RThrow t DomainError /\ length t = length term.
Proof.
  intros mn mx inc c term Hrej. revert inc term.
  induction Hrej as [a z x mn mx c Hout H1 H2|a z x mn mx c Hrej IH]; intros inc term Hsafe Hlen.
  - exists term. split; auto. cbn [length bin_indices_loop].
    destruct Hout as [Hout|Hout]; rewrite Hout; simpl; rewrite ?orb_true_r; auto.
  - inversion Hsafe as [|? ? h ? ? inc' Hs Hsafe']; subst.
    destruct term as [|y term]; simpl in Hlen; try discriminate. injection Hlen as Hlen.
    cbn [length bin_indices_loop].
    destruct (nltb O x a) eqn:E1; [simpl; eauto|].
    destruct (nltb O z x) eqn:E2; [simpl; eauto|]. simpl orb. cbv iota.
    destruct (Hs x E1 E2) as (k & Hf & Hi). rewrite (floor_to_int_ok _ _ Hf Hi).
    destruct (IH inc' term Hsafe' Hlen) as (t & -> & Ht). exists (k :: t). split; auto. simpl; lia.
Qed.

Lemma has_index_length : forall mn inc c t, has_index mn inc c t ->
  length mn = length t /\ length inc = length t /\ length c = length t.
Proof. intros mn inc c t H; induction H; simpl; lia. Qed.

Lemma has_index_fun : forall mn inc c t t', has_index mn inc c t -> has_index mn inc c t' -> t = t'.
Proof.
  intros mn inc c t t' H; revert t'. induction H as [|a h x k mn inc c t [H1 _] H IH]; intros t' H'.
  - inversion H'; auto.
  - inversion H' as [|? ? ? k' ? ? ? t2 [H1' _] H2]; subst. f_equal; [congruence|auto].
Qed.

Lemma has_index_int : forall mn inc c t, has_index mn inc c t -> Forall (fun z => in_int z = true) t.
Proof. intros mn inc c t H; induction H as [|? ? ? ? ? ? ? ? [_ H1] H IH]; constructor; auto. Qed.

Lemma int_safe_index : forall mn mx inc c, accepted mn mx c -> int_safe mn mx inc ->
  exists t, has_index mn inc c t.
Proof.
  intros mn mx inc c Hacc. revert inc. induction Hacc as [|a z x mn mx c [H1 H2] Hacc IH]; intros inc Hs.
  - inversion Hs; subst. exists []; constructor.
  - inversion Hs as [|? ? h ? ? inc' Hk Hs']; subst.
    destruct (Hk x H1 H2) as (k & Hf & Hi). destruct (IH _ Hs') as (t & Ht).
    exists (k :: t). constructor; auto.
Qed.

Lemma order_length : forall mn inc mx N b, bin_inv mn inc mx N b ->
  Z.to_nat (nd_order (bin_item b)) = length N.
Proof.
  intros mn inc mx N b H.
  destruct (nd_wf_view _ _ (inv_wf _ _ _ _ _ H)) as (Ho & _). rewrite Ho, (inv_dim _ _ _ _ _ H). lia.
Qed.

Lemma set_indices_inv : forall mn inc mx N b t, bin_inv mn inc mx N b -> length t = length N ->
  bin_inv mn inc mx N (bin_set_indices b t).
Proof. intros mn inc mx N b t [] Hl. constructor; simpl; auto. Qed.

Lemma find_ok : forall mn inc mx N b c t, bin_inv mn inc mx N b ->
  accepted mn mx c -> has_index mn inc c t -> length t = length N ->
  bin_find c b = RRet (bin_set_indices b t) tt.
Proof.
  intros mn inc mx N b c t Hinv Hacc Hidx Hlen. unfold bin_find, bin_indices_into.
  rewrite (order_length _ _ _ _ _ Hinv), <- Hlen.
  rewrite (inv_min _ _ _ _ _ Hinv), (inv_max _ _ _ _ _ Hinv), (inv_incr _ _ _ _ _ Hinv).
  rewrite indices_loop_ok by (auto; rewrite (inv_ind _ _ _ _ _ Hinv); auto). reflexivity.
Qed.

Lemma find_reject : forall mn inc mx N b c, bin_inv mn inc mx N b ->
  rejected mn mx c -> int_safe mn mx inc -> length c = length N ->
  exists t, bin_find c b = RThrow (bin_set_indices b t) DomainError /\ length t = length N.
Proof.
  intros mn inc mx N b c Hinv Hrej Hs Hlen. unfold bin_find, bin_indices_into.
  rewrite (order_length _ _ _ _ _ Hinv), <- Hlen.
  rewrite (inv_min _ _ _ _ _ Hinv), (inv_max _ _ _ _ _ Hinv), (inv_incr _ _ _ _ _ Hinv).
  destruct (indices_loop_reject _ _ inc _ (bin_indices b) Hrej Hs) as (t & -> & Ht).
  { rewrite (inv_ind _ _ _ _ _ Hinv); auto. }
  exists t. split; auto. rewrite Ht, (inv_ind _ _ _ _ _ Hinv). auto.
Qed.

Lemma contents_ok : forall mn inc mx N b c t, bin_inv mn inc mx N b ->
  accepted mn mx c -> has_index mn inc c t -> valid_index N t ->
  exists l, nd_at (bin_item b) t = Ok l /\ bin_contents c b = RRet (bin_set_indices b t) l.
Proof.
  intros mn inc mx N b c t Hinv Hacc Hidx Hv.
  pose proof (valid_index_length _ _ Hv) as Hlen.
  destruct (nd_at_wf _ (bin_item b) t (inv_wf _ _ _ _ _ Hinv)) as (l & Hl & _).
  { rewrite (inv_dim _ _ _ _ _ Hinv). apply (inv_proper _ _ _ _ _ Hinv). }
  { rewrite (inv_dim _ _ _ _ _ Hinv). auto. }
  exists l. split; auto. unfold bin_contents, mbind.
  rewrite (find_ok _ _ _ _ _ _ _ Hinv Hacc Hidx Hlen). unfold mget, mlift. simpl. rewrite Hl. auto.
Qed.

Lemma view_ok : forall mn inc mx N b c t, bin_inv mn inc mx N b ->
  accepted mn mx c -> has_index mn inc c t -> valid_index N t ->
  view b c = nd_at (bin_item b) t.
Proof.
  intros mn inc mx N b c t Hinv Hacc Hidx Hv.
  destruct (contents_ok _ _ _ _ _ _ _ Hinv Hacc Hidx Hv) as (l & Hl & Hc).
  unfold view. rewrite Hc, Hl. auto.
Qed.

Lemma push_ok : forall mn inc mx N b x, bin_inv mn inc mx N b -> valid_index N (bin_indices b) ->
  exists b' l, bin_push x b = RRet b' tt /\ bin_inv mn inc mx N b' /\ bin_indices b' = bin_indices b /\
    nd_at (bin_item b) (bin_indices b) = Ok l /\
    nd_at (bin_item b') (bin_indices b) = Ok (l ++ [x]) /\
    (forall t, valid_index N t -> t <> bin_indices b -> nd_at (bin_item b') t = nd_at (bin_item b) t).
Proof.
  intros mn inc mx N b x Hinv Hv.
  assert (Hne : nd_dim (bin_item b) <> []).
  { rewrite (inv_dim _ _ _ _ _ Hinv). apply (inv_proper _ _ _ _ _ Hinv). }
  assert (Hv' : valid_index (nd_dim (bin_item b)) (bin_indices b)).
  { rewrite (inv_dim _ _ _ _ _ Hinv); auto. }
  destruct (nd_at_wf _ _ _ (inv_wf _ _ _ _ _ Hinv) Hne Hv') as (l & Hl & _).
  destruct (nd_put_wf _ (bin_item b) (bin_indices b) (l ++ [x]) (inv_wf _ _ _ _ _ Hinv) Hne Hv')
    as (it & Hput & Hwf & Hdim & _ & _ & Hat & _ & Hoth & _).
  exists (bin_set_item b it), l.
  split; [unfold bin_push, mbind, mget, mlift, mput; rewrite Hl, Hput; reflexivity|].
  split.
  { destruct Hinv; constructor; simpl; auto. congruence. }
  simpl. repeat split; auto.
  intros t Ht Hneq. apply Hoth; auto. rewrite (inv_dim _ _ _ _ _ Hinv). auto.
Qed.

(** The effect of appending [x] to the bins in [ts], seen through the index tuples. *)
Definition appended (N : list Z) (x : T) (P : list Z -> Prop) (b b' : bin O T) : Prop :=
  forall t, valid_index N t ->
    exists l, nd_at (bin_item b) t = Ok l /\
      (P t -> nd_at (bin_item b') t = Ok (l ++ [x])) /\
      (~ P t -> nd_at (bin_item b') t = Ok l).

Lemma nd_at_inv_ok : forall mn inc mx N b t, bin_inv mn inc mx N b -> valid_index N t ->
  exists l, nd_at (bin_item b) t = Ok l.
Proof.
  intros mn inc mx N b t Hinv Hv.
  destruct (nd_at_wf _ (bin_item b) t (inv_wf _ _ _ _ _ Hinv)) as (l & Hl & _); eauto.
  - rewrite (inv_dim _ _ _ _ _ Hinv). apply (inv_proper _ _ _ _ _ Hinv).
  - rewrite (inv_dim _ _ _ _ _ Hinv); auto.
Qed.

Lemma push_appended : forall mn inc mx N b x, bin_inv mn inc mx N b -> valid_index N (bin_indices b) ->
  exists b', bin_push x b = RRet b' tt /\ bin_inv mn inc mx N b' /\ bin_indices b' = bin_indices b /\
    appended N x (fun t => t = bin_indices b) b b'.
Proof.
  intros mn inc mx N b x Hinv Hv.
  destruct (push_ok _ _ _ _ _ x Hinv Hv) as (b' & l & Hp & Hinv' & Hi & Hl & Hl' & Hoth).
  exists b'. split; [auto|]. split; [auto|]. split; [auto|].
  intros t Ht. destruct (nd_at_inv_ok _ _ _ _ _ _ Hinv Ht) as (lt & Hlt).
  exists lt. split; auto. split.
  - intros ->. congruence.
  - intros Hne. rewrite Hoth; auto.
Qed.

Lemma add_ok : forall mn inc mx N b x c t, bin_inv mn inc mx N b ->
  accepted mn mx c -> has_index mn inc c t -> valid_index N t ->
  exists b', bin_add x c b = RRet b' tt /\ bin_inv mn inc mx N b' /\ appended N x (fun t' => t' = t) b b'.
Proof.
  intros mn inc mx N b x c t Hinv Hacc Hidx Hv.
  pose proof (valid_index_length _ _ Hv) as Hlen.
  unfold bin_add, mbind. rewrite (find_ok _ _ _ _ _ _ _ Hinv Hacc Hidx Hlen).
  destruct (push_appended mn inc mx N (bin_set_indices b t) x) as (b' & Hp & Hinv' & _ & Happ).
  { apply set_indices_inv; auto. }
  { simpl; auto. }
  exists b'. split; [exact Hp|]. split; auto.
Qed.

Lemma add_once_ok : forall (teqb : T -> T -> bool) mn inc mx N b x c t, bin_inv mn inc mx N b ->
  accepted mn mx c -> has_index mn inc c t -> valid_index N t ->
  exists l b', nd_at (bin_item b) t = Ok l /\ bin_add_once teqb x c b = RRet b' tt /\ bin_inv mn inc mx N b' /\
    (existsb (fun y => teqb y x) l = true -> appended N x (fun _ => False) b b') /\
    (existsb (fun y => teqb y x) l = false -> appended N x (fun t' => t' = t) b b').
Proof.
  intros teqb mn inc mx N b x c t Hinv Hacc Hidx Hv.
  pose proof (valid_index_length _ _ Hv) as Hlen.
  destruct (nd_at_inv_ok _ _ _ _ _ _ Hinv Hv) as (l & Hl).
  pose proof (set_indices_inv _ _ _ _ _ t Hinv Hlen) as Hinv1.
  destruct (existsb (fun y => teqb y x) l) eqn:E.
  - exists l, (bin_set_indices b t). split; auto.
    split.
    { unfold bin_add_once, mbind. rewrite (find_ok _ _ _ _ _ _ _ Hinv Hacc Hidx Hlen).
      unfold mget, mlift. simpl. rewrite Hl, E. reflexivity. }
    split; [auto|]. split; [|congruence].
    intros _ t' Ht'. destruct (nd_at_inv_ok _ _ _ _ _ _ Hinv Ht') as (l' & Hl'). exists l'. simpl. tauto.
  - destruct (push_appended mn inc mx N (bin_set_indices b t) x Hinv1) as (b' & Hp & Hinv' & _ & Happ); [auto|].
    exists l, b'. split; auto. split.
    { unfold bin_add_once, mbind. rewrite (find_ok _ _ _ _ _ _ _ Hinv Hacc Hidx Hlen).
      unfold mget, mlift. simpl. rewrite Hl, E. exact Hp. }
    split; [auto|]. split; [congruence|]. intros _. exact Happ.
Qed.

(** ** add_range *)

Lemma local_indices_ok : forall mn inc mx N b c t, bin_inv mn inc mx N b ->
  accepted mn mx c -> has_index mn inc c t -> length t = length N ->
  bin_local_indices c b = RRet b t.
Proof.
  intros mn inc mx N b c t Hinv Hacc Hidx Hlen. unfold bin_local_indices, bin_indices_into.
  rewrite (order_length _ _ _ _ _ Hinv), <- Hlen.
  rewrite (inv_min _ _ _ _ _ Hinv), (inv_max _ _ _ _ _ Hinv), (inv_incr _ _ _ _ _ Hinv).
  rewrite indices_loop_ok by (auto; rewrite repeat_length; auto). reflexivity.
Qed.

Lemma local_indices_reject : forall mn inc mx N b c, bin_inv mn inc mx N b ->
  rejected mn mx c -> int_safe mn mx inc -> length c = length N ->
  bin_local_indices c b = RThrow b DomainError.
Proof.
  intros mn inc mx N b c Hinv Hrej Hs Hlen. unfold bin_local_indices, bin_indices_into.
  rewrite (order_length _ _ _ _ _ Hinv), <- Hlen.
  rewrite (inv_min _ _ _ _ _ Hinv), (inv_max _ _ _ _ _ Hinv), (inv_incr _ _ _ _ _ Hinv).
  destruct (indices_loop_reject _ _ inc _ (repeat 0 (length c)) Hrej Hs) as (t & -> & Ht).
  { rewrite repeat_length; auto. }
  auto.
Qed.

Lemma loop_appended : forall mn inc mx N x lo hi ts,
  run (odo_next (length N) lo hi) ts -> NoDup ts -> Forall (valid_index N) ts ->
  forall fuel b, (length ts <= fuel)%nat -> bin_inv mn inc mx N b ->
  (exists ts', ts = bin_indices b :: ts') ->
  exists b', add_range_loop fuel x lo hi b = RRet b' tt /\ bin_inv mn inc mx N b' /\
    appended N x (fun t => In t ts) b b'.
Proof.
  intros mn inc mx N x lo hi ts Hrun.
  induction Hrun as [t Hnx|t t' ts Hnx Hrun IH]; intros Hnd Hval fuel b Hf Hinv [ts' Heq].
  - injection Heq as -> <-. destruct fuel as [|fuel]; [simpl in Hf; lia|].
    inversion Hval as [|? ? Hv _]; subst.
    destruct (push_appended _ _ _ _ _ x Hinv Hv) as (b' & Hp & Hinv' & Hi & Happ).
    exists b'. split; [|split; [auto|]].
    + cbn [add_range_loop]. unfold mbind, mget, mlift. rewrite Hp.
      rewrite (order_length _ _ _ _ _ Hinv'), Hi, Hnx. reflexivity.
    + intros t Ht. destruct (Happ t Ht) as (l & H1 & H2 & H3). exists l. split; auto. simpl.
      split; intros H; [destruct H as [<-|[]]; auto|]. apply H3. intros ->; tauto.
  - injection Heq as -> Hts. destruct fuel as [|fuel]; [simpl in Hf; lia|].
    inversion Hval as [|? ? Hv Hval']; subst. inversion Hnd as [|? ? Hnin Hnd']; subst.
    destruct (push_appended _ _ _ _ _ x Hinv Hv) as (b1 & Hp & Hinv1 & Hi & Happ).
    assert (Hlen' : length t' = length N).
    { inversion Hval'; subst. apply valid_index_length; auto. }
    pose proof (set_indices_inv _ _ _ _ _ t' Hinv1 Hlen') as Hinv2.
    destruct (IH Hnd' Hval' fuel (bin_set_indices b1 t')) as (b' & Hl & Hinv' & Happ').
    { simpl in *; lia. }
    { auto. }
    { simpl; eauto. }
    exists b'. split; [|split; [auto|]].
    + cbn [add_range_loop]. unfold mbind, mget, mlift, mput. rewrite Hp.
      rewrite (order_length _ _ _ _ _ Hinv1), Hi, Hnx. exact Hl.
    + intros t Ht. destruct (Happ t Ht) as (l & H1 & H2 & H3).
      destruct (Happ' t Ht) as (l' & H1' & H2' & H3'). simpl in H1'.
      exists l. split; auto. split.
      * intros [<-|Hin].
        -- rewrite (H2 eq_refl) in H1'. injection H1' as <-. apply H3'. auto.
        -- assert (Hne : t <> bin_indices b) by (intros ->; contradiction).
           rewrite (H3 Hne) in H1'. injection H1' as <-. apply H2'. auto.
      * intros Hnin'. assert (Hne : t <> bin_indices b) by (intros ->; apply Hnin'; simpl; auto).
        rewrite (H3 Hne) in H1'. injection H1' as <-. apply H3'. intros Hin. apply Hnin'. simpl; auto.
Qed.

Lemma valid_index_int : forall N t, proper_shape N -> valid_index N t -> Forall (fun z => in_int z = true) t.
Proof.
  intros N t (_ & Hpos & Hmax) Hv. unfold int_max in Hmax.
  assert (H : forall P, Forall (fun d => 0 < d) P -> zprod P <= 2 ^ 31 - 1 -> Forall (fun d => d <= 2 ^ 31 - 1) P).
  { intros P HP. induction HP as [|d P Hd HP IH]; intros Hm; constructor; rewrite zprod_cons in Hm;
      pose proof (zprod_pos P HP); [nia|apply IH; nia]. }
  specialize (H N Hpos Hmax). clear Hmax Hpos. revert H.
  induction Hv as [|d i N t Hi Hv IH]; intros H; inversion H; subst; constructor; auto.
  unfold in_int, INT_MIN, INT_MAX. lia.
Qed.

Lemma box_valid : forall N lo hi, valid_index N lo -> valid_index N hi ->
  forall t, In t (box lo hi) -> valid_index N t.
Proof.
  intros N lo hi Hlo Hhi t Ht.
  pose proof (valid_index_length _ _ Hlo). pose proof (valid_index_length _ _ Hhi).
  apply in_box in Ht; [|congruence]. clear H H0. revert Ht Hlo Hhi. intros Ht; revert N.
  induction Ht as [|l h k lo hi t Hk Ht IH]; intros N Hlo Hhi.
  - inversion Hlo; constructor.
  - inversion Hlo as [|n ? N' ? Hn Hlo']; subst. inversion Hhi as [|? ? ? ? Hn' Hhi']; subst.
    constructor; [lia|apply IH; auto].
Qed.

Lemma add_range_ok : forall mn inc mx N b x cmin cmax lo hi, bin_inv mn inc mx N b ->
  accepted mn mx cmin -> has_index mn inc cmin lo -> valid_index N lo ->
  accepted mn mx cmax -> has_index mn inc cmax hi -> valid_index N hi ->
  Forall2 Z.le lo hi ->
  exists b', bin_add_range x cmin cmax b = RRet b' tt /\ bin_inv mn inc mx N b' /\
    appended N x (fun t => Forall3 (fun l h k => l <= k <= h) lo hi t) b b'.
Proof.
  intros mn inc mx N b x cmin cmax lo hi Hinv Ha1 Hi1 Hv1 Ha2 Hi2 Hv2 Hle.
  pose proof (valid_index_length _ _ Hv1) as Hl1. pose proof (valid_index_length _ _ Hv2) as Hl2.
  assert (Hlen : length lo = length hi) by congruence.
  assert (Hne : lo <> []).
  { destruct (inv_proper _ _ _ _ _ Hinv) as (Hne & _). intros ->. destruct N; simpl in *; congruence. }
  destruct (odo_run lo hi Hne Hle (has_index_int _ _ _ _ Hi1) (has_index_int _ _ _ _ Hi2)) as [Hrun Hhd].
  destruct (loop_appended mn inc mx N x lo hi (box lo hi)) with (fuel := box_count lo hi) (b := bin_set_indices b lo)
    as (b' & Hl & Hinv' & Happ).
  - rewrite <- Hl1. exact Hrun.
  - apply NoDup_box; auto.
  - apply Forall_forall. intros t. apply box_valid; auto.
  - rewrite length_box; auto.
  - apply set_indices_inv; auto.
  - simpl. exact Hhd.
  - exists b'. split.
    { unfold bin_add_range, mbind, mmod.
      rewrite (local_indices_ok _ _ _ _ _ _ _ Hinv Ha1 Hi1 Hl1).
      rewrite (local_indices_ok _ _ _ _ _ _ _ Hinv Ha2 Hi2 Hl2). exact Hl. }
    split; auto.
    intros t Ht. destruct (Happ t Ht) as (l & H1 & H2 & H3). exists l. simpl in H1. split; auto.
    rewrite <- in_box by auto. auto.
Qed.

(** ** add_range without validity of the indices: what is in the box is found *)

Definition grows (b b' : bin O T) : Prop :=
  nd_unroll (bin_item b') = nd_unroll (bin_item b) /\ nd_order (bin_item b') = nd_order (bin_item b) /\
  bin_min b' = bin_min b /\ bin_max b' = bin_max b /\ bin_incr b' = bin_incr b /\
  forall t l, nd_at (bin_item b) t = Ok l -> exists l', nd_at (bin_item b') t = Ok (l ++ l').

Lemma grows_refl : forall b, grows b b.
Proof. intros b; repeat split; auto. intros t l H. exists []. rewrite app_nil_r. auto. Qed.

Lemma grows_trans : forall b1 b2 b3, grows b1 b2 -> grows b2 b3 -> grows b1 b3.
Proof.
  intros b1 b2 b3 (A1 & A2 & A3 & A4 & A5 & A6) (B1 & B2 & B3 & B4 & B5 & B6).
  repeat split; try congruence. intros t l H. destruct (A6 t l H) as (l' & H'). destruct (B6 t _ H') as (l'' & H'').
  exists (l' ++ l''). rewrite H'', app_assoc. auto.
Qed.

Lemma push_grows : forall x b b' u, bin_push x b = RRet b' u ->
  grows b b' /\ bin_indices b' = bin_indices b /\
  exists l, nd_at (bin_item b') (bin_indices b) = Ok (l ++ [x]).
Proof.
  intros x b b' u H. unfold bin_push, mbind, mget, mlift, mput in H.
  destruct (nd_at (bin_item b) (bin_indices b)) as [l| | | |] eqn:E1; try discriminate.
  destruct (nd_put (bin_item b) (bin_indices b) (l ++ [x])) as [it| | | |] eqn:E2; try discriminate.
  injection H as <- _. destruct (nd_put_at _ _ _ _ _ E2) as [Hat Hoth].
  destruct (nd_put_inv _ _ _ _ _ E2) as (i & _ & _ & Hit).
  split; [|split; [reflexivity|simpl; eauto]].
  subst it. repeat split; auto. intros t l0 Hl0.
  destruct (Hoth t l0 Hl0) as [H|[H1 H2]].
  - exists []. rewrite app_nil_r. auto.
  - exists [x]. rewrite E1 in H2. rewrite H2 in Hl0. injection Hl0 as <-. exact H1.
Qed.

Lemma loop_found : forall n x lo hi ts,
  run (odo_next n lo hi) ts ->
  forall fuel b b' u, (exists ts', ts = bin_indices b :: ts') -> n = Z.to_nat (nd_order (bin_item b)) ->
  add_range_loop fuel x lo hi b = RRet b' u ->
  grows b b' /\ forall t, In t ts -> exists l, nd_at (bin_item b') t = Ok l /\ In x l.
Proof.
  intros n x lo hi ts Hrun.
  induction Hrun as [t Hnx|t t' ts Hnx Hrun IH]; intros fuel b b' u [ts' Heq] Hn Hl.
  - injection Heq as -> <-. destruct fuel as [|fuel]; [discriminate|].
    cbn [add_range_loop] in Hl. unfold mbind, mget, mlift in Hl.
    destruct (bin_push x b) as [b1 u1| | | |] eqn:E; try discriminate.
    destruct (push_grows _ _ _ _ E) as (Hg & Hi & l & Hat).
    assert (Ho : nd_order (bin_item b1) = nd_order (bin_item b)) by apply Hg.
    rewrite Ho, <- Hn, Hi, Hnx in Hl. injection Hl as <- _. split; auto.
    intros t [<-|[]]. exists (l ++ [x]). split; auto. apply in_or_app; simpl; auto.
  - injection Heq as -> Hts. destruct fuel as [|fuel]; [discriminate|].
    cbn [add_range_loop] in Hl. unfold mbind, mget, mlift, mput in Hl.
    destruct (bin_push x b) as [b1 u1| | | |] eqn:E; try discriminate.
    destruct (push_grows _ _ _ _ E) as (Hg & Hi & l & Hat).
    assert (Ho : nd_order (bin_item b1) = nd_order (bin_item b)) by apply Hg.
    rewrite Ho, <- Hn, Hi, Hnx in Hl.
    destruct (IH fuel (bin_set_indices b1 t') b' u) as [Hg' Hin]; simpl; eauto; [congruence|].
    assert (Hg1 : grows b1 (bin_set_indices b1 t')).
    { repeat split; auto. intros t l0 H. exists []. rewrite app_nil_r; auto. }
    split; [eapply grows_trans; [exact Hg|eapply grows_trans; eauto]|].
    intros t [<-|Hin']; [|auto].
    destruct Hg' as (_ & _ & _ & _ & _ & Hg'). destruct (Hg' (bin_indices b) (l ++ [x]) Hat) as (l' & Hl').
    exists ((l ++ [x]) ++ l'). split; auto. apply in_or_app; left. apply in_or_app; simpl; auto.
Qed.

Lemma add_range_found : forall mn inc mx N b b' x cmin cmax lo hi u, bin_inv mn inc mx N b ->
  accepted mn mx cmin -> has_index mn inc cmin lo -> 
  accepted mn mx cmax -> has_index mn inc cmax hi ->
  length lo = length N -> Forall2 Z.le lo hi ->
  bin_add_range x cmin cmax b = RRet b' u ->
  grows b b' /\ forall t, Forall3 (fun l h k => l <= k <= h) lo hi t -> 
    exists l, nd_at (bin_item b') t = Ok l /\ In x l.
Proof.
  intros mn inc mx N b b' x cmin cmax lo hi u Hinv Ha1 Hi1 Ha2 Hi2 Hl1 Hle Hr.
  assert (Hlen : length lo = length hi) by (clear -Hle; induction Hle; simpl; auto).
  assert (Hne : lo <> []).
  { destruct (inv_proper _ _ _ _ _ Hinv) as (Hne & _). intros ->. destruct N; simpl in *; congruence. }
  destruct (odo_run lo hi Hne Hle (has_index_int _ _ _ _ Hi1) (has_index_int _ _ _ _ Hi2)) as [Hrun Hhd].
  unfold bin_add_range, mbind, mmod in Hr.
  rewrite (local_indices_ok _ _ _ _ _ _ _ Hinv Ha1 Hi1 Hl1) in Hr.
  rewrite (local_indices_ok _ _ _ _ _ _ _ Hinv Ha2 Hi2) in Hr by congruence.
  destruct (loop_found _ x lo hi _ Hrun (box_count lo hi) (bin_set_indices b lo) b' u) as [Hg Hin]; auto.
  { simpl. rewrite (order_length _ _ _ _ _ Hinv). auto. }
  split.
  - eapply grows_trans; [|exact Hg]. repeat split; auto. intros t l H. exists []. rewrite app_nil_r; auto.
  - intros t Ht. apply Hin. apply in_box; auto.
Qed.

(** ** max_size *)

Lemma max_fold : forall (vals : list (list T)) (get : Z -> outcome (list T)) k m,
  (forall i l, nth_error vals i = Some l -> get (Z.of_nat (k + i)) = Ok l) ->
  exists m', ofold (fun m i => let* l := get (Z.of_nat i) in
      Ok (if m <? Z.of_nat (length l) then Z.of_nat (length l) else m)) (seq k (length vals)) m = Ok m' /\
    m <= m' /\ (forall l, In l vals -> Z.of_nat (length l) <= m') /\
    (m' = m \/ exists l, In l vals /\ m' = Z.of_nat (length l)).
Proof.
  induction vals as [|v vals IH]; intros get k m Hget.
  - exists m. simpl. split; [reflexivity|]. split; [lia|]. split; [intros l []|auto].
  - simpl. pose proof (Hget 0%nat v eq_refl) as H0. rewrite Nat.add_0_r in H0. rewrite H0. simpl.
    set (m1 := if m <? Z.of_nat (length v) then Z.of_nat (length v) else m).
    destruct (IH get (S k) m1) as (m' & Hf & Hge & Hall & Hex).
    { intros i l Hi. specialize (Hget (S i) l Hi). rewrite Nat.add_succ_r in Hget. exact Hget. }
    exists m'. split; [exact Hf|].
    assert (Hm1 : m <= m1 /\ Z.of_nat (length v) <= m1 /\ (m1 = m \/ m1 = Z.of_nat (length v))).
    { unfold m1. destruct (m <? Z.of_nat (length v)) eqn:E; lia. }
    split; [lia|]. split.
    + intros l [<-|Hl]; [lia|auto].
    + destruct Hex as [->|(l & Hl & ->)]; [|eauto].
      destruct Hm1 as (_ & _ & [H|H]); rewrite H; eauto.
Qed.

Lemma max_size_spec : forall mn inc mx N b, bin_inv mn inc mx N b ->
  exists m, bin_max_size b = Ok m /\
    (forall t l, valid_index N t -> nd_at (bin_item b) t = Ok l -> Z.of_nat (length l) <= m) /\
    (exists t l, valid_index N t /\ nd_at (bin_item b) t = Ok l /\ Z.of_nat (length l) = m).
Proof.
  intros mn inc mx N b Hinv.
  pose proof (inv_wf _ _ _ _ _ Hinv) as Hwf. pose proof (nd_wf_length _ _ Hwf) as Hlen.
  assert (Hne : nd_dim (bin_item b) <> []).
  { rewrite (inv_dim _ _ _ _ _ Hinv). apply (inv_proper _ _ _ _ _ Hinv). }
  assert (Hvol : 0 < nd_volume (bin_item b)).
  { destruct (nd_wf_view _ _ Hwf) as (_ & Hv & _).
    destruct (inv_proper _ _ _ _ _ Hinv) as (Hn & Hp & _).
    rewrite (inv_dim _ _ _ _ _ Hinv) in Hv. destruct N; [congruence|]. rewrite Hv. apply zprod_pos; auto. }
  destruct (max_fold (nd_val (bin_item b)) (nd_get (bin_item b)) 0 0) as (m & Hf & H0 & Hall & Hex).
  { intros i l Hi. simpl. unfold nd_get. rewrite vget_nat, Hi. auto. }
  exists m. split.
  { unfold bin_max_size. rewrite <- Hlen, Nat2Z.id. exact Hf. }
  assert (Hin : forall l, In l (nd_val (bin_item b)) -> exists t, valid_index N t /\ nd_at (bin_item b) t = Ok l).
  { intros l Hl. apply In_nth_error in Hl. destruct Hl as (i & Hi).
    assert (Hb : (i < length (nd_val (bin_item b)))%nat) by (apply nth_error_Some; congruence).
    destruct (row_major_surj _ (bin_item b) (Z.of_nat i) Hwf) as (_ & t & Ht & Hrm); [lia|].
    exists t. rewrite (inv_dim _ _ _ _ _ Hinv) in Ht. split; auto.
    destruct (linear_index_wf _ (bin_item b) t Hwf Hne) as [Hli _].
    { rewrite (inv_dim _ _ _ _ _ Hinv). auto. }
    unfold nd_at. rewrite Hli, Hrm. simpl. unfold nd_get. rewrite vget_nat, Hi. auto. }
  split.
  - intros t l Ht Hl. apply Hall. unfold nd_at in Hl. apply obind_ok in Hl. destruct Hl as (i & _ & Hl).
    unfold nd_get in Hl. apply vget_some in Hl. destruct Hl as [_ Hl]. eapply nth_error_In; eauto.
  - destruct Hex as [->|(l & Hl & ->)].
    + destruct (nd_val (bin_item b)) as [|l ls] eqn:E; [simpl in Hlen; lia|].
      destruct (Hin l) as (t & Ht & Hat); [simpl; auto|].
      exists t, l. split; auto. split; auto.
      specialize (Hall l (or_introl eq_refl)). lia.
    + destruct (Hin l Hl) as (t & Ht & Hat). exists t, l. auto.
Qed.

(** ** Construction *)

Lemma bin_make_inv : forall mn inc mx N,
  proper_shape N -> length mn = length N -> length inc = length N -> bin_max_loop mn inc N = Ok mx ->
  exists b, bin_make mn inc N = Ok b /\ bin_inv mn inc mx N b /\
    (forall t, valid_index N t -> nd_at (bin_item b) t = Ok []).
Proof.
  intros mn inc mx N HN Hl1 Hl2 Hmx. unfold bin_make. rewrite Hmx. simpl.
  pose proof (nd_make_ok _ (@nil T) N (proper_usable _ HN)) as Hm. rewrite Hm. simpl.
  eexists; split; [reflexivity|].
  assert (Hwf : nd_wf (mkNd N (strides N) (repeat (@nil T) (Z.to_nat (zprod N))) (Z.of_nat (length N)) (zprod N))).
  { eapply nd_reachable_wf. eapply nd_make_reachable; [apply proper_usable; exact HN|exact Hm]. }
  split.
  - constructor; simpl; auto.
  - intros t Ht. simpl. unfold nd_at.
    destruct (linear_index_wf _ _ t Hwf) as [Hli Hb]; [apply HN|exact Ht|].
    rewrite Hli. simpl. unfold nd_get. simpl in *. apply vget_some. split; [lia|].
    apply nth_error_repeat. lia.
Qed.

Lemma max_loop_ok : forall mn inc N, length mn = length N -> length inc = length N ->
  exists mx, bin_max_loop mn inc N = Ok mx /\
    Forall4 (fun a h n z => z = nadd O a (nmul O h (nofZ O n))) mn inc N mx.
Proof.
  induction mn as [|a mn IH]; intros [|h inc] [|n N] H1 H2; simpl in *; try discriminate.
  - exists []; split; auto; constructor.
  - destruct (IH inc N) as (mx & Hmx & HF); try lia.
    rewrite Hmx. simpl. eexists; split; [reflexivity|]. constructor; auto.
Qed.

End Generic.

Lemma cleared : forall (O : NumOps) (T : Type) (teqb : T -> T -> bool) (b : bin O T), exists b', bin_clear b = RRet b' tt /\ bin_max_size b' = Ok 0 /\
  forall c c' x, bin_contents c b' = RUB UBOutOfBounds /\ bin_add x c b' = RUB UBOutOfBounds /\ bin_add_once teqb x c b' = RUB UBOutOfBounds /\
    bin_add_range x c c' b' = RUB UBOutOfBounds.
Proof. intros O T teqb b. exists bin_empty. split; [reflexivity|]. split; [reflexivity|]. intros c c' x. repeat split; destruct c; reflexivity. Qed.
