(** The search grid built from node coordinates, over the reals. *)
From Coq Require Import ZArith List Bool Lia Reals Lra Permutation Sorting.Sorted.
From Flocq Require Import Core.
From Verif Require Import Model.Outcome Model.Num Model.NumInst Model.Mesh.
From Verif Require Import Spec.Tensor Spec.Fields.
From Verif Require Import Proofs.OutcomeP.
Import ListNotations.
Local Open Scope Z_scope.

Lemma Req_bool_iff : forall x y, Req_bool x y = true <-> x = y.
Proof. intros x y. destruct (Req_bool_spec x y); split; intros; auto; congruence. Qed.

Lemma axis_add_in : forall (l : list R) v x, In x (axis_add (O:=ROps) l v) <-> In x l \/ x = v.
Proof.
  intros l v x. unfold axis_add. destruct (existsb (fun y => neqb ROps y v) l) eqn:E.
  - split; auto. intros [H| ->]; auto. apply existsb_exists in E. destruct E as (y & Hy & Ey).
    apply Req_bool_iff in Ey. subst; auto.
  - rewrite in_app_iff. simpl. split; intros [H|H]; auto. destruct H as [H|[]]; auto.
Qed.

Lemma axis_add_nodup : forall (l : list R) v, NoDup l -> NoDup (axis_add (O:=ROps) l v).
Proof.
  intros l v H. unfold axis_add. destruct (existsb (fun y => neqb ROps y v) l) eqn:E; auto.
  apply (Permutation_NoDup (l := v :: l)); [apply Permutation_cons_append|]. constructor; auto.
  intros Hin. assert (existsb (fun x => neqb ROps x v) l = true); [|congruence].
  apply existsb_exists. exists v. split; auto. apply Req_bool_iff; auto.
Qed.

Lemma axis_collect : forall (vs l : list R), NoDup l ->
  NoDup (fold_left (axis_add (O:=ROps)) vs l) /\
  forall x, In x (fold_left (axis_add (O:=ROps)) vs l) <-> In x l \/ In x vs.
Proof.
  induction vs as [|v vs IH]; intros l H; simpl.
  - split; auto. intros x; tauto.
  - destruct (IH (axis_add (O:=ROps) l v) (axis_add_nodup l v H)) as [I1 I2]. split; auto.
    intros x. rewrite I2, axis_add_in. split; intros; intuition.
Qed.

Lemma axis_insert_perm : forall v (l : list R), Permutation (v :: l) (axis_insert (O:=ROps) v l).
Proof.
  intros v l. induction l as [|x l IH]; simpl; auto.
  destruct (Rlt_bool v x); auto. eapply perm_trans; [apply perm_swap|]. auto.
Qed.

Lemma axis_sort_perm : forall l : list R, Permutation l (axis_sort (O:=ROps) l).
Proof.
  induction l as [|x l IH]; simpl; auto. eapply perm_trans; [|apply axis_insert_perm]. auto.
Qed.

Lemma axis_insert_sorted : forall v (l : list R), StronglySorted Rle l -> StronglySorted Rle (axis_insert (O:=ROps) v l).
Proof.
  intros v l H. induction H as [|x l H IH Hx]; simpl.
  - constructor; constructor.
  - destruct (Rlt_bool_spec v x) as [E|E].
    + constructor; [constructor; auto|]. constructor; [lra|]. eapply Forall_impl; [|exact Hx]. simpl; intros; lra.
    + constructor; auto. eapply Permutation_Forall; [apply axis_insert_perm|]. constructor; auto.
Qed.

Lemma axis_sort_sorted : forall l : list R, StronglySorted Rle (axis_sort (O:=ROps) l).
Proof. induction l as [|x l IH]; simpl; [constructor|apply axis_insert_sorted; auto]. Qed.

Lemma last_cons : forall (A : Type) (l : list A) a b, last (b :: l) a = last l b.
Proof.
  intros A l. induction l as [|x l IH]; intros a b; [reflexivity|].
  change (last (b :: x :: l) a) with (last (x :: l) a). rewrite !IH. reflexivity.
Qed.

Lemma sorted_last : forall l (a : R), StronglySorted Rle (a :: l) -> greatest (last l a) (a :: l).
Proof.
  induction l as [|b l IH]; intros a H.
  - simpl. split; [simpl; auto|]. intros x [<-|[]]. lra.
  - inversion H as [|? ? H1 H2]; subst. destruct (IH b H1) as [I1 I2].
    replace (last (b :: l) a) with (last l b).
    2:{ symmetry. apply last_cons. }
    split; [right; exact I1|]. intros x [<-|Hx]; [|apply I2; auto].
    inversion H2; subst. specialize (I2 b (or_introl eq_refl)). lra.
Qed.

Lemma sorted_first : forall l (a : R), StronglySorted Rle (a :: l) -> least a (a :: l).
Proof.
  intros l a H. inversion H as [|? ? H1 H2]; subst. split; [simpl; auto|].
  intros x [<-|Hx]; [lra|]. rewrite Forall_forall in H2. auto.
Qed.

Lemma distinct_collect : forall vs : list R,
  Z.of_nat (length (axis_sort (O:=ROps) (fold_left (axis_add (O:=ROps)) vs []))) = distinct vs.
Proof.
  intros vs. rewrite <- (Permutation_length (axis_sort_perm _)).
  destruct (axis_collect vs [] (NoDup_nil _)) as [H1 H2]. unfold distinct. f_equal.
  apply Nat.le_antisymm; apply NoDup_incl_length; auto.
  - intros x Hx. apply nodup_In. apply H2 in Hx. destruct Hx as [[]|Hx]; auto.
  - apply NoDup_nodup.
  - intros x Hx. apply nodup_In in Hx. apply H2. auto.
Qed.

Lemma distinct_pos : forall (vs : list R) x, In x vs -> 0 < distinct vs.
Proof.
  intros vs x H. unfold distinct. apply (nodup_In Req_EM_T) in H. destruct (nodup Req_EM_T vs); simpl in *; [tauto|lia].
Qed.

Lemma axis_grid_spec : forall (vs : list R) u, In u vs -> distinct vs + 2 <= int_max ->
  exists a z, least a vs /\ greatest z vs /\
    axis_grid (O:=ROps) vs =
      Ok (@mkAxis ROps (a - (z - a) / IZR (distinct vs))%R (distinct vs + 2) ((z - a) / IZR (distinct vs))%R a z).
Proof.
  intros vs u Hu Hmax. unfold axis_grid.
  assert (E : @existsb (num ROps) (fun v => negb (neqb ROps v v)) vs = false).
  { clear. induction vs as [|v vs IH]; simpl in *; auto. rewrite IH, orb_false_r.
    apply negb_false_iff. apply Req_bool_iff; auto. }
  rewrite E. clear E.
  pose proof (distinct_collect vs) as Hd. pose proof (axis_sort_sorted (fold_left (axis_add (O:=ROps)) vs [])) as Hs.
  assert (Hin : forall x, In x (axis_sort (O:=ROps) (fold_left (axis_add (O:=ROps)) vs [])) <-> In x vs).
  { intros x. destruct (axis_collect vs [] (NoDup_nil _)) as [_ H2]. split; intros H.
    - apply (Permutation_in _ (Permutation_sym (axis_sort_perm _))) in H. apply H2 in H. destruct H as [[]|H]; auto.
    - apply (Permutation_in _ (axis_sort_perm _)). apply H2. auto. }
  destruct (axis_sort (O:=ROps) (fold_left (axis_add (O:=ROps)) vs [])) as [|a l].
  { exfalso. apply (proj2 (Hin u) Hu). }
  exists a, (last l a). destruct (sorted_first l a Hs) as [A1 A2]. destruct (sorted_last l a Hs) as [B1 B2].
  split; [split; [apply Hin; auto|intros x Hx; apply A2, Hin; auto]|].
  split; [split; [apply Hin; auto|intros x Hx; apply B2, Hin; auto]|].
  pose proof (distinct_pos vs u Hu). unfold int_max in Hmax.
  rewrite Hd. rewrite cint_ok by (unfold INT_MIN, INT_MAX; lia). cbn [obind].
  rewrite cint_ok by (unfold INT_MIN, INT_MAX; lia). cbn [obind].
  cbn. replace (1 * IZR (distinct vs))%R with (IZR (distinct vs)) by ring. reflexivity.
Qed.

(** The grid of one axis covers everything between the extreme values. *)
Lemma axis_covers : forall a z n x, (a < z)%R -> 0 < n -> (a <= x <= z)%R ->
  let h := ((z - a) / IZR n)%R in (0 < h)%R /\ (a - h < x < a - h + h * IZR (n + 2))%R.
Proof.
  intros a z n x Haz Hn Hx h.
  assert (Hn' : (0 < IZR n)%R) by (apply IZR_lt; auto).
  assert (Hh : (0 < h)%R) by (apply Rdiv_lt_0_compat; lra).
  split; auto. rewrite plus_IZR. assert (h * IZR n = z - a)%R by (unfold h; field; lra). lra.
Qed.
