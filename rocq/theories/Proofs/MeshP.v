(** Meshes in an arbitrary arithmetic: lookups change nothing but the index vector; scratch buffers. *)
From Coq Require Import ZArith List Bool Lia ZifyBool String.
From Verif Require Import Model.Outcome Model.Num Model.PNDArray Model.Bin Model.PSimple Model.Interpolator Model.Mesh
  Model.PField.
From Verif Require Import Spec.Tensor Spec.NDHistory Spec.Grid Spec.Funcs Spec.Fields.
From Verif Require Import Proofs.OutcomeP Proofs.PNDArrayP Proofs.BinP Proofs.BinLaterP Proofs.FuncObjP.
Import ListNotations.
Local Open Scope Z_scope.

(** ** Lookups *)
Section Lookup.
Context {O : NumOps} {T : Type}.
Implicit Types (b : bin O T) (c : list (num O)).

(** [b'] is [b] up to the index vector. *)
Definition same_bin b b' : Prop := exists t, List.length t = List.length (bin_indices b) /\ b' = bin_set_indices b t.

Lemma same_bin_refl : forall b, same_bin b b.
Proof. intros b. exists (bin_indices b). split; auto. destruct b; reflexivity. Qed.

Lemma same_bin_trans : forall b1 b2 b3, same_bin b1 b2 -> same_bin b2 b3 -> same_bin b1 b3.
Proof. intros b1 b2 b3 (t & Ht & ->) (t' & Ht' & ->). exists t'. simpl in Ht'. split; [congruence|reflexivity]. Qed.

(** The loop's outcome depends only on the length of the output vector. *)
Lemma indices_loop_term : forall n c mn mx inc t1 t2, List.length t1 = List.length t2 ->
  match bin_indices_loop (O:=O) n c mn mx inc t1, bin_indices_loop (O:=O) n c mn mx inc t2 with
  | RRet u1 _, RRet u2 _ => firstn n u1 = firstn n u2 /\ skipn n u1 = skipn n t1 /\ skipn n u2 = skipn n t2
  | RThrow u1 e1, RThrow u2 e2 => e1 = e2
  | RExit, RExit => True
  | RUB r1, RUB r2 => r1 = r2
  | RNoFuel, RNoFuel => True
  | _, _ => False
  end.
Proof.
  induction n as [|n IH]; intros c mn mx inc t1 t2 Hl; cbn [bin_indices_loop].
  - auto.
  - destruct c as [|x c]; [reflexivity|]. destruct mn as [|a mn]; [reflexivity|]. destruct mx as [|z mx]; [reflexivity|].
    destruct (nltb O x a || nltb O z x); [reflexivity|].
    destruct inc as [|h inc]; [reflexivity|].
    destruct t1 as [|y1 t1], t2 as [|y2 t2]; try discriminate; [reflexivity|].
    destruct (floor_to_int O (ndiv O (nsub O x a) h)) as [k|e| |r|]; auto.
    specialize (IH c mn mx inc t1 t2 ltac:(simpl in Hl; lia)).
    destruct (bin_indices_loop n c mn mx inc t1), (bin_indices_loop n c mn mx inc t2); try contradiction; auto.
    simpl. intuition congruence.
Qed.

Lemma find_after : forall c b b', after (bin_find c b) b' -> same_bin b b'.
Proof.
  intros c b b' H. unfold bin_find in H.
  pose proof (fun t => indices_loop_length (Z.to_nat (nd_order (bin_item b))) c (bin_min b) (bin_max b) (bin_incr b)
                (bin_indices b) t) as Hl.
  unfold bin_indices_into in H.
  destruct (bin_indices_loop _ _ _ _ _ _) as [t u|t e| |r|]; destruct H as [[? H]|[? H]]; try discriminate;
    injection H as <- _; exists t; (split; [apply Hl; eauto|reflexivity]).
Qed.

Lemma contents_after : forall c b b', after (bin_contents c b) b' -> same_bin b b'.
Proof.
  intros c b b' H. unfold bin_contents, mbind, mget, mlift in H.
  destruct (bin_find c b) as [b1 u|b1 e| |r|] eqn:E1; try (destruct H as [[? H]|[? H]]; discriminate).
  - assert (K : same_bin b b1) by (eapply find_after; left; eauto).
    destruct (nd_at (bin_item b1) (bin_indices b1)); destruct H as [[? H]|[? H]]; try discriminate; injection H as <- _; auto.
  - destruct H as [[? H]|[? H]]; [discriminate|]. injection H as <- _. eapply find_after; right; eauto.
Qed.

Lemma contents_at : forall c b b' l, bin_contents c b = RRet b' l -> exists t, nd_at (bin_item b) t = Ok l.
Proof.
  intros c b b' l H. unfold bin_contents, mbind, mget, mlift in H.
  destruct (bin_find c b) as [b1 u|b1 e| |r|] eqn:E1; try discriminate.
  destruct (find_after c b b1) as (t & _ & ->); [left; eauto|]. simpl in H.
  destruct (nd_at (bin_item b) t) eqn:E; try discriminate. exists t. congruence.
Qed.

(** A lookup gives the same contents (or failure) whatever the index vector holds, provided the vector has
    one entry per dimension. *)
Lemma view_same : forall c b b', same_bin b b' -> List.length (bin_indices b) = Z.to_nat (nd_order (bin_item b)) ->
  view b' c = view b c.
Proof.
  intros c b b' (t & Ht & ->) Hlen. unfold view, bin_contents, mbind, mget, mlift, bin_find, bin_indices_into. simpl.
  pose proof (indices_loop_term (Z.to_nat (nd_order (bin_item b))) c (bin_min b) (bin_max b) (bin_incr b) t (bin_indices b) Ht) as H.
  pose proof (fun t' u => indices_loop_length (Z.to_nat (nd_order (bin_item b))) c (bin_min b) (bin_max b) (bin_incr b) t' u) as L.
  destruct (bin_indices_loop _ c _ _ _ t) as [u1 ?|u1 e1| |r1|] eqn:E1, (bin_indices_loop _ c _ _ _ (bin_indices b)) as [u2 ?|u2 e2| |r2|] eqn:E2;
    try contradiction; simpl; try congruence.
  destruct H as (H1 & _ & _).
  assert (L1 : List.length u1 = List.length t) by (apply L; rewrite E1; eauto).
  assert (L2 : List.length u2 = List.length (bin_indices b)) by (apply L; rewrite E2; eauto).
  rewrite !firstn_all2 in H1 by lia. subst u2. destruct (nd_at (bin_item b) u1); reflexivity.
Qed.

(** All items in all bins satisfy [P]. *)
Definition holds_only (P : T -> Prop) b : Prop := forall l, In l (nd_val (bin_item b)) -> Forall P l.

Lemma nd_at_in : forall (A : Type) (s : nd A) t a, nd_at s t = Ok a -> In a (nd_val s).
Proof.
  intros A s t a H. unfold nd_at in H. apply obind_ok in H. destruct H as (i & _ & H).
  unfold nd_get in H. apply vget_some in H. destruct H as [_ H]. eapply nth_error_In; eauto.
Qed.

Lemma in_lset : forall (A : Type) (l : list A) n a x, In x (lset l n a) -> x = a \/ In x l.
Proof.
  intros A l n a x H. apply In_nth_error in H. destruct H as (m & Hm).
  destruct (Nat.eq_dec n m) as [<-|Hne].
  - destruct (Nat.lt_ge_cases n (List.length l)) as [Hlt|Hge].
    + rewrite nth_error_lset_same in Hm by auto. left. congruence.
    + right. exfalso. assert (nth_error (lset l n a) n <> None) by congruence.
      apply nth_error_Some in H. rewrite length_lset in H. lia.
  - rewrite nth_error_lset_other in Hm by auto. right. eapply nth_error_In; eauto.
Qed.

Lemma push_only : forall (P : T -> Prop) x b b' u, P x -> holds_only P b -> bin_push x b = RRet b' u -> holds_only P b'.
Proof.
  intros P x b b' u Hx H Hp. unfold bin_push, mbind, mget, mlift, mput in Hp.
  destruct (nd_at (bin_item b) (bin_indices b)) as [l| | | |] eqn:E1; try discriminate.
  destruct (nd_put (bin_item b) (bin_indices b) (l ++ [x])) as [it| | | |] eqn:E2; try discriminate.
  injection Hp as <- _. destruct (nd_put_inv _ _ _ _ _ E2) as (i & _ & _ & ->).
  intros l' Hl'. simpl in Hl'. apply in_lset in Hl'. destruct Hl' as [->|Hl']; [|apply H; auto].
  apply Forall_app. split; [apply H; eapply nd_at_in; eauto|auto].
Qed.

Lemma loop_only : forall (P : T -> Prop) fuel x lo hi b b' u, P x -> holds_only P b ->
  add_range_loop fuel x lo hi b = RRet b' u -> holds_only P b'.
Proof.
  intros P fuel. induction fuel as [|fuel IH]; intros x lo hi b b' u Hx H Hl; [discriminate|].
  cbn [add_range_loop] in Hl. unfold mbind, mget, mlift, mput, mret in Hl.
  destruct (bin_push x b) as [b1 u1| | | |] eqn:E1; try discriminate.
  pose proof (push_only P _ _ _ _ Hx H E1) as H1.
  destruct (odo_next (Z.to_nat (nd_order (bin_item b1))) lo hi (bin_indices b1)) as [[cur|]|e| |r|]; try discriminate.
  - eapply IH; [exact Hx| |exact Hl]. exact H1.
  - injection Hl as <- _. exact H1.
Qed.

Lemma add_range_only : forall (P : T -> Prop) x lo hi b b' u, P x -> holds_only P b ->
  bin_add_range x lo hi b = RRet b' u -> holds_only P b'.
Proof.
  intros P x clo chi b b' u Hx H Hl. unfold bin_add_range, mbind, mmod in Hl.
  destruct (bin_local_indices clo b) as [b1 lo| | | |] eqn:E1; try discriminate.
  destruct (local_indices_after _ _ b1 _ E1 (or_introl (ex_intro _ lo eq_refl))) as [-> _].
  destruct (bin_local_indices chi b) as [b2 hi| | | |] eqn:E2; try discriminate.
  destruct (local_indices_after _ _ b2 _ E2 (or_introl (ex_intro _ hi eq_refl))) as [-> _].
  eapply loop_only; [exact Hx| |exact Hl]. exact H.
Qed.

(** Bins that can be used: new, or built for some grid. *)
Definition bin_good b : Prop := b = bin_empty \/ exists mn inc mx N, bin_inv mn inc mx N b.

Lemma bin_good_indices : forall b, bin_good b -> List.length (bin_indices b) = Z.to_nat (nd_order (bin_item b)).
Proof.
  intros b [->|(mn & inc & mx & N & H)]; [reflexivity|].
  rewrite (inv_ind _ _ _ _ _ H), (order_length _ _ _ _ _ H). auto.
Qed.

(** Every bin is at most as long as max_size says. *)
Lemma ofold_max : forall (get : Z -> outcome (list T)) is m m', 
  ofold (fun m i => let* l := get (Z.of_nat i) in
      Ok (if m <? Z.of_nat (List.length l) then Z.of_nat (List.length l) else m)) is m = Ok m' ->
  m <= m' /\ forall i l, In i is -> get (Z.of_nat i) = Ok l -> Z.of_nat (List.length l) <= m'.
Proof.
  intros get is. induction is as [|i is IH]; intros m m' H; simpl in H.
  - injection H as <-. split; [lia|]. intros i l [].
  - destruct (get (Z.of_nat i)) as [l| | | |] eqn:E; try discriminate. simpl in H.
    destruct (IH _ _ H) as [H1 H2]. split; [destruct (m <? Z.of_nat (List.length l)) eqn:E'; lia|].
    intros i' l' [<-|Hin] Hg; [|eauto]. assert (l' = l) by congruence. subst l'.
    destruct (m <? Z.of_nat (List.length l)) eqn:E'; lia.
Qed.

Lemma max_size_good : forall b mx, bin_good b -> bin_max_size b = Ok mx ->
  0 <= mx /\ forall t l, nd_at (bin_item b) t = Ok l -> Z.of_nat (List.length l) <= mx.
Proof.
  intros b mx Hg H. unfold bin_max_size in H. destruct (ofold_max _ _ _ _ H) as [H0 H1]. split; [exact H0|].
  intros t l Hat. pose proof (nd_at_in _ _ _ _ Hat) as Hin.
  destruct Hg as [->|(mn & inc & mx' & N & Hinv)]; [contradiction|].
  pose proof (nd_wf_length _ _ (inv_wf _ _ _ _ _ Hinv)) as Hlen.
  apply In_nth_error in Hin. destruct Hin as (i & Hi).
  assert ((i < List.length (nd_val (bin_item b)))%nat) by (apply nth_error_Some; congruence).
  apply (H1 i); [apply in_seq; lia|]. unfold nd_get. rewrite vget_nat, Hi. reflexivity.
Qed.

End Lookup.
