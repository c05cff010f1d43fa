(** Histories of the Bin model in an arbitrary arithmetic, and points of a registered box. *)
From Coq Require Import ZArith List Bool Lia ZifyBool.
From Verif Require Import Model.Outcome Model.Num Model.NumInst Model.PNDArray Model.Bin.
From Verif Require Import Spec.Tensor Spec.NDHistory Spec.Grid Proofs.OutcomeP Proofs.PNDArrayP Proofs.BinP.
Import ListNotations.
Local Open Scope Z_scope.

Section Later.
Context {O : NumOps} {T : Type} (teqb : T -> T -> bool).
Implicit Types (b : bin O T) (c : list (num O)).

(** [b'] is what a call leaves of [b]. *)
Definition after {A : Type} (r : res (bin O T) A) (b' : bin O T) : Prop :=
  (exists a, r = RRet b' a) \/ (exists e, r = RThrow b' e).

Definition keeps b b' : Prop :=
  grows b b' /\ forall mn inc mx N, bin_inv mn inc mx N b -> bin_inv mn inc mx N b'.

Lemma keeps_refl : forall b, keeps b b.
Proof. intros b. split; [apply grows_refl|auto]. Qed.

Lemma keeps_trans : forall b1 b2 b3, keeps b1 b2 -> keeps b2 b3 -> keeps b1 b3.
Proof. intros b1 b2 b3 [G1 I1] [G2 I2]. split; [eapply grows_trans; eauto|eauto]. Qed.

Lemma set_indices_grows : forall b t, grows b (bin_set_indices b t).
Proof. intros b t. repeat split; auto. intros t' l H. exists []. rewrite app_nil_r. auto. Qed.

Lemma set_indices_keeps : forall b t, length t = length (bin_indices b) -> keeps b (bin_set_indices b t).
Proof.
  intros b t Hl. split; [apply set_indices_grows|].
  intros mn inc mx N H. apply set_indices_inv; auto. rewrite Hl. apply (inv_ind _ _ _ _ _ H).
Qed.

Lemma indices_loop_length : forall n c mn mx inc term t,
  (exists u, bin_indices_loop (O:=O) n c mn mx inc term = RRet t u) \/
  (exists e, bin_indices_loop (O:=O) n c mn mx inc term = RThrow t e) -> length t = length term.
Proof.
  induction n as [|n IH]; intros c mn mx inc term t H.
  - simpl in H. destruct H as [[u H]|[e H]]; [injection H as <- _; auto|discriminate].
  - cbn [bin_indices_loop] in H.
    destruct c as [|x c]; [destruct H as [[? H]|[? H]]; discriminate|].
    destruct mn as [|a mn]; [destruct H as [[? H]|[? H]]; discriminate|].
    destruct mx as [|z mx]; [destruct H as [[? H]|[? H]]; discriminate|].
    destruct (nltb O x a || nltb O z x).
    { destruct H as [[? H]|[? H]]; [discriminate|]. injection H as <- _. auto. }
    destruct inc as [|h inc]; [destruct H as [[? H]|[? H]]; discriminate|].
    destruct term as [|y term]; [destruct H as [[? H]|[? H]]; discriminate|].
    destruct (floor_to_int O (ndiv O (nsub O x a) h)) as [k|e| |r|];
      try (destruct H as [[? H]|[? H]]; try discriminate; injection H as <- _; auto; fail).
    destruct (bin_indices_loop n c mn mx inc term) as [t' u'|t' e| |r|] eqn:E;
      destruct H as [[? H]|[? H]]; try discriminate; injection H as <- _; simpl; f_equal;
      eapply IH; rewrite E; eauto.
Qed.

Lemma find_keeps : forall c b b', after (bin_find c b) b' -> keeps b b'.
Proof.
  intros c b b' H. unfold bin_find in H.
  pose proof (fun t => indices_loop_length (Z.to_nat (nd_order (bin_item b))) c (bin_min b) (bin_max b) (bin_incr b)
                (bin_indices b) t) as Hl.
  unfold bin_indices_into in H.
  destruct (bin_indices_loop _ _ _ _ _ _) as [t u|t e| |r|]; destruct H as [[? H]|[? H]]; try discriminate;
    injection H as <- _; apply set_indices_keeps; apply Hl; eauto.
Qed.

Lemma push_keeps : forall x b b', after (bin_push x b) b' -> keeps b b' /\ bin_indices b' = bin_indices b.
Proof.
  intros x b b' [[u H]|[e H]].
  - destruct (push_grows _ _ _ _ H) as (Hg & Hi & _). split; [|auto]. split; [exact Hg|].
    intros mn inc mx N Hinv. unfold bin_push, mbind, mget, mlift, mput in H.
    destruct (nd_at (bin_item b) (bin_indices b)) as [l| | | |] eqn:E1; try discriminate.
    destruct (nd_put (bin_item b) (bin_indices b) (l ++ [x])) as [it| | | |] eqn:E2; try discriminate.
    injection H as <- _.
    assert (Hwf : nd_wf it).
    { unfold nd_put in E2. apply obind_ok in E2. destruct E2 as (i & _ & E2).
      eapply nd_set_wf; [apply (inv_wf _ _ _ _ _ Hinv)|exact E2]. }
    destruct (nd_put_inv _ _ _ _ _ E2) as (i & _ & _ & Hit).
    destruct Hinv; constructor; simpl; auto. rewrite Hit. auto.
  - unfold bin_push, mbind, mget, mlift, mput in H.
    destruct (nd_at (bin_item b) (bin_indices b)) as [l| e'| | |] eqn:E1; try discriminate.
    + destruct (nd_put (bin_item b) (bin_indices b) (l ++ [x])) as [it| | | |] eqn:E2; try discriminate.
      injection H as <- _. split; auto using keeps_refl.
    + injection H as <- _. split; auto using keeps_refl.
Qed.

Lemma odo_next_length : forall cur n lo hi cur', odo_next n lo hi cur = Ok (Some cur') -> length cur' = length cur.
Proof.
  induction cur as [|c cur IH]; intros n lo hi cur' H; simpl in H; [destruct n; discriminate|].
  destruct n as [|[|n]].
  - destruct hi as [|h hi]; [discriminate|]. simpl in H. destruct (c =? h); [discriminate|].
    apply obind_ok in H. destruct H as (c' & _ & H). injection H as <-. auto.
  - destruct hi as [|h hi]; [discriminate|]. simpl in H. destruct (c =? h); [discriminate|].
    apply obind_ok in H. destruct H as (c' & _ & H). injection H as <-. auto.
  - destruct hi as [|h hi]; [discriminate|]. simpl in H. destruct (c =? h).
    + destruct lo as [|l lo]; [discriminate|]. apply obind_ok in H. destruct H as (r & Hr & H).
      destruct r as [r|]; [|discriminate]. injection H as <-. simpl. f_equal. eapply (IH (S n)). exact Hr.
    + apply obind_ok in H. destruct H as (c' & _ & H). injection H as <-. auto.
Qed.

Lemma add_range_loop_keeps : forall fuel x lo hi b b', after (add_range_loop fuel x lo hi b) b' -> keeps b b'.
Proof.
  induction fuel as [|fuel IH]; intros x lo hi b b' H; [destruct H as [[? H]|[? H]]; discriminate|].
  cbn [add_range_loop] in H. unfold mbind, mget, mlift, mput, mret in H.
  destruct (bin_push x b) as [b1 u|b1 e| |r|] eqn:E1; try (destruct H as [[? H]|[? H]]; discriminate).
  - destruct (push_keeps x b b1 (or_introl (ex_intro _ u E1))) as [K1 Hi].
    destruct (odo_next (Z.to_nat (nd_order (bin_item b1))) lo hi (bin_indices b1)) as [[cur|]|e| |r|] eqn:E2;
      try (destruct H as [[? H]|[? H]]; discriminate).
    + eapply keeps_trans; [exact K1|]. eapply keeps_trans; [|eapply IH; exact H].
      apply set_indices_keeps. eapply odo_next_length; eauto.
    + destruct H as [[? H]|[? H]]; [|discriminate]. injection H as <- _. auto.
    + destruct H as [[? H]|[? H]]; [discriminate|]. injection H as <- _. auto.
  - destruct H as [[? H]|[? H]]; [discriminate|]. injection H as <- _.
    apply (push_keeps x b b1). right; eauto.
Qed.

Lemma local_indices_after : forall c b b' r, bin_local_indices c b = r -> after r b' ->
  b' = b /\ forall t, r = RRet b t -> length t = Z.to_nat (nd_order (bin_item b)).
Proof.
  intros c b b' r <- H. unfold bin_local_indices, bin_indices_into in *.
  pose proof (fun t => indices_loop_length (Z.to_nat (nd_order (bin_item b))) c (bin_min b) (bin_max b) (bin_incr b)
                (repeat 0 (Z.to_nat (nd_order (bin_item b)))) t) as Hl.
  destruct (bin_indices_loop _ _ _ _ _ _) as [t u|t e| |r|]; destruct H as [[? H]|[? H]]; try discriminate;
    injection H as <- _; (split; [reflexivity|]); intros t' Ht'; try discriminate.
  injection Ht' as <-. rewrite Hl by eauto. apply repeat_length.
Qed.

Lemma add_range_inv_steps : forall x clo chi b b', after (bin_add_range x clo chi b) b' -> keeps b b'.
Proof.
  intros x clo chi b b' H. unfold bin_add_range, mbind, mmod in H.
  destruct (bin_local_indices clo b) as [b1 lo|b1 e| |r|] eqn:E1; try (destruct H as [[? H]|[? H]]; discriminate).
  - destruct (local_indices_after _ _ b1 _ E1 (or_introl (ex_intro _ lo eq_refl))) as [-> Hl].
    specialize (Hl lo eq_refl).
    destruct (bin_local_indices chi b) as [b2 hi|b2 e| |r|] eqn:E2; try (destruct H as [[? H]|[? H]]; discriminate).
    + destruct (local_indices_after _ _ b2 _ E2 (or_introl (ex_intro _ hi eq_refl))) as [-> _].
      pose proof (add_range_loop_keeps _ _ _ _ _ _ H) as [G I]. split.
      * eapply grows_trans; [apply set_indices_grows|exact G].
      * intros mn inc mx N Hinv. apply I. apply set_indices_inv; auto.
        rewrite Hl. apply (order_length _ _ _ _ _ Hinv).
    + destruct (local_indices_after _ _ b2 _ E2 (or_intror (ex_intro _ e eq_refl))) as [-> _].
      destruct H as [[? H]|[? H]]; [discriminate|]. injection H as <- _. apply keeps_refl.
  - destruct (local_indices_after _ _ b1 _ E1 (or_intror (ex_intro _ e eq_refl))) as [-> _].
    destruct H as [[? H]|[? H]]; [discriminate|]. injection H as <- _. apply keeps_refl.
Qed.

Lemma contents_keeps : forall c b b', after (bin_contents c b) b' -> keeps b b'.
Proof.
  intros c b b' H. unfold bin_contents, mbind, mget, mlift in H.
  destruct (bin_find c b) as [b1 u|b1 e| |r|] eqn:E1; try (destruct H as [[? H]|[? H]]; discriminate).
  - assert (K : keeps b b1) by (eapply find_keeps; left; eauto).
    destruct (nd_at (bin_item b1) (bin_indices b1)); destruct H as [[? H]|[? H]]; try discriminate; injection H as <- _; auto.
  - destruct H as [[? H]|[? H]]; [discriminate|]. injection H as <- _. eapply find_keeps; right; eauto.
Qed.

Lemma step_keeps : forall o b b', after (bin_step teqb o b) b' -> keeps b b'.
Proof.
  intros [x c|x c|x clo chi|c] b b' H; cbn [bin_step] in H.
  - unfold bin_add, mbind in H.
    destruct (bin_find c b) as [b1 u|b1 e| |r|] eqn:E1; try (destruct H as [[? H]|[? H]]; discriminate).
    + eapply keeps_trans; [eapply find_keeps; left; eauto|]. apply (push_keeps _ _ _ H).
    + destruct H as [[? H]|[? H]]; [discriminate|]. injection H as <- _. eapply find_keeps; right; eauto.
  - unfold bin_add_once, mbind, mget, mlift in H.
    destruct (bin_find c b) as [b1 u|b1 e| |r|] eqn:E1; try (destruct H as [[? H]|[? H]]; discriminate).
    + assert (K : keeps b b1) by (eapply find_keeps; left; eauto).
      destruct (nd_at (bin_item b1) (bin_indices b1)) as [l|e| |r|]; try (destruct H as [[? H]|[? H]]; discriminate).
      * destruct (existsb _ l).
        -- unfold mret in H. destruct H as [[? H]|[? H]]; [|discriminate]. injection H as <- _. auto.
        -- eapply keeps_trans; [exact K|]. apply (push_keeps _ _ _ H).
      * destruct H as [[? H]|[? H]]; [discriminate|]. injection H as <- _. auto.
    + destruct H as [[? H]|[? H]]; [discriminate|]. injection H as <- _. eapply find_keeps; right; eauto.
  - eapply add_range_inv_steps; eauto.
  - unfold mbind, mret in H.
    destruct (bin_contents c b) as [b1 l|b1 e| |r|] eqn:E1; try (destruct H as [[? H]|[? H]]; discriminate).
    + destruct H as [[? H]|[? H]]; [|discriminate]. injection H as <- _. eapply contents_keeps; left; eauto.
    + destruct H as [[? H]|[? H]]; [discriminate|]. injection H as <- _. eapply contents_keeps; right; eauto.
Qed.

Lemma later_keeps : forall b b', later teqb b b' -> keeps b b'.
Proof.
  intros b b' H. induction H as [|b1 o b2 H IH Hs]; [apply keeps_refl|].
  eapply keeps_trans; [exact IH|]. apply (step_keeps o). destruct Hs as [Hs|Hs]; [left; eauto|right; auto].
Qed.

(** ** What is in a bin stays there: any arithmetic, any later calls. *)

Lemma view_inv : forall mn inc mx N b c l, bin_inv mn inc mx N b -> length mn = length N -> length inc = length N ->
  length mx = length N -> length c = length N -> view b c = Ok l ->
  exists t, accepted mn mx c /\ has_index mn inc c t /\ length t = length N /\ nd_at (bin_item b) t = Ok l.
Proof.
  intros mn inc mx N b c l Hinv L1 L2 L3 L4 H. unfold view, bin_contents, mbind, mget, mlift in H.
  destruct (bin_find c b) as [b1 u|b1 e| |r|] eqn:E; try discriminate.
  unfold bin_find, bin_indices_into in E.
  destruct (bin_indices_loop _ _ _ _ _ _) as [t u'| | | |] eqn:E1; try discriminate.
  injection E as <- _. simpl in H.
  destruct (nd_at (bin_item b) t) as [l'| | | |] eqn:E2; try discriminate. injection H as ->.
  rewrite (order_length _ _ _ _ _ Hinv) in E1.
  rewrite (inv_min _ _ _ _ _ Hinv), (inv_max _ _ _ _ _ Hinv), (inv_incr _ _ _ _ _ Hinv) in E1.
  destruct (indices_loop_inv _ _ _ _ _ _ _ _ E1) as [Ha Hi]; auto using (inv_ind _ _ _ _ _ Hinv).
  exists t. split; [auto|]. split; [auto|]. split; [|auto].
  destruct (has_index_length _ _ _ _ Hi) as (L & _). congruence.
Qed.

Lemma view_at : forall mn inc mx N b c t, bin_inv mn inc mx N b ->
  accepted mn mx c -> has_index mn inc c t -> length t = length N -> view b c = nd_at (bin_item b) t.
Proof.
  intros mn inc mx N b c t Hinv Ha Hi Hl. unfold view, bin_contents, mbind, mget, mlift.
  rewrite (find_ok _ _ _ _ _ _ _ Hinv Ha Hi Hl). simpl.
  destruct (nd_at (bin_item b) t); auto.
Qed.

Lemma contents_persist : forall mn inc N b0 b b' c l,
  proper_shape N -> length mn = length N -> length inc = length N -> length c = length N ->
  bin_make mn inc N = Ok b0 -> later teqb b0 b -> later teqb b b' ->
  view b c = Ok l -> exists l', view b' c = Ok (l ++ l').
Proof.
  intros mn inc N b0 b b' c l HN L1 L2 L3 Hm H1 H2 Hv.
  destruct (max_loop_ok mn inc N L1 L2) as (mx & Hmx & HF).
  destruct (bin_make_inv (T:=T) mn inc mx N HN L1 L2 Hmx) as (b00 & Hm' & Hinv0 & _).
  assert (b00 = b0) by congruence. subst b00.
  assert (L4 : length mx = length N) by (clear -HF; induction HF; simpl; auto).
  pose proof (proj2 (later_keeps _ _ H1) _ _ _ _ Hinv0) as Hinv.
  destruct (later_keeps _ _ H2) as [G I]. pose proof (I _ _ _ _ Hinv) as Hinv'.
  destruct (view_inv _ _ _ _ _ _ _ Hinv L1 L2 L4 L3 Hv) as (t & Ha & Hi & Hl & Hat).
  destruct G as (_ & _ & _ & _ & _ & G). destruct (G _ _ Hat) as (l' & Hl').
  exists l'. rewrite (view_at _ _ _ _ _ _ _ Hinv' Ha Hi Hl). auto.
Qed.

(** ** Points of a registered box *)

(** What the arithmetic has to provide: order, and indices between indices. *)
Definition order_ok (O' : NumOps) : Prop :=
  (forall x p a, nleb O' x p = true -> nltb O' x a = false -> nltb O' p a = false) /\
  (forall p y z, nleb O' p y = true -> nltb O' z y = false -> nltb O' z p = false).

Definition between_ok (O' : NumOps) (ok : num O' -> Prop) : Prop :=
  forall a h x p y i k, ok h -> nltb O' x a = false -> nleb O' x p = true -> nleb O' p y = true ->
    nfloor O' (ndiv O' (nsub O' x a) h) = Some i -> nfloor O' (ndiv O' (nsub O' y a) h) = Some k ->
    exists j, nfloor O' (ndiv O' (nsub O' p a) h) = Some j /\ i <= j <= k.

Lemma box_points : forall (ok : num O -> Prop), order_ok O -> between_ok O ok ->
  forall mn inc mx lo hi p ilo ihi, Forall ok inc ->
  accepted mn mx lo -> has_index mn inc lo ilo -> accepted mn mx hi -> has_index mn inc hi ihi ->
  Forall2 (fun x y => nleb O x y = true) lo p -> Forall2 (fun x y => nleb O x y = true) p hi ->
  exists t, accepted mn mx p /\ has_index mn inc p t /\ Forall3 (fun l h k => l <= k <= h) ilo ihi t /\
    Forall2 Z.le ilo ihi.
Proof.
  intros ok [Ho1 Ho2] Hb mn inc mx lo hi p ilo ihi Hok Ha1 Hi1. revert mx hi p ihi Hok Ha1.
  induction Hi1 as [|a h x i mn inc lo ilo [Hf1 Hn1] Hi1 IH]; intros mx hi p ihi Hok Ha1 Ha2 Hi2 Hp1 Hp2.
  - inversion Hi2; subst. inversion Hp1; subst. inversion Ha1; subst. exists []. repeat split; constructor.
  - inversion Hi2 as [|? ? y k ? ? hi' ihi' [Hf2 Hn2] Hi2']; subst.
    inversion Ha1 as [|? z ? ? mx' ? [A1 A2] Ha1']; subst.
    inversion Ha2 as [|? ? ? ? ? ? [A3 A4] Ha2']; subst.
    inversion Hp1 as [|? q ? p' Q1 Hp1']; subst.
    inversion Hp2 as [|? ? ? ? Q2 Hp2']; subst.
    inversion Hok as [|? ? Hh Hok']; subst.
    destruct (IH _ _ _ _ Hok' Ha1' Ha2' Hi2' Hp1' Hp2') as (t & T1 & T2 & T3 & T4).
    destruct (Hb a h x q y i k Hh A1 Q1 Q2 Hf1 Hf2) as (j & Hj & Hij).
    exists (j :: t). split; [|split; [|split]].
    + constructor; auto. split; eauto.
    + constructor; auto. split; auto. unfold in_int in *. lia.
    + constructor; auto.
    + constructor; auto. lia.
Qed.

Lemma box_found : forall (ok : num O -> Prop), order_ok O -> between_ok O ok ->
  forall mn inc N b0 b b1 b2 x lo hi p,
  proper_shape N -> length mn = length N -> length inc = length N -> Forall ok inc ->
  length lo = length N -> length hi = length N ->
  bin_make mn inc N = Ok b0 -> later teqb b0 b ->
  bin_add_range x lo hi b = RRet b1 tt -> later teqb b1 b2 ->
  Forall2 (fun x y => nleb O x y = true) lo p -> Forall2 (fun x y => nleb O x y = true) p hi ->
  exists l, view b2 p = Ok l /\ In x l.
Proof.
  intros ok Ho Hb mn inc N b0 b b1 b2 x lo hi p HN L1 L2 Hok L3 L4 Hm H1 Hr H2 Hp1 Hp2.
  destruct (max_loop_ok mn inc N L1 L2) as (mx & Hmx & HF).
  destruct (bin_make_inv (T:=T) mn inc mx N HN L1 L2 Hmx) as (b00 & Hm' & Hinv0 & _).
  assert (b00 = b0) by congruence. subst b00.
  assert (L5 : length mx = length N) by (clear -HF; induction HF; simpl; auto).
  pose proof (proj2 (later_keeps _ _ H1) _ _ _ _ Hinv0) as Hinv.
  assert (Hsteps : exists ilo ihi, accepted mn mx lo /\ has_index mn inc lo ilo /\ accepted mn mx hi /\ has_index mn inc hi ihi).
  { pose proof Hr as Hr'. unfold bin_add_range, mbind, mmod in Hr'.
    destruct (bin_local_indices lo b) as [c1 ilo| | | |] eqn:E1; try discriminate.
    destruct (bin_local_indices hi c1) as [c2 ihi| | | |] eqn:E2; try discriminate.
    destruct (local_indices_after _ _ c1 _ E1 (or_introl (ex_intro _ ilo eq_refl))) as [-> _].
    unfold bin_local_indices, bin_indices_into in E1, E2.
    rewrite (order_length _ _ _ _ _ Hinv), (inv_min _ _ _ _ _ Hinv), (inv_max _ _ _ _ _ Hinv),
      (inv_incr _ _ _ _ _ Hinv) in E1, E2.
    destruct (bin_indices_loop (length N) lo mn mx inc _) as [t1 u1| | | |] eqn:F1; try discriminate.
    destruct (bin_indices_loop (length N) hi mn mx inc _) as [t2 u2| | | |] eqn:F2; try discriminate.
    injection E1 as ->. injection E2 as _ ->. exists ilo, ihi.
    destruct (indices_loop_inv _ _ _ _ _ _ _ _ F1); auto using repeat_length.
    destruct (indices_loop_inv _ _ _ _ _ _ _ _ F2); auto using repeat_length. }
  destruct Hsteps as (ilo & ihi & Ha1 & Hi1 & Ha2 & Hi2).
  destruct (box_points ok Ho Hb _ _ _ _ _ _ _ _ Hok Ha1 Hi1 Ha2 Hi2 Hp1 Hp2) as (t & Ha & Hi & Hbox & Hle).
  assert (Lt : length t = length N).
  { destruct (has_index_length _ _ _ _ Hi) as (L & _). congruence. }
  assert (Ll : length ilo = length N).
  { destruct (has_index_length _ _ _ _ Hi1) as (L & _). congruence. }
  destruct (add_range_found _ _ _ _ _ _ _ _ _ _ _ _ Hinv Ha1 Hi1 Ha2 Hi2 Ll Hle Hr) as [_ Hfound].
  destruct (Hfound t Hbox) as (l & Hl & Hin).
  pose proof (proj2 (add_range_inv_steps _ _ _ _ _ (or_introl (ex_intro _ tt Hr))) _ _ _ _ Hinv) as Hinv1.
  destruct (later_keeps _ _ H2) as [G I]. pose proof (I _ _ _ _ Hinv1) as Hinv2.
  destruct G as (_ & _ & _ & _ & _ & G). destruct (G _ _ Hl) as (l' & Hl').
  exists (l ++ l'). split.
  - rewrite (view_at _ _ _ _ _ _ _ Hinv2 Ha Hi Lt). auto.
  - apply in_or_app; auto.
Qed.

End Later.
