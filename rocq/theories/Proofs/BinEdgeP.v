(** A coordinate exactly on an upper limit of the grid. *)
From Coq Require Import ZArith List Bool Lia Reals Lra.
From Flocq Require Import Core.Raux.
From Verif Require Import Model.Outcome Model.Num Model.NumInst Model.PNDArray Model.Bin.
From Verif Require Import Spec.Tensor Spec.NDHistory Spec.Grid.
From Verif Require Import Proofs.OutcomeP Proofs.PNDArrayP Proofs.BinP Proofs.BinRP Proofs.BinLaterP.
Import ListNotations.
Local Open Scope Z_scope.

Lemma floor_upper : forall a h n, (0 < h)%R -> Zfloor ((a + h * IZR n - a) / h) = n.
Proof.
  intros a h n Hh. replace ((a + h * IZR n - a) / h)%R with (IZR n) by (field; lra). apply Zfloor_IZR.
Qed.

(** Reading through an index tuple whose first index is the extent: outside the storage. *)
Lemma nd_at_first_out : forall (A : Type) (s : nd A) n N t, nd_wf s -> nd_dim s = n :: N -> proper_shape (n :: N) ->
  valid_index N t -> exists r, nd_at s (n :: t) = UB r.
Proof.
  intros A s n N t Hwf Hd HN Hv.
  destruct Hwf as [(H1 & _)|(Hu & Hs & Ho & Hvol & Hlen)]; [congruence|].
  unfold nd_at, linear_index. rewrite Hs, Hd. simpl.
  destruct HN as (_ & Hpos & Hfit). inversion Hpos as [|? ? Hn HposN]; subst.
  rewrite zprod_cons in Hfit.
  pose proof (zprod_pos _ HposN) as Hp.
  change int_max with INT_MAX in Hfit.
  rewrite cint_ok by (unfold INT_MIN; nia). simpl. rewrite cint_ok by (unfold INT_MIN; nia). simpl.
  pose proof (dotp_bounds _ _ Hv) as Hb.
  assert (Hget : forall i, nd_volume s <= i -> nd_get s i = UB UBOutOfBounds).
  { intros i Hi. unfold nd_get. apply vget_out. lia. }
  rewrite Hd, zprod_cons in Hvol.
  destruct (Z_le_gt_dec (n * zprod N + dotp N t) INT_MAX) as [Hle|Hgt].
  - rewrite linear_index_loop_ok by (auto; nia). simpl. rewrite Hget by nia. eauto.
  - assert (Hov : forall N t acc, valid_index N t -> 0 <= acc <= INT_MAX -> acc + dotp N t > INT_MAX ->
               linear_index_loop (strides N) t acc = UB UBOverflow \/
               linear_index_loop (strides N) t acc = UB UBOutOfBounds).
    { clear. intros N t acc H; revert acc. induction H as [|d i N t Hi H IH]; intros acc Ha Hb; simpl in *; [lia|].
      pose proof (zprod_pos _ (valid_index_pos _ _ H)). pose proof (dotp_bounds _ _ H).
      destruct (Z_le_gt_dec (i * zprod N) INT_MAX).
      - rewrite cint_ok by (unfold INT_MIN; nia). simpl.
        destruct (Z_le_gt_dec (acc + i * zprod N) INT_MAX).
        + rewrite cint_ok by (unfold INT_MIN; nia). simpl. apply IH; nia.
        + rewrite cint_out by lia. auto.
      - rewrite cint_out by lia. auto. }
    destruct (Hov N t (n * zprod N) Hv) as [H|H]; try nia; simpl; rewrite H; simpl; eauto.
Qed.

Section Edge.
Context {T : Type} (teqb : T -> T -> bool).

Lemma upper_limit_first_dimension : forall a h n mn inc N (b : bin ROps T) c,
  proper_grid (a :: mn) (h :: inc) (n :: N) -> bin_reachable teqb (a :: mn) (h :: inc) (n :: N) b ->
  inside mn inc N c ->
  exists r, view b ((a + h * IZR n)%R :: c) = UB r.
Proof.
  intros a h n mn inc N b c Hgrid Hr Hin.
  destruct (reachable_inv teqb _ _ _ Hgrid b Hr) as (mx & Hinv & Hg & Hs).
  pose proof Hgrid as (HN & L1 & L2 & Hh). inversion Hh as [|? ? Hh0 Hh1]; subst.
  pose proof (shape_entries_le _ HN) as HNe. inversion HNe as [|? ? Hn0 HN1]; subst.
  destruct (inside_index mn inc N c Hh1 HN1 Hin) as (t & Ht & _ & Hv).
  inversion Hg as [|? ? ? z ? ? ? mx' Hz Hg']; subst.
  assert (Ha : @accepted ROps (a :: mn) ((a + h * IZR n)%R :: mx') ((a + h * IZR n)%R :: c)).
  { constructor; [|apply (inside_accepted mn inc N mx' c Hg' Hin)]. simpl.
    assert (0 < IZR n)%R by (apply (IZR_lt 0); lia).
    split; apply Rlt_bool_false; nra. }
  assert (Hi : @has_index ROps (a :: mn) (h :: inc) ((a + h * IZR n)%R :: c) (n :: t)).
  { constructor; auto. simpl. rewrite floor_upper by auto. split; auto. unfold in_int, INT_MIN in *. lia. }
  rewrite (@view_at ROps T _ _ _ _ _ _ _ Hinv Ha Hi).
  - eapply nd_at_first_out; eauto; [apply (inv_wf _ _ _ _ _ Hinv)|apply (inv_dim _ _ _ _ _ Hinv)].
  - simpl. rewrite (valid_index_length _ _ Hv). auto.
Qed.

Lemma upper_limit_second_dimension : forall a0 a1 h0 h1 n0 n1 (b : bin ROps T) c,
  proper_grid [a0; a1] [h0; h1] [n0; n1] -> bin_reachable teqb [a0; a1] [h0; h1] [n0; n1] b ->
  (a0 <= c)%R -> (c + h0 < a0 + h0 * IZR n0)%R ->
  view b [c; (a1 + h1 * IZR n1)%R] = view b [(c + h0)%R; a1].
Proof.
  intros a0 a1 h0 h1 n0 n1 b c Hgrid Hr Hc1 Hc2.
  destruct (reachable_inv teqb _ _ _ Hgrid b Hr) as (mx & Hinv & Hg & Hs).
  pose proof Hgrid as (HN & L1 & L2 & Hh).
  inversion Hh as [|? ? Hh0 Hh']; subst. inversion Hh' as [|? ? Hh1 _]; subst.
  pose proof (shape_entries_le _ HN) as HNe. inversion HNe as [|? ? Hn0 HN']; subst. inversion HN' as [|? ? Hn1 _]; subst.
  inversion Hg as [|? ? ? z0 ? ? ? mx' Hz0 Hg']; subst. inversion Hg' as [|? ? ? z1 ? ? ? mx'' Hz1 Hg'']; subst.
  inversion Hg''; subst.
  assert (P1 : (0 < IZR n1)%R) by (apply (IZR_lt 0); lia).
  set (k := Zfloor ((c - a0) / h0)).
  assert (Hk' : Zfloor ((c + h0 - a0) / h0) = k + 1).
  { replace ((c + h0 - a0) / h0)%R with ((c - a0) / h0 + IZR 1)%R by (simpl; field; lra).
    apply Zfloor_imp. unfold k.
    pose proof (Zfloor_lb ((c - a0) / h0)). pose proof (Zfloor_ub ((c - a0) / h0)).
    rewrite !plus_IZR. simpl. lra. }
  assert (Hq : (c = a0 + h0 * ((c - a0) / h0))%R) by (field; lra).
  assert (Hk0 : 0 <= k).
  { apply Zfloor_lub. simpl. set (q := ((c - a0) / h0)%R) in *. nra. }
  assert (Hk1 : k + 1 < n0).
  { apply lt_IZR. rewrite plus_IZR. pose proof (Zfloor_lb ((c - a0) / h0)) as Hlb. fold k in Hlb.
    set (q := ((c - a0) / h0)%R) in *. nra. }
  rewrite (@view_at ROps T [a0; a1] [h0; h1] [(a0 + h0 * IZR n0)%R; (a1 + h1 * IZR n1)%R] [n0; n1] b
             [c; (a1 + h1 * IZR n1)%R] [k; n1] Hinv).
  - rewrite (@view_at ROps T [a0; a1] [h0; h1] [(a0 + h0 * IZR n0)%R; (a1 + h1 * IZR n1)%R] [n0; n1] b
             [(c + h0)%R; a1] [k + 1; 0] Hinv).
    + pose proof (inv_wf _ _ _ _ _ Hinv) as Hwf. pose proof (inv_dim _ _ _ _ _ Hinv) as Hd.
      destruct Hwf as [(H1 & _)|(Hu & Hst & Ho & Hvol & Hlen)]; [congruence|].
      destruct HN as (_ & _ & Hfit). unfold zprod in Hfit; simpl in Hfit. change int_max with INT_MAX in Hfit.
      unfold nd_at, linear_index. rewrite Hst, Hd. unfold strides, zprod; simpl.
      repeat (rewrite cint_ok by (unfold INT_MIN; nia); simpl).
      f_equal. lia.
    + constructor; [|constructor; [|constructor]]; simpl; split; apply Rlt_bool_false; nra.
    + constructor; [|constructor; [|constructor]]; simpl.
      * rewrite Hk'. split; auto. unfold in_int, INT_MIN. lia.
      * replace ((a1 - a1) / h1)%R with (IZR 0) by (simpl; field; lra). rewrite Zfloor_IZR. auto.
    + auto.
  - constructor; [|constructor; [|constructor]]; simpl; split; apply Rlt_bool_false; nra.
  - constructor; [|constructor; [|constructor]]; simpl.
    + split; [reflexivity|]. fold k. unfold in_int, INT_MIN. lia.
    + rewrite floor_upper by auto. split; auto. unfold in_int, INT_MIN. lia.
  - auto.
Qed.

End Edge.
