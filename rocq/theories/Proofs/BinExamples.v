(** Concrete cases for the bin grid theorems. *)
From Coq Require Import ZArith List Bool Lia Reals Lra.
From Verif Require Import Model.Outcome Model.Num Model.NumInst Model.PNDArray Model.Bin.
From Verif Require Import Spec.Tensor Spec.Grid Proofs.BinP Proofs.BinRP Proofs.BinLaterP Proofs.BinFloatP Proofs.BinEdgeP.
Import ListNotations.
Local Open Scope Z_scope.

Lemma ex_grid : proper_grid [0; -1]%R [1/2; 1]%R [4; 3].
Proof.
  split; [|split; [|split]]; auto.
  - split; [discriminate|]. split; [repeat constructor|vm_compute; discriminate].
  - repeat constructor; lra.
Qed.

Lemma ex_inside1 : inside [0; -1]%R [1/2; 1]%R [4; 3] [3/4; 0]%R.
Proof. repeat constructor; lra. Qed.

Lemma ex_inside2 : inside [0; -1]%R [1/2; 1]%R [4; 3] [1/2; 1/2]%R.
Proof. repeat constructor; lra. Qed.

Lemma ex_same : same_cell [0; -1]%R [1/2; 1]%R [3/4; 0]%R [1/2; 1/2]%R.
Proof. exists [1; 1]. split; repeat constructor; simpl; lra. Qed.

Lemma ex_other : ~ same_cell [0; -1]%R [1/2; 1]%R [3/4; 0]%R [1; 0]%R.
Proof.
  intros (t & H1 & H2). inversion H1 as [|? ? k ? ? ? ? ? A1 _]; subst. inversion H2 as [|? ? k' ? ? ? ? ? A2 _]; subst.
  rewrite plus_IZR in *. assert (IZR k < 2)%R by lra. assert (2 <= IZR k)%R; [|lra].
  assert (1 < IZR k)%R by lra. apply (lt_IZR 1) in H0. apply (IZR_le 2). lia.
Qed.

Lemma ex_lo : inside [0; -1]%R [1/2; 1]%R [4; 3] [3/4; -1/2]%R.
Proof. repeat constructor; lra. Qed.
Lemma ex_hi : inside [0; -1]%R [1/2; 1]%R [4; 3] [1; 1/2]%R.
Proof. repeat constructor; lra. Qed.
Lemma ex_below : below [3/4; -1/2]%R [1; 1/2]%R.
Proof. repeat constructor; lra. Qed.
Lemma ex_cell_lo : in_cell [0; -1]%R [1/2; 1]%R [1; 0] [3/4; -1/2]%R.
Proof. repeat constructor; simpl; lra. Qed.
Lemma ex_cell_hi : in_cell [0; -1]%R [1/2; 1]%R [2; 1] [1; 1/2]%R.
Proof. repeat constructor; simpl; lra. Qed.

Lemma ex_outside : outside [0; -1]%R [1/2; 1]%R [4; 3] [3/4; 5]%R.
Proof. split; auto. apply Exists3_later. apply Exists3_here; auto. simpl. lra. Qed.

(** The grid in binary64. *)
Definition ex_f64_grid : outcome (bin FOps Z) :=
  bin_make (O := FOps) [f64_make 0 0; f64_make (-1) 0] [f64_make 1 (-1); f64_make 1 0] [4; 3].

(** 0.1 and 0.3 rounded to binary64. *)
Definition ex_tenth : num FOps := ndiv FOps (nofZ FOps 1) (nofZ FOps 10).
Definition ex_three_tenths : num FOps := ndiv FOps (nofZ FOps 3) (nofZ FOps 10).

Lemma ex_decides : decides_eq Z.eqb.
Proof. intros x y. apply Z.eqb_eq. Qed.

Lemma ex_once : exists b : bin ROps Z, once_reachable Z.eqb [0; -1]%R [1/2; 1]%R [4; 3] b /\ view b [3/4; 0]%R = Ok [7].
Proof.
  destruct (bin_make_spec (T := Z) Z.eqb _ _ _ ex_grid) as (b & Hb & Hr & Hv).
  destruct (bin_add_once_spec Z.eqb _ _ _ ex_grid b 7 [3/4; 0]%R ex_decides Hr ex_inside1) as (b' & l & Hl & Hb' & _ & Hs).
  exists b'. split.
  - eapply OnceAdd with (c := [3/4; 0]%R) (x := 7); [apply OnceInit; exact Hb|left; exact ex_inside1|left; exact Hb'].
  - rewrite Hv in Hl by exact ex_inside1. injection Hl as <-.
    destruct (Hs _ ex_inside1) as [Hs1 _]. rewrite Hs1; auto. split; auto.
    exists [1; 1]. split; repeat constructor; simpl; lra.
Qed.

Fixpoint forall3b {A B C : Type} (p : A -> B -> C -> bool) (la : list A) (lb : list B) (lc : list C) : bool :=
  match la, lb, lc with
  | [], [], [] => true
  | a :: la, b :: lb, c :: lc => p a b c && forall3b p la lb lc
  | _, _, _ => false
  end.

Lemma forall3b_spec : forall (A B C : Type) (p : A -> B -> C -> bool) la lb lc, forall3b p la lb lc = true ->
  forall P : A -> B -> C -> Prop, (forall a b c, p a b c = true -> P a b c) -> Forall3 P la lb lc.
Proof.
  induction la as [|a la IH]; intros [|b lb] [|c lc] H P HP; simpl in H; try discriminate; constructor;
    apply andb_true_iff in H; destruct H; auto.
Qed.

Definition is_oob {A : Type} (o : outcome A) : bool := match o with UB UBOutOfBounds => true | _ => false end.

Lemma upper_limit_refuted :
  exists (mn inc : list f64) (N : list Z) (b : bin FOps Z) (c : list f64) (r : ub_reason),
    proper_shape N /\ bin_make (O := FOps) mn inc N = Ok b /\
    Forall3 (fun a z x => nltb FOps x a = false /\ nltb FOps z x = false) mn (bin_max b) c /\
    view (O := FOps) b c = UB r.
Proof.
  exists [f64_make 0 0; f64_make (-1) 0], [f64_make 1 (-1); f64_make 1 0], [4; 3].
  assert (H : match ex_f64_grid with
              | Ok b => forall3b (fun a z x => negb (nltb FOps x a) && negb (nltb FOps z x))
                          [f64_make 0 0; f64_make (-1) 0] (bin_max b) [f64_make 2 0; f64_make 0 0] &&
                        is_oob (view b [f64_make 2 0; f64_make 0 0])
              | _ => false
              end = true) by (vm_compute; reflexivity).
  unfold ex_f64_grid in H.
  destruct (bin_make (O := FOps) (T := Z) [f64_make 0 0; f64_make (-1) 0] [f64_make 1 (-1); f64_make 1 0] [4; 3]) as [b| | | |] eqn:E;
    try discriminate.
  apply andb_true_iff in H. destruct H as [H1 H2].
  exists b, [f64_make 2 0; f64_make 0 0], UBOutOfBounds.
  split; [apply ex_grid|]. split; [reflexivity|]. split.
  - eapply forall3b_spec; [exact H1|]. intros a z x H. apply andb_true_iff in H. rewrite !negb_true_iff in H. exact H.
  - destruct (view b _) as [| | |[] |]; try discriminate. reflexivity.
Qed.

Lemma box_found_binary64 :
  forall (T : Type) (teqb : T -> T -> bool) (mn inc : list f64) (N : list Z) (b0 b b1 b2 : bin FOps T) x lo hi p,
  proper_shape N -> length mn = length N -> length inc = length N ->
  Forall (fun h => nltb FOps (nofZ FOps 0) h = true) inc ->
  length lo = length N -> length hi = length N ->
  bin_make (O := FOps) mn inc N = Ok b0 -> later teqb b0 b ->
  bin_add_range (O := FOps) x lo hi b = RRet b1 tt -> later teqb b1 b2 ->
  Forall2 (fun x y => nleb FOps x y = true) lo p -> Forall2 (fun x y => nleb FOps x y = true) p hi ->
  exists l, view (O := FOps) b2 p = Ok l /\ In x l.
Proof.
  intros T teqb mn inc N b0 b b1 b2 x lo hi p. apply (box_found teqb _ f64_order_ok f64_between_ok).
Qed.

Lemma box_found_rounded :
  forall (rnd : R -> R), (forall x y, (x <= y)%R -> (rnd x <= rnd y)%R) ->
  forall (T : Type) (teqb : T -> T -> bool) (mn inc : list R) (N : list Z) (b0 b b1 b2 : bin (RndOps rnd) T) x
         (lo hi p : list R),
  proper_shape N -> length mn = length N -> length inc = length N -> Forall (fun h => (0 < h)%R) inc ->
  length lo = length N -> length hi = length N ->
  bin_make (O := RndOps rnd) mn inc N = Ok b0 -> later teqb b0 b ->
  bin_add_range (O := RndOps rnd) x lo hi b = RRet b1 tt -> later teqb b1 b2 ->
  Forall2 Rle lo p -> Forall2 Rle p hi ->
  exists l, view (O := RndOps rnd) b2 p = Ok l /\ In x l.
Proof.
  intros rnd Hm T teqb mn inc N b0 b b1 b2 x lo hi p H1 H2 H3 H4 H5 H6 H7 H8 H9 H10 H11 H12.
  assert (Hle : forall u v : list R, Forall2 Rle u v -> Forall2 (fun x y => nleb (RndOps rnd) x y = true) u v).
  { intros u v H. induction H; constructor; auto. simpl. apply Raux.Rle_bool_true. auto. }
  exact (box_found (O := RndOps rnd) teqb _ (rnd_order_ok rnd) (rnd_between_ok rnd Hm) mn inc N b0 b b1 b2 x lo hi p
           H1 H2 H3 H4 H5 H6 H7 H8 H9 H10 (Hle _ _ H11) (Hle _ _ H12)).
Qed.
