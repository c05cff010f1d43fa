(** Bin::max_indices. *)
From Coq Require Import ZArith List Bool Lia Reals Lra Psatz.
From Flocq Require Import Core.Raux.
From Verif Require Import Model.Outcome Model.Num Model.NumInst Model.PNDArray Model.Bin Model.BinMax.
From Verif Require Import Spec.Tensor Spec.Grid Spec.BinMax.
From Verif Require Import Proofs.PNDArrayP Proofs.BinP Proofs.BinRP Proofs.BinLaterP Proofs.BinExamples.
Import ListNotations.
Local Open Scope Z_scope.

Lemma max_index1_ok a z h x k : (0 < h)%R -> nltb ROps x a = false -> nltb ROps z x = false -> Zfloor ((x - a) / h) = k -> in_int k = true ->
  exists j, bin_max_index1 ROps x a z h = Ok j /\ (a + h * IZR j < x <= a + h * IZR (j + 1))%R /\ -1 <= j <= k.
Proof.
  intros Hh H1 H2 Hk Hi. unfold bin_max_index1. rewrite H1, H2. cbn [orb]. cbv zeta.
  assert (F : floor_to_int ROps (ndiv ROps (nsub ROps x a) h) = Ok k) by (apply floor_to_int_ok; [cbn; rewrite Hk; reflexivity|exact Hi]).
  rewrite F. cbn [obind]. pose proof (proj1 (floor_cell a h x k Hh) Hk) as [C1 C2]. rewrite plus_IZR in C2.
  assert (K0 : 0 <= k).
  { simpl in H1. apply Rlt_bool_false_iff in H1. assert (-1 < k); [|lia]. apply lt_IZR. apply Rmult_lt_reg_l with h; [exact Hh|]. lra. }
  assert (D : (h * ((x - a) / h) = x - a)%R) by (field; lra).
  cbn [neqb nofZ ndiv nsub ROps]. destruct (Req_bool_spec (IZR k) ((x - a) / h)) as [E|E].
  - exists (k - 1). split; [unfold cint; replace (in_int (k - 1)) with true by (unfold in_int, INT_MIN, INT_MAX in *; lia); reflexivity|]. split; [|lia]. replace (k - 1 + 1) with k by lia. rewrite E, minus_IZR, E.
    replace (h * ((x - a) / h - 1))%R with (h * ((x - a) / h) - h)%R by ring. rewrite D. lra.
  - exists k. split; [reflexivity|]. split; [|lia]. rewrite plus_IZR. split; [|lra]. assert (Q : (a + h * IZR k)%R <> x); [|lra]. intros Q. apply E. apply Rmult_eq_reg_l with h; [|lra]. rewrite D. lra.
Qed.

Lemma max_loop_ok mn mx inc N c : grid_max mn inc N mx -> Forall (fun h => (0 < h)%R) inc -> @accepted ROps mn mx c -> forall t, @has_index ROps mn inc c t ->
  forall term, length term = length t ->
  exists j, @bin_max_loop ROps (length t) c mn mx inc term = RRet j tt /\ in_upper_cell mn inc j c /\ (valid_index N j <-> above_minimum mn c).
Proof.
  intros Hg. revert c. induction Hg as [|a h n z m i n' mx Hz Hg IH]; intros c Hh Ha t Hi term L.
  - inversion Ha; subst. inversion Hi; subst. destruct term; [|discriminate L]. exists []. split; [reflexivity|]. split; [constructor|]. split; constructor.
  - inversion Ha as [|? ? x ? ? c' [A1 A2] Ha']; subst. inversion Hi as [|? ? ? k ? ? ? t' [Hk Ik] Hi']; subst. inversion Hh as [|? ? Hh0 Hh1]; subst.
    destruct term as [|y term]; [discriminate L|]. injection L as L. destruct (IH c' Hh1 Ha' t' Hi' term L) as (js & E & U & V).
    simpl in Hk. injection Hk as Hk. destruct (max_index1_ok a _ h x k Hh0 A1 A2 Hk Ik) as (j & Ej & Uj & Bj).
    exists (j :: js). split; [|split].
    + cbn [length bin_max_loop]. rewrite A1, A2. cbn [orb]. rewrite Ej, E. reflexivity.
    + constructor; [exact Uj|exact U].
    + simpl in A2. apply Rlt_bool_false_iff in A2. pose proof (proj1 (floor_cell a h x k Hh0) Hk) as [C1 C2]. rewrite plus_IZR in *. split; intros H.
      * inversion H as [|? ? ? ? Hb Hr]; subst. constructor; [|apply V; exact Hr]. assert (0 <= IZR j)%R by (apply IZR_le; lia). nra.
      * inversion H as [|? ? ? ? Hb Hr]; subst. constructor; [|apply V; exact Hr]. split.
        -- assert (-1 < j); [|lia]. apply lt_IZR. apply Rmult_lt_reg_l with h; [exact Hh0|]. lra.
        -- apply lt_IZR. apply Rmult_lt_reg_l with h; [exact Hh0|]. lra.
Qed.

Lemma max_loop_reject : forall mn mx inc c term, @rejected ROps mn mx c -> @int_safe ROps mn mx inc -> Forall (fun h => (0 < h)%R) inc -> length term = length c ->
  exists t, @bin_max_loop ROps (length c) c mn mx inc term = RThrow t DomainError /\ length t = length term.
Proof.
  intros mn mx inc c term Hrej. revert inc term. induction Hrej as [a z x mn mx c Hout H1 H2|a z x mn mx c Hrej IH]; intros inc term Hsafe Hh Hlen.
  - exists term. split; [|reflexivity]. cbn [length bin_max_loop]. destruct Hout as [Hout|Hout]; rewrite Hout; rewrite ?orb_true_r; reflexivity.
  - inversion Hsafe as [|? ? h ? ? inc' Hs Hsafe']; subst. inversion Hh as [|? ? Hh0 Hh1]; subst. destruct term as [|y term]; [discriminate Hlen|]. injection Hlen as Hlen.
    cbn [length bin_max_loop]. destruct (nltb ROps x a) eqn:E1; [cbn [orb]; eexists; split; reflexivity|]. destruct (nltb ROps z x) eqn:E2; [cbn [orb]; eexists; split; reflexivity|]. cbn [orb].
    destruct (Hs x E1 E2) as (k & Hf & Hi). simpl in Hf. injection Hf as Hf. destruct (max_index1_ok a z h x k Hh0 E1 E2 Hf Hi) as (j & -> & _).
    destruct (IH inc' term Hsafe' Hh1 Hlen) as (t & -> & Ht). exists (j :: t). split; [reflexivity|]. simpl. lia.
Qed.

Section Statements.
Context (T : Type) (teqb : T -> T -> bool) (mn inc : list R) (N : list Z).
Hypothesis Hgrid : proper_grid mn inc N.

Lemma max_indices_ok : forall (b : bin ROps T) c term, bin_reachable teqb mn inc N b -> length c = length N -> length term = length N -> ~ outside mn inc N c ->
  exists j, bin_max_indices b c term = RRet j tt /\ in_upper_cell mn inc j c /\ (valid_index N j <-> above_minimum mn c).
Proof.
  intros b c term Hr Hl Ht Hn. destruct (reachable_inv teqb mn inc N Hgrid b Hr) as (mx & Hinv & Hg & Hs).
  pose proof (not_outside_accepted mn inc N mx c Hg Hl Hn) as Ha. destruct (int_safe_index _ _ _ _ Ha Hs) as (t & Hi).
  assert (Lt : length t = length N) by (destruct (has_index_length _ _ _ _ Hi) as (_ & _ & L); simpl in *; congruence).
  destruct (max_loop_ok mn mx inc N c Hg (proj2 (proj2 (proj2 Hgrid))) Ha t Hi term ltac:(congruence)) as (j & E & U). exists j. split; [|exact U].
  unfold bin_max_indices. rewrite (inv_min _ _ _ _ _ Hinv), (inv_max _ _ _ _ _ Hinv), (inv_incr _ _ _ _ _ Hinv). rewrite (order_length _ _ _ _ _ Hinv), <- Lt. exact E.
Qed.
Lemma max_indices_reject : forall (b : bin ROps T) c term, bin_reachable teqb mn inc N b -> length term = length N -> outside mn inc N c ->
  exists t, bin_max_indices b c term = RThrow t DomainError /\ length t = length N.
Proof.
  intros b c term Hr Ht Ho. destruct (reachable_inv teqb mn inc N Hgrid b Hr) as (mx & Hinv & Hg & Hs).
  assert (Lc : length term = length c) by (destruct Ho as [Lo _]; rewrite Lo; exact Ht). destruct (max_loop_reject mn mx inc c term (outside_rejected _ _ _ _ _ Hg Ho) Hs (proj2 (proj2 (proj2 Hgrid))) Lc) as (t & E & L). exists t. split; [|congruence].
  unfold bin_max_indices. rewrite (inv_min _ _ _ _ _ Hinv), (inv_max _ _ _ _ _ Hinv), (inv_incr _ _ _ _ _ Hinv). rewrite (order_length _ _ _ _ _ Hinv), <- (proj1 Ho : length c = length N). exact E.
Qed.
End Statements.

Lemma ex_upper : in_upper_cell [0; -1]%R [1/2; 1]%R [1; 2] [1; 2]%R /\ ~ outside [0; -1]%R [1/2; 1]%R [4; 3] [1; 2]%R /\ above_minimum [0; -1]%R [1; 2]%R.
Proof.
  split; [repeat constructor; simpl; lra|]. split; [|repeat constructor; lra]. intros (_ & H). inversion H as [? ? ? ? ? ? H'|? ? ? ? ? ? H']; subst; simpl in *; [lra|].
  inversion H' as [? ? ? ? ? ? H''|? ? ? ? ? ? H'']; subst; simpl in *; [lra|]. inversion H''.
Qed.
(** On the 4 by 3 grid of doubles. *)
Lemma max_refuted : exists (mn inc : list f64) (N : list Z) (b : bin FOps Z) (c : list f64) j,
  proper_shape N /\ bin_make (O := FOps) mn inc N = Ok b /\ Forall3 (fun a z x => nltb FOps x a = false /\ nltb FOps z x = false) mn (bin_max b) c /\
  bin_max_indices b c (repeat 0 (length N)) = RRet j tt /\ ~ valid_index N j.
Proof.
  exists [f64_make 0 0; f64_make (-1) 0], [f64_make 1 (-1); f64_make 1 0], [4; 3].
  assert (H : match ex_f64_grid with
              | Ok b => forall3b (fun a z x => negb (nltb FOps x a) && negb (nltb FOps z x)) [f64_make 0 0; f64_make (-1) 0] (bin_max b) [f64_make 0 0; f64_make 0 0] &&
                        match bin_max_indices b [f64_make 0 0; f64_make 0 0] [0; 0] with RRet [-1; 0] _ => true | _ => false end
              | _ => false
              end = true) by (vm_compute; reflexivity).
  unfold ex_f64_grid in H.
  destruct (bin_make (O := FOps) (T := Z) [f64_make 0 0; f64_make (-1) 0] [f64_make 1 (-1); f64_make 1 0] [4; 3]) as [b| | | |] eqn:E; try discriminate H.
  apply andb_true_iff in H. destruct H as [H1 H2]. exists b, [f64_make 0 0; f64_make 0 0], [-1; 0]. split; [apply ex_grid|]. split; [reflexivity|]. split.
  - eapply forall3b_spec; [exact H1|]. intros a z x H. apply andb_true_iff in H. rewrite !negb_true_iff in H. exact H.
  - split; [|intros H; inversion H; subst; lia]. cbn [repeat length]. destruct (bin_max_indices b [f64_make 0 0; f64_make 0 0] [0; 0]) as [[|[|?|[?|?|]] [|[|?|?] [|]]] []| | | |]; try discriminate H2. reflexivity.
Qed.
