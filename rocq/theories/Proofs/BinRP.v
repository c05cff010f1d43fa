(** Bins over the exact reals, and over rounded reals. *)
From Coq Require Import ZArith List Bool Lia Lra ZifyBool Reals.
From Flocq Require Import Core.Raux.
From Verif Require Import Model.Outcome Model.Num Model.NumInst Model.PNDArray Model.Bin.
From Verif Require Import Spec.Tensor Spec.NDHistory Spec.Grid Proofs.OutcomeP Proofs.PNDArrayP Proofs.BinP.
Import ListNotations.
Local Open Scope Z_scope.

(** ** One dimension *)

Lemma floor_cell : forall a h x k, (0 < h)%R ->
  (Zfloor ((x - a) / h) = k <-> (a + h * IZR k <= x < a + h * IZR (k + 1))%R).
Proof.
  intros a h x k Hh. split.
  - intros <-. pose proof (Zfloor_lb ((x - a) / h)) as H1. pose proof (Zfloor_ub ((x - a) / h)) as H2.
    rewrite plus_IZR. set (f := IZR (Zfloor ((x - a) / h))) in *.
    assert (Hx : (x = a + h * ((x - a) / h))%R) by (field; lra).
    set (q := ((x - a) / h)%R) in *. split; nra.
  - intros [H1 H2]. apply Zfloor_imp.
    assert (Hx : (x = a + h * ((x - a) / h))%R) by (field; lra).
    set (q := ((x - a) / h)%R) in *. rewrite plus_IZR in *. split; nra.
Qed.

Lemma Rlt_bool_false_iff : forall x y, Rlt_bool x y = false <-> (y <= x)%R.
Proof.
  intros x y. destruct (Rlt_bool_spec x y); split; intros; auto; try lra; discriminate.
Qed.
Lemma Rlt_bool_true_iff : forall x y, Rlt_bool x y = true <-> (x < y)%R.
Proof.
  intros x y. destruct (Rlt_bool_spec x y); split; intros; auto; try lra; discriminate.
Qed.

(** ** Grids *)

Definition grid_max (mn inc : list R) (N : list Z) (mx : list R) : Prop :=
  Forall4 (fun a h n z => z = (a + h * IZR n)%R) mn inc N mx.

Lemma shape_entries_le : forall N, proper_shape N -> Forall (fun n => 0 < n <= INT_MAX) N.
Proof.
  intros N (_ & Hpos & Hmax). unfold int_max in Hmax. revert Hmax.
  induction Hpos as [|d P Hd HP IH]; intros Hm; constructor; rewrite zprod_cons in Hm;
    pose proof (zprod_pos P HP); unfold INT_MAX in *; [nia|apply IH; nia].
Qed.

Lemma inside_accepted : forall mn inc N mx c, grid_max mn inc N mx -> inside mn inc N c ->
  @accepted ROps mn mx c.
Proof.
  intros mn inc N mx c Hg; revert c. induction Hg as [|a h n z mn inc N mx Hz Hg IH]; intros c Hin.
  - inversion Hin; constructor.
  - inversion Hin as [|? ? ? x ? ? ? c' Hx Hin']; subst. constructor; [|apply IH; auto].
    simpl. rewrite !Rlt_bool_false_iff. lra.
Qed.

Lemma outside_rejected : forall mn inc N mx c, grid_max mn inc N mx -> outside mn inc N c ->
  @rejected ROps mn mx c.
Proof.
  intros mn inc N mx c Hg [_ Hout]; revert c Hout.
  induction Hg as [|a h n z mn inc N mx Hz Hg IH]; intros c Hout.
  - inversion Hout.
  - simpl in Hout. inversion Hout as [? ? x ? ? c' Hx H1 H2|? ? x ? ? c' Hout']; subst.
    + constructor; auto.
      * simpl in *. rewrite !Rlt_bool_true_iff. exact Hx.
      * assert (Hl : length mx = length mn) by (clear -Hg; induction Hg; simpl; auto). congruence.
    + apply Exists3_later. apply IH. auto.
Qed.

Lemma grid_int_safe : forall mn inc N mx, grid_max mn inc N mx ->
  Forall (fun h => (0 < h)%R) inc -> Forall (fun n => 0 < n <= INT_MAX) N -> @int_safe ROps mn mx inc.
Proof.
  intros mn inc N mx Hg. induction Hg as [|a h n z mn inc N mx Hz Hg IH]; intros Hh HN.
  - constructor.
  - inversion Hh; inversion HN; subst. constructor; [|apply IH; auto].
    intros x H7 H8. simpl in *. rewrite Rlt_bool_false_iff in *.
    exists (Zfloor ((x - a) / h)). split; auto.
    assert (Hq : (0 <= (x - a) / h <= IZR n)%R).
    { assert (Hx : (x = a + h * ((x - a) / h))%R) by (field; lra).
      set (q := ((x - a) / h)%R) in *. split; nra. }
    assert (0 <= Zfloor ((x - a) / h)) by (apply Zfloor_lub; simpl; lra).
    assert (Zfloor ((x - a) / h) <= n).
    { rewrite <- (Zfloor_IZR n). apply Zfloor_le. lra. }
    unfold in_int, INT_MIN, INT_MAX in *. lia.
Qed.

Lemma in_cell_has_index : forall mn inc c t, Forall (fun h => (0 < h)%R) inc ->
  in_cell mn inc t c -> Forall (fun z => in_int z = true) t -> @has_index ROps mn inc c t.
Proof.
  intros mn inc c t Hh Hc. induction Hc as [|a h k x mn inc t c Hk Hc IH]; intros Hi.
  - constructor.
  - inversion Hh; inversion Hi; subst. constructor; [|apply IH; auto].
    split; auto. simpl. f_equal. apply floor_cell; auto.
Qed.

Lemma has_index_in_cell : forall mn inc c t, Forall (fun h => (0 < h)%R) inc ->
  @has_index ROps mn inc c t -> in_cell mn inc t c.
Proof.
  intros mn inc c t Hh Hc. induction Hc as [|a h x k mn inc c t [Hk _] Hc IH].
  - constructor.
  - inversion Hh; subst. constructor; [|apply IH; auto].
    simpl in Hk. injection Hk as Hk. apply floor_cell in Hk; auto.
Qed.

Lemma inside_index : forall mn inc N c, Forall (fun h => (0 < h)%R) inc ->
  Forall (fun n => 0 < n <= INT_MAX) N -> inside mn inc N c ->
  exists t, @has_index ROps mn inc c t /\ in_cell mn inc t c /\ valid_index N t.
Proof.
  intros mn inc N c Hh HN Hin. induction Hin as [|a h n x mn inc N c Hx Hin IH].
  - exists []. repeat constructor.
  - inversion Hh; inversion HN; subst. destruct IH as (t & H1' & H2' & H3'); auto.
    exists (Zfloor ((x - a) / h) :: t).
    assert (Hq : (0 <= (x - a) / h < IZR n)%R).
    { assert (Hx' : (x = a + h * ((x - a) / h))%R) by (field; lra).
      set (q := ((x - a) / h)%R) in *. split; nra. }
    assert (Hf0 : 0 <= Zfloor ((x - a) / h)) by (apply Zfloor_lub; simpl; lra).
    assert (Hf1 : Zfloor ((x - a) / h) < n).
    { apply lt_IZR. pose proof (Zfloor_lb ((x - a) / h)). lra. }
    split; [|split].
    + constructor; auto. split; [reflexivity|]. unfold in_int, INT_MIN, INT_MAX in *. lia.
    + constructor; auto. apply floor_cell; auto.
    + constructor; auto.
Qed.

Lemma below_indices : forall mn inc c c' t t', Forall (fun h => (0 < h)%R) inc -> below c c' ->
  @has_index ROps mn inc c t -> @has_index ROps mn inc c' t' -> Forall2 Z.le t t'.
Proof.
  intros mn inc c c' t t' Hh Hb H; revert c' t' Hb.
  induction H as [|a h x k mn inc c t [Hk _] H IH]; intros c' t' Hb H'.
  - inversion H'; subst. constructor.
  - inversion H' as [|? ? x' k' ? ? c2 t2 [Hk' _] H2]; subst. inversion Hb; subst. inversion Hh; subst.
    constructor; [|eapply IH; eauto].
    simpl in Hk, Hk'. injection Hk as <-. injection Hk' as <-.
    apply Zfloor_le. apply Rmult_le_compat_r; [|lra]. apply Rlt_le, Rinv_0_lt_compat; auto.
Qed.

(** ** Reachable bins *)

Section Reals.
Context {T : Type} (teqb : T -> T -> bool) (mn inc : list R) (N : list Z).
Hypothesis Hgrid : proper_grid mn inc N.

Lemma grid_facts : exists mx, bin_max_loop (O := ROps) mn inc N = Ok mx /\ grid_max mn inc N mx /\
  @int_safe ROps mn mx inc /\ Forall (fun h => (0 < h)%R) inc /\ Forall (fun n => 0 < n <= INT_MAX) N.
Proof.
  destruct Hgrid as (HN & H1 & H2 & Hh).
  destruct (@max_loop_ok ROps mn inc N H1 H2) as (mx & Hmx & HF).
  exists mx. split; auto. split; [exact HF|].
  pose proof (shape_entries_le N HN). split; auto. eapply grid_int_safe; eauto.
Qed.

Lemma inside_length : forall c, inside mn inc N c -> length c = length N.
Proof. intros c H; clear Hgrid; induction H; simpl; auto. Qed.

Lemma throw_inv : forall mx (b : bin ROps T) (o : bin_op ROps T), @bin_inv ROps T mn inc mx N b -> grid_max mn inc N mx ->
  @int_safe ROps mn mx inc ->
  match o with
  | BAdd _ c => outside mn inc N c
  | BAddOnce _ c => outside mn inc N c
  | BAddRange _ lo hi => (outside mn inc N lo \/ (inside mn inc N lo /\ outside mn inc N hi))
  | BContents c => outside mn inc N c
  end ->
  exists b', bin_step teqb o b = RThrow b' DomainError /\ @bin_inv ROps T mn inc mx N b' /\ bin_item b' = bin_item b.
Proof.
  intros mx b o Hinv Hg Hs.
  assert (Hfind : forall c, outside mn inc N c ->
    exists b', bin_find c b = RThrow b' DomainError /\ @bin_inv ROps T mn inc mx N b' /\ bin_item b' = bin_item b).
  { intros c Hc. destruct (find_reject _ _ _ _ _ c Hinv (outside_rejected _ _ _ _ _ Hg Hc) Hs) as (t & Ht & Hl).
    { apply Hc. }
    exists (bin_set_indices b t). split; auto. split; auto. apply set_indices_inv; auto. }
  destruct o as [x c|x c|x lo hi|c]; simpl; intros Hout.
  - destruct (Hfind c Hout) as (b' & Hb & H1 & H2). exists b'. unfold bin_add, mbind. rewrite Hb. auto.
  - destruct (Hfind c Hout) as (b' & Hb & H1 & H2). exists b'. unfold bin_add_once, mbind. rewrite Hb. auto.
  - exists b. split; auto. unfold bin_add_range, mbind.
    destruct Hout as [Hout|[Hin Hout]].
    + rewrite (local_indices_reject _ _ _ _ _ _ Hinv (outside_rejected _ _ _ _ _ Hg Hout) Hs (proj1 Hout)). auto.
    + destruct grid_facts as (mx' & _ & _ & _ & Hh & HN).
      destruct (inside_index _ _ _ _ Hh HN Hin) as (t & Hi & _ & Hv).
      rewrite (local_indices_ok _ _ _ _ _ _ _ Hinv (inside_accepted _ _ _ _ _ Hg Hin) Hi (valid_index_length _ _ Hv)).
      rewrite (local_indices_reject _ _ _ _ _ _ Hinv (outside_rejected _ _ _ _ _ Hg Hout) Hs (proj1 Hout)). auto.
  - destruct (Hfind c Hout) as (b' & Hb & H1 & H2). exists b'. unfold bin_contents, mbind. rewrite Hb. auto.
Qed.

(** Inside or outside, a call either succeeds or throws domain_error; the invariant is kept. *)
Lemma step_safe : forall mx (b : bin ROps T) o, @bin_inv ROps T mn inc mx N b -> grid_max mn inc N mx ->
  @int_safe ROps mn mx inc -> bin_op_pre mn inc N o ->
  exists b', (bin_step teqb o b = RRet b' tt \/ bin_step teqb o b = RThrow b' DomainError) /\ @bin_inv ROps T mn inc mx N b'.
Proof.
  intros mx b o Hinv Hg Hs Hpre.
  destruct grid_facts as (mx' & _ & _ & _ & Hh & HN).
  assert (Hin : forall c, inside mn inc N c -> @accepted ROps mn mx c /\ exists t, @has_index ROps mn inc c t /\ valid_index N t).
  { intros c Hc. split; [eapply inside_accepted; eauto|].
    destruct (inside_index _ _ _ _ Hh HN Hc) as (t & Hi & _ & Hv). eauto. }
  destruct o as [x c|x c|x lo hi|c]; simpl in Hpre.
  - destruct Hpre as [Hi|Ho].
    + destruct (Hin c Hi) as (Ha & t & Ht & Hv).
      destruct (add_ok _ _ _ _ _ x _ _ Hinv Ha Ht Hv) as (b' & Hb & Hinv' & _). eauto.
    + destruct (throw_inv _ _ (BAdd x c) Hinv Hg Hs Ho) as (b' & Hb & Hinv' & _). eauto.
  - destruct Hpre as [Hi|Ho].
    + destruct (Hin c Hi) as (Ha & t & Ht & Hv).
      destruct (add_once_ok teqb _ _ _ _ _ x _ _ Hinv Ha Ht Hv) as (l & b' & _ & Hb & Hinv' & _). eauto.
    + destruct (throw_inv _ _ (BAddOnce x c) Hinv Hg Hs Ho) as (b' & Hb & Hinv' & _). eauto.
  - destruct Hpre as ([Hi|Ho] & Hhi & Hbel).
    + destruct Hhi as [Hi2|Ho2].
      * destruct (Hin lo Hi) as (Ha & t & Ht & Hv). destruct (Hin hi Hi2) as (Ha2 & t2 & Ht2 & Hv2).
        destruct (add_range_ok _ _ _ _ _ x _ _ _ _ Hinv Ha Ht Hv Ha2 Ht2 Hv2) as (b' & Hb & Hinv' & _); eauto.
        eapply below_indices; eauto.
      * destruct (throw_inv _ _ (BAddRange x lo hi) Hinv Hg Hs (or_intror (conj Hi Ho2))) as (b' & Hb & Hinv' & _). eauto.
    + destruct (throw_inv _ _ (BAddRange x lo hi) Hinv Hg Hs (or_introl Ho)) as (b' & Hb & Hinv' & _). eauto.
  - destruct Hpre as [Hi|Ho].
    + destruct (Hin c Hi) as (Ha & t & Ht & Hv).
      destruct (contents_ok _ _ _ _ _ _ _ Hinv Ha Ht Hv) as (l & _ & Hb).
      exists (bin_set_indices b t). split.
      * left. simpl. unfold mbind. rewrite Hb. reflexivity.
      * apply set_indices_inv; auto. apply valid_index_length; auto.
    + destruct (throw_inv _ _ (BContents c) Hinv Hg Hs Ho) as (b' & Hb & Hinv' & _). eauto.
Qed.

Lemma reachable_inv : forall b, bin_reachable teqb mn inc N b ->
  exists mx, @bin_inv ROps T mn inc mx N b /\ grid_max mn inc N mx /\ @int_safe ROps mn mx inc.
Proof.
  intros b Hr. induction Hr as [b Hm|b o b' Hr IH Hpre Hstep].
  - destruct grid_facts as (mx & Hmx & Hg & Hs & _ & _). exists mx. split; auto.
    destruct Hgrid as (HN & H1 & H2 & _).
    destruct (@bin_make_inv ROps T mn inc mx N HN H1 H2 Hmx) as (b' & Hb & Hinv & _). congruence.
  - destruct IH as (mx & Hinv & Hg & Hs). exists mx. split; auto.
    destruct (step_safe mx b o Hinv Hg Hs Hpre) as (b2 & [H|H] & Hinv2); destruct Hstep as [H'|[e H']]; congruence.
Qed.

Lemma in_cell_fun : forall t t' c, in_cell mn inc t c -> in_cell mn inc t' c -> t = t'.
Proof.
  destruct Hgrid as (_ & _ & _ & Hh). intros t t' c H; revert t'; clear Hgrid.
  induction H as [|a h k x m i t c Hk H IH]; intros t' H'.
  - inversion H'; auto.
  - inversion Hh as [|? ? Hh0 Hh1]; subst. inversion H' as [|? ? k' ? ? ? t2 ? Hk' Ht2]; subst.
    f_equal; [|apply IH; auto].
    apply (floor_cell a h x k) in Hk; auto. apply (floor_cell a h x k') in Hk'; auto. congruence.
Qed.

(** The bin of an inside coordinate, by its cell number. *)
Lemma inside_view : forall mx b c, @bin_inv ROps T mn inc mx N b -> grid_max mn inc N mx -> inside mn inc N c ->
  exists t, in_cell mn inc t c /\ valid_index N t /\ @accepted ROps mn mx c /\ @has_index ROps mn inc c t /\
            view b c = nd_at (bin_item b) t.
Proof.
  intros mx b c Hinv Hg Hc. destruct grid_facts as (mx' & _ & _ & _ & Hh & HN).
  destruct (inside_index _ _ _ _ Hh HN Hc) as (t & Hi & Hcell & Hv).
  exists t. pose proof (inside_accepted _ _ _ _ _ Hg Hc) as Ha. repeat split; auto.
  eapply view_ok; eauto.
Qed.

(** *** C06 *)
Lemma bin_add_spec : forall b x c, bin_reachable teqb mn inc N b -> inside mn inc N c ->
  exists b', bin_add x c b = RRet b' tt /\ bin_reachable teqb mn inc N b' /\
    forall c', inside mn inc N c' -> exists l, view b c' = Ok l /\
      (same_cell mn inc c c' -> view b' c' = Ok (l ++ [x])) /\
      (~ same_cell mn inc c c' -> view b' c' = Ok l).
Proof.
  intros b x c Hr Hc. destruct (reachable_inv b Hr) as (mx & Hinv & Hg & Hs).
  destruct (inside_view mx b c Hinv Hg Hc) as (t & Hcell & Hv & Ha & Hi & _).
  destruct (add_ok _ _ _ _ _ x _ _ Hinv Ha Hi Hv) as (b' & Hb & Hinv' & Happ).
  exists b'. split; auto. split.
  { apply (BinStep teqb mn inc N b (BAdd x c)); simpl; [auto|left; auto|auto]. }
  intros c' Hc'. destruct (inside_view mx b c' Hinv Hg Hc') as (t' & Hcell' & Hv' & Ha' & Hi' & Hview).
  destruct (Happ t' Hv') as (l & H1 & H2 & H3). exists l. split; [congruence|].
  rewrite (view_ok _ _ _ _ _ _ _ Hinv' Ha' Hi' Hv').
  split.
  - intros (t0 & Ht0 & Ht0'). apply H2.
    rewrite (in_cell_fun _ _ _ Hcell' Ht0'). apply (in_cell_fun _ _ _ Ht0 Hcell).
  - intros Hne. apply H3. intros ->. apply Hne. exists t; auto.
Qed.

(** Looking does not change what is seen. *)
Lemma bin_contents_spec : forall b c, bin_reachable teqb mn inc N b -> inside mn inc N c ->
  exists b' l, bin_contents c b = RRet b' l /\ bin_reachable teqb mn inc N b' /\
    forall c', inside mn inc N c' -> view b' c' = view b c'.
Proof.
  intros b c Hr Hc. destruct (reachable_inv b Hr) as (mx & Hinv & Hg & Hs).
  destruct (inside_view mx b c Hinv Hg Hc) as (t & Hcell & Hv & Ha & Hi & _).
  destruct (contents_ok _ _ _ _ _ _ _ Hinv Ha Hi Hv) as (l & _ & Hb).
  exists (bin_set_indices b t), l. split; auto. split.
  { apply (BinStep teqb mn inc N b (BContents c)); simpl; [auto|left; auto|]. left. unfold mbind. rewrite Hb. reflexivity. }
  intros c' Hc'. destruct (inside_view mx b c' Hinv Hg Hc') as (t' & Hcell' & Hv' & Ha' & Hi' & Hview).
  rewrite Hview. rewrite (view_ok _ _ _ _ _ _ _ (set_indices_inv _ _ _ _ _ t Hinv (valid_index_length _ _ Hv)) Ha' Hi' Hv').
  reflexivity.
Qed.

(** A fresh grid is empty everywhere. *)
Lemma bin_make_spec : exists b, @bin_make ROps T mn inc N = Ok b /\ bin_reachable teqb mn inc N b /\
  forall c, inside mn inc N c -> view b c = Ok [].
Proof.
  destruct grid_facts as (mx & Hmx & Hg & Hs & _ & _). destruct Hgrid as (HN & H1 & H2 & _).
  destruct (@bin_make_inv ROps T mn inc mx N HN H1 H2 Hmx) as (b & Hb & Hinv & Hem).
  exists b. split; auto. split; [constructor; auto|].
  intros c Hc. destruct (inside_view mx b c Hinv Hg Hc) as (t & _ & Hv & _ & _ & Hview).
  rewrite Hview. auto.
Qed.

(** *** C07 *)

Lemma bin_add_range_spec : forall b x clo chi, bin_reachable teqb mn inc N b ->
  inside mn inc N clo -> inside mn inc N chi -> below clo chi ->
  exists b', bin_add_range x clo chi b = RRet b' tt /\ bin_reachable teqb mn inc N b' /\
    forall c t tlo thi, inside mn inc N c ->
      in_cell mn inc t c -> in_cell mn inc tlo clo -> in_cell mn inc thi chi ->
      exists l, view b c = Ok l /\
      (Forall3 (fun kl kh k => kl <= k <= kh) tlo thi t -> view b' c = Ok (l ++ [x])) /\
      (~ Forall3 (fun kl kh k => kl <= k <= kh) tlo thi t -> view b' c = Ok l).
Proof.
  intros b x clo chi Hr Hlo Hhi Hbel. destruct (reachable_inv b Hr) as (mx & Hinv & Hg & Hs).
  destruct grid_facts as (mx' & _ & _ & _ & Hh & HN).
  destruct (inside_view mx b clo Hinv Hg Hlo) as (t1 & Hc1 & Hv1 & Ha1 & Hi1 & _).
  destruct (inside_view mx b chi Hinv Hg Hhi) as (t2 & Hc2 & Hv2 & Ha2 & Hi2 & _).
  destruct (add_range_ok _ _ _ _ _ x _ _ _ _ Hinv Ha1 Hi1 Hv1 Ha2 Hi2 Hv2) as (b' & Hb & Hinv' & Happ).
  { eapply below_indices; eauto. }
  exists b'. split; auto. split.
  { apply (BinStep teqb mn inc N b (BAddRange x clo chi)); simpl; [auto| |auto].
    split; [left; auto|]. split; [left; auto|auto]. }
  intros c t tlo thi Hc Ht Htlo Hthi.
  rewrite (in_cell_fun _ _ _ Htlo Hc1), (in_cell_fun _ _ _ Hthi Hc2).
  destruct (inside_view mx b c Hinv Hg Hc) as (t' & Hcell' & Hv' & Ha' & Hi' & Hview).
  rewrite (in_cell_fun _ _ _ Ht Hcell').
  destruct (Happ t' Hv') as (l & H1 & H2 & H3). exists l. split; [congruence|].
  rewrite (view_ok _ _ _ _ _ _ _ Hinv' Ha' Hi' Hv'). auto.
Qed.

(** *** C08 *)

Lemma bin_add_once_spec : forall b x c, decides_eq teqb -> bin_reachable teqb mn inc N b -> inside mn inc N c ->
  exists b' l, view b c = Ok l /\ bin_add_once teqb x c b = RRet b' tt /\ bin_reachable teqb mn inc N b' /\
    (forall c', inside mn inc N c' ->
       (same_cell mn inc c c' /\ ~ In x l -> view b' c' = Ok (l ++ [x])) /\
       (~ same_cell mn inc c c' \/ In x l -> view b' c' = view b c')).
Proof.
  intros b x c Heq Hr Hc. destruct (reachable_inv b Hr) as (mx & Hinv & Hg & Hs).
  destruct (inside_view mx b c Hinv Hg Hc) as (t & Hcell & Hv & Ha & Hi & Hvw).
  destruct (add_once_ok teqb _ _ _ _ _ x _ _ Hinv Ha Hi Hv) as (l & b' & Hl & Hb & Hinv' & H1 & H2).
  exists b', l. split; [congruence|]. split; auto. split.
  { apply (BinStep teqb mn inc N b (BAddOnce x c)); simpl; [auto|left; auto|auto]. }
  assert (Hex : existsb (fun y => teqb y x) l = true <-> In x l).
  { rewrite existsb_exists. split.
    - intros (y & Hy & He). apply Heq in He. subst; auto.
    - intros Hin. exists x. split; auto. apply Heq; auto. }
  intros c' Hc'. destruct (inside_view mx b c' Hinv Hg Hc') as (t' & Hcell' & Hv' & Ha' & Hi' & Hview).
  rewrite (view_ok _ _ _ _ _ _ _ Hinv' Ha' Hi' Hv'). rewrite Hview.
  destruct (existsb (fun y => teqb y x) l) eqn:E.
  - destruct (H1 eq_refl t' Hv') as (l' & K1 & K2 & K3). split.
    + intros [_ Hn]. exfalso. apply Hn. apply Hex; auto.
    + intros _. rewrite K3 by tauto. auto.
  - destruct (H2 eq_refl t' Hv') as (l' & K1 & K2 & K3). split.
    + intros [(t0 & Ht0 & Ht0') Hn].
      assert (Ht : t' = t) by (rewrite (in_cell_fun _ _ _ Hcell' Ht0'); apply (in_cell_fun _ _ _ Ht0 Hcell)).
      rewrite K2 by auto. subst t'. congruence.
    + intros [Hns|Hin].
      * rewrite K3; auto. intros ->. apply Hns. exists t; auto.
      * apply Hex in Hin. discriminate.
Qed.

Lemma once_is_reachable : forall b, once_reachable teqb mn inc N b -> bin_reachable teqb mn inc N b.
Proof.
  intros b H. induction H as [b Hm|b x c b' H IH Hc Hs|b c b' l H IH Hc Hs].
  - constructor; auto.
  - apply (BinStep teqb mn inc N b (BAddOnce x c)); simpl; auto.
  - apply (BinStep teqb mn inc N b (BContents c)); simpl; auto; [left; auto|].
    left. unfold mbind. rewrite Hs. reflexivity.
Qed.

Lemma outside_views : forall b b' mx, @bin_inv ROps T mn inc mx N b -> @bin_inv ROps T mn inc mx N b' ->
  grid_max mn inc N mx -> bin_item b' = bin_item b ->
  forall c, inside mn inc N c -> view b' c = view b c.
Proof.
  intros b b' mx Hinv Hinv' Hg He c Hc.
  destruct (inside_view mx b c Hinv Hg Hc) as (t & Hcell & Hv & Ha & Hi & Hvw).
  rewrite Hvw, (view_ok _ _ _ _ _ _ _ Hinv' Ha Hi Hv), He. auto.
Qed.

Lemma once_nodup : forall b, decides_eq teqb -> once_reachable teqb mn inc N b ->
  forall c, inside mn inc N c -> exists l, view b c = Ok l /\ NoDup l.
Proof.
  intros b Heq H. induction H as [b Hm|b x c0 b' H IH Hc0 Hs|b c0 b' l0 H IH Hc0 Hs]; intros c Hc.
  - destruct bin_make_spec as (b0 & Hb0 & _ & Hem). exists []. split; [|constructor].
    assert (b = b0) by congruence. subst. auto.
  - apply once_is_reachable in H. destruct Hc0 as [Hin|Hout].
    + destruct (bin_add_once_spec b x c0 Heq H Hin) as (b2 & l & Hl & Hb & _ & Hall).
      assert (b' = b2) by (destruct Hs as [Hs|[e Hs]]; congruence). subst b2.
      destruct (Hall c Hc) as [K1 K2]. destruct (IH c Hc) as (lc & Hlc & Hnd).
      destruct (reachable_inv b H) as (mx & Hinv & Hg & Hsafe).
      destruct (inside_view mx b c Hinv Hg Hc) as (t & Hcell & Hv & Ha & Hi & Hvw).
      destruct (inside_view mx b c0 Hinv Hg Hin) as (t0 & Hcell0 & Hv0 & Ha0 & Hi0 & Hvw0).
      destruct (list_eq_dec Z.eq_dec t t0) as [->|Hne].
      * assert (lc = l) by congruence. subst lc.
        destruct (existsb (fun y => teqb y x) l) eqn:E.
        -- exists l. split; auto. rewrite K2; auto. right.
           apply existsb_exists in E. destruct E as (y & Hy & He). apply Heq in He. subst; auto.
        -- assert (Hn : ~ In x l).
           { intros Hx. rewrite (proj2 (existsb_exists _ l)) in E; [discriminate|]. exists x. split; auto. apply Heq; auto. }
           exists (l ++ [x]). split.
           ++ apply K1. split; auto. exists t0; auto.
           ++ apply NoDup_app_disjoint; auto.
              ** constructor; [simpl; tauto|constructor].
              ** intros y Hy [<-|[]]. contradiction.
      * exists lc. split; auto. rewrite K2; auto. left. intros (t1 & Ht1 & Ht1').
        apply Hne. transitivity t1; [apply (in_cell_fun _ _ _ Hcell Ht1')|apply (in_cell_fun _ _ _ Ht1 Hcell0)].
    + destruct (reachable_inv b H) as (mx & Hinv & Hg & Hsafe).
      destruct (throw_inv mx b (BAddOnce x c0) Hinv Hg Hsafe Hout) as (b2 & Hb2 & Hinv2 & Hit). simpl in Hb2.
      assert (b' = b2) by (destruct Hs as [Hs|[e Hs]]; congruence). subst b2.
      destruct (IH c Hc) as (lc & Hlc & Hnd). exists lc. split; auto.
      rewrite (outside_views b b' mx); auto.
  - apply once_is_reachable in H. destruct (bin_contents_spec b c0 H Hc0) as (b2 & l2 & Hb2 & _ & Hv).
    assert (b' = b2) by congruence. subst b2. rewrite Hv by auto. auto.
Qed.

(** *** C09 *)

Lemma accepted_or_rejected : forall mx c, grid_max mn inc N mx -> length c = length N ->
  @accepted ROps mn mx c \/ @rejected ROps mn mx c.
Proof.
  clear Hgrid. intros mx c Hg. revert c. induction Hg as [|a h n z m i n' mx Hz Hg IH]; intros c Hl.
  - destruct c; [left; constructor|discriminate].
  - destruct c as [|x c]; simpl in Hl; [discriminate|]. injection Hl as Hl.
    assert (L1 : length m = length n') by (clear -Hg; induction Hg; simpl; auto).
    assert (L2 : length mx = length n') by (clear -Hg; induction Hg; simpl; auto).
    destruct (Rlt_bool x a) eqn:E1.
    { right. apply Exists3_here; simpl; auto; congruence. }
    destruct (Rlt_bool z x) eqn:E2.
    { right. apply Exists3_here; simpl; auto; congruence. }
    destruct (IH c Hl) as [H|H]; [left; constructor; auto|right; apply Exists3_later; auto].
Qed.

Lemma bin_outside_spec : forall b (o : bin_op ROps T), bin_reachable teqb mn inc N b ->
  match o with
  | BAdd _ c => outside mn inc N c
  | BAddOnce _ c => outside mn inc N c
  | BAddRange _ lo hi => length lo = length N /\ length hi = length N /\
                         (outside mn inc N lo \/ outside mn inc N hi)
  | BContents c => outside mn inc N c
  end ->
  exists b', bin_step teqb o b = RThrow b' DomainError /\
    forall c, inside mn inc N c -> view b' c = view b c.
Proof.
  intros b o Hr Ho. destruct (reachable_inv b Hr) as (mx & Hinv & Hg & Hs).
  assert (Hgoal : (exists b', bin_step teqb o b = RThrow b' DomainError /\ @bin_inv ROps T mn inc mx N b' /\ bin_item b' = bin_item b) ->
     exists b', bin_step teqb o b = RThrow b' DomainError /\ forall c, inside mn inc N c -> view b' c = view b c).
  { intros (b' & H1 & H2 & H3). exists b'. split; auto. eapply outside_views; eauto. }
  apply Hgoal. clear Hgoal. destruct o as [x c|x c|x lo hi|c].
  - apply (throw_inv mx b (BAdd x c)); auto.
  - apply (throw_inv mx b (BAddOnce x c)); auto.
  - destruct Ho as (L1 & L2 & Ho). exists b. split; auto. simpl. unfold bin_add_range, mbind.
    destruct (accepted_or_rejected mx lo Hg L1) as [Ha|Hj].
    + destruct Ho as [Ho|Ho].
      { rewrite (local_indices_reject _ _ _ _ _ _ Hinv (outside_rejected _ _ _ _ _ Hg Ho) Hs L1). auto. }
      destruct (int_safe_index _ _ _ _ Ha Hs) as (t & Ht).
      rewrite (local_indices_ok _ _ _ _ _ _ _ Hinv Ha Ht).
      2:{ destruct (has_index_length _ _ _ _ Ht) as (_ & _ & L). simpl in *. congruence. }
      rewrite (local_indices_reject _ _ _ _ _ _ Hinv (outside_rejected _ _ _ _ _ Hg Ho) Hs L2). auto.
    + rewrite (local_indices_reject _ _ _ _ _ _ Hinv Hj Hs L1). auto.
  - apply (throw_inv mx b (BContents c)); auto.
Qed.

(** *** C10 *)

Lemma not_outside_accepted : forall mx c, grid_max mn inc N mx -> length c = length N ->
  ~ outside mn inc N c -> @accepted ROps mn mx c.
Proof.
  intros mx c Hg Hl Hn. destruct (accepted_or_rejected mx c Hg Hl) as [H|H]; auto.
  exfalso; apply Hn. split; auto. clear Hgrid Hn Hl. revert c H.
  induction Hg as [|a h n z m i n' mx Hz Hg IH]; intros c H; [inversion H|].
  assert (L1 : length m = length mx) by (clear -Hg; induction Hg; simpl; auto).
  assert (L2 : length (combine i n') = length mx) by (clear -Hg; induction Hg; simpl; auto).
  simpl. inversion H as [? ? x ? ? c' Hx H1 H2|? ? x ? ? c' H']; subst.
  - simpl in *. apply Exists3_here; try congruence; try lia.
    simpl. rewrite !Rlt_bool_true_iff in Hx. auto.
  - apply Exists3_later. apply IH; auto.
Qed.

Lemma valid_iff_inside : forall mx c t, grid_max mn inc N mx -> @accepted ROps mn mx c -> @has_index ROps mn inc c t ->
  (valid_index N t <-> inside mn inc N c).
Proof.
  destruct grid_facts as (mx' & _ & _ & _ & Hh & _). clear Hgrid.
  intros mx c t Hg. revert c t. induction Hg as [|a h n z m i n' mx Hz Hg IH]; intros c t Ha Hi.
  - inversion Ha; subst. inversion Hi; subst. split; constructor.
  - inversion Ha as [|? ? x ? ? c' [A1 A2] Ha']; subst. inversion Hi as [|? ? ? k ? ? ? t' [Hk _] Hi']; subst.
    inversion Hh as [|? ? Hh0 Hh1]; subst. simpl in *. injection Hk as Hk. rewrite Rlt_bool_false_iff in *.
    specialize (IH Hh1 c' t' Ha' Hi'). apply floor_cell in Hk; auto. rewrite plus_IZR in Hk.
    split; intros H.
    + inversion H as [|? ? ? ? Hb Hr]; subst. constructor; [|apply IH; auto].
      assert (IZR k + 1 <= IZR n)%R by (rewrite <- plus_IZR; apply IZR_le; lia). split; [auto|nra].
    + inversion H as [|? ? ? ? ? ? ? ? Hb Hr]; subst. constructor; [|apply IH; auto].
      split.
      * apply Z.lt_succ_r. apply lt_IZR. unfold Z.succ. rewrite plus_IZR. nra.
      * apply lt_IZR. nra.
Qed.

Lemma bin_index_valid_iff : forall b c, bin_reachable teqb mn inc N b ->
  length c = length N -> ~ outside mn inc N c ->
  exists b', bin_find c b = RRet b' tt /\ (valid_index N (bin_indices b') <-> inside mn inc N c).
Proof.
  intros b c Hr Hl Hn. destruct (reachable_inv b Hr) as (mx & Hinv & Hg & Hs).
  pose proof (not_outside_accepted mx c Hg Hl Hn) as Ha.
  destruct (int_safe_index _ _ _ _ Ha Hs) as (t & Ht).
  assert (Lt : length t = length N).
  { destruct (has_index_length _ _ _ _ Ht) as (_ & _ & L). simpl in *. congruence. }
  exists (bin_set_indices b t). split; [apply (find_ok _ _ _ _ _ _ _ Hinv Ha Ht Lt)|].
  simpl. eapply valid_iff_inside; eauto.
Qed.

(** *** C12 *)

Lemma cell_point : forall t, valid_index N t -> exists c, inside mn inc N c /\ in_cell mn inc t c.
Proof.
  destruct Hgrid as (_ & L1 & L2 & Hh). clear Hgrid. intros t Ht.
  revert mn inc L1 L2 Hh. induction Ht as [|n k N' t Hk Ht IH]; intros [|a m] [|h i] L1 L2 Hh; simpl in *; try discriminate.
  - exists []. split; constructor.
  - inversion Hh as [|? ? Hh0 Hh1]; subst. destruct (IH m i) as (c & Hc1 & Hc2); auto.
    exists ((a + h * IZR k)%R :: c).
    assert (0 <= IZR k)%R by (apply IZR_le; lia).
    assert (IZR k < IZR n)%R by (apply IZR_lt; lia).
    split; constructor; auto.
    + split; nra.
    + rewrite plus_IZR. split; nra.
Qed.

Lemma bin_max_size_spec : forall b, bin_reachable teqb mn inc N b ->
  exists m, bin_max_size b = Ok m /\
    (forall c l, inside mn inc N c -> view b c = Ok l -> Z.of_nat (length l) <= m) /\
    (exists c l, inside mn inc N c /\ view b c = Ok l /\ Z.of_nat (length l) = m).
Proof.
  intros b Hr. destruct (reachable_inv b Hr) as (mx & Hinv & Hg & Hs).
  destruct (max_size_spec _ _ _ _ _ Hinv) as (m & Hm & Hall & t & l & Hv & Hl & Hlen).
  exists m. split; auto. split.
  - intros c l' Hc Hl'. destruct (inside_view mx b c Hinv Hg Hc) as (t' & _ & Hv' & _ & _ & Hview).
    apply (Hall t'); auto. congruence.
  - destruct (cell_point t Hv) as (c & Hc & Hcell).
    exists c, l. split; auto. split; auto.
    destruct (inside_view mx b c Hinv Hg Hc) as (t' & Hcell' & Hv' & _ & _ & Hview).
    rewrite Hview, (in_cell_fun _ _ _ Hcell' Hcell). auto.
Qed.

End Reals.
