(** Proofs about the PNDArray model. *)
From Coq Require Import ZArith List Bool Lia ZifyBool.
From Verif Require Import Model.Outcome Model.PNDArray Spec.Tensor Spec.NDHistory Proofs.OutcomeP.
Import ListNotations.
Local Open Scope Z_scope.

Global Arguments zprod : simpl never.

Lemma zprod_nil : zprod [] = 1.
Proof. reflexivity. Qed.

(** The stride table the code should build: product of the following extents. *)
Fixpoint strides (dims : list Z) : list Z :=
  match dims with
  | [] => []
  | _ :: r => zprod r :: strides r
  end.

Lemma fits_int_iff : forall z, fits_int z <-> INT_MIN <= z <= INT_MAX.
Proof. intros z; unfold fits_int, INT_MIN, INT_MAX; lia. Qed.

Lemma zprod_cons : forall d r, zprod (d :: r) = d * zprod r.
Proof. reflexivity. Qed.

Lemma zprod_nonneg : forall l, Forall (fun d => 0 <= d) l -> 0 <= zprod l.
Proof. induction 1 as [|d l Hd Hl IH]; [rewrite zprod_nil; lia | rewrite zprod_cons; nia]. Qed.

Lemma zprod_pos : forall l, Forall (fun d => 0 < d) l -> 0 < zprod l.
Proof. induction 1 as [|d l Hd Hl IH]; [rewrite zprod_nil; lia | rewrite zprod_cons; nia]. Qed.

Lemma zprod_firstn_le : forall l k, Forall (fun d => 0 < d) l -> zprod (firstn k l) <= zprod l.
Proof.
  intros l k H; revert k; induction H as [|d l Hd Hl IH]; intros [|k]; simpl firstn; try lia.
  - pose proof (zprod_pos (d :: l) (Forall_cons _ Hd Hl)). rewrite ?zprod_nil in *; cbn in *; lia.
  - rewrite !zprod_cons. specialize (IH k). nia.
Qed.

Lemma zprod_skipn_le : forall l k, Forall (fun d => 0 < d) l -> zprod (skipn k l) <= zprod l.
Proof.
  intros l k H; revert k; induction H as [|d l Hd Hl IH]; intros [|k]; simpl skipn; try lia.
  rewrite !zprod_cons. specialize (IH k). pose proof (zprod_pos l Hl). nia.
Qed.

Lemma Forall_firstn : forall (A : Type) (P : A -> Prop) l k, Forall P l -> Forall P (firstn k l).
Proof.
  intros A P l k H; revert k; induction H; intros [|k]; simpl; auto.
Qed.
Lemma Forall_skipn : forall (A : Type) (P : A -> Prop) l k, Forall P l -> Forall P (skipn k l).
Proof.
  intros A P l k H; revert k; induction H; intros [|k]; simpl; auto.
Qed.

Lemma proper_usable : forall dims, proper_shape dims -> usable_shape dims.
Proof.
  intros dims (Hne & Hpos & Hmax). unfold usable_shape, leading_fit, trailing_fit, fits_int, int_max in *.
  split; [auto|split; [|split]].
  - eapply Forall_impl; [|exact Hpos]. simpl; lia.
  - intros k. pose proof (zprod_firstn_le dims k Hpos).
    pose proof (zprod_pos _ (Forall_firstn _ _ _ k Hpos)). lia.
  - intros k _. pose proof (zprod_skipn_le dims k Hpos).
    pose proof (zprod_pos _ (Forall_skipn _ _ _ k Hpos)). lia.
Qed.

(** ** calc_volume *)

Definition volume_fold := ofold (fun vol d : Z => cint (vol * d)).

Lemma volume_fold_ok : forall dims acc,
  (forall k, fits_int (acc * zprod (firstn k dims))) ->
  volume_fold dims acc = Ok (acc * zprod dims).
Proof.
  induction dims as [|d dims IH]; intros acc H.
  - unfold zprod; simpl. rewrite Z.mul_1_r. reflexivity.
  - unfold volume_fold; simpl ofold. rewrite cint_ok.
    + simpl obind. fold volume_fold. rewrite IH.
      * rewrite zprod_cons. f_equal. lia.
      * intros k. specialize (H (S k)). simpl firstn in H. rewrite zprod_cons in H.
        replace (acc * d * zprod (firstn k dims)) with (acc * (d * zprod (firstn k dims))) by lia. auto.
    + specialize (H 1%nat). simpl in H. apply fits_int_iff. unfold zprod in H; simpl in H.
      replace (acc * d) with (acc * (d * 1)) by lia. auto.
Qed.

Lemma volume_fold_overflow : forall dims acc,
  fits_int acc ->
  ~ (forall k, fits_int (acc * zprod (firstn k dims))) ->
  volume_fold dims acc = UB UBOverflow.
Proof.
  induction dims as [|d dims IH]; intros acc Ha H; unfold volume_fold; simpl ofold.
  - exfalso; apply H. intros k. rewrite firstn_nil. unfold zprod; simpl.
    replace (acc * 1) with acc by lia. auto.
  - destruct (Z_le_dec INT_MIN (acc * d)) as [H1|H1]; [destruct (Z_le_dec (acc * d) INT_MAX) as [H2|H2]|].
    + rewrite cint_ok by lia. simpl obind. fold volume_fold. apply IH.
      * apply fits_int_iff; lia.
      * intros Hk. apply H. intros [|k]; simpl firstn.
        -- unfold zprod; simpl. replace (acc * 1) with acc by lia; auto.
        -- rewrite zprod_cons. replace (acc * (d * zprod (firstn k dims))) with (acc * d * zprod (firstn k dims)) by lia.
           apply Hk.
    + rewrite cint_out by lia. auto.
    + rewrite cint_out by lia. auto.
Qed.

Lemma calc_volume_ok : forall dims, dims <> [] -> leading_fit dims -> calc_volume dims = Ok (zprod dims).
Proof.
  intros dims Hne H. destruct dims as [|d dims]; [congruence|].
  unfold calc_volume. fold volume_fold. rewrite volume_fold_ok.
  - f_equal; lia.
  - intros k. specialize (H k). rewrite Z.mul_1_l. exact H.
Qed.

Lemma calc_volume_overflow : forall dims, ~ leading_fit dims -> calc_volume dims = UB UBOverflow.
Proof.
  intros dims H. destruct dims as [|d dims].
  - exfalso; apply H. intros k. rewrite firstn_nil. unfold fits_int, zprod; simpl; lia.
  - unfold calc_volume. fold volume_fold. apply volume_fold_overflow.
    + unfold fits_int; lia.
    + intros Hk. apply H. intros k. specialize (Hk k). rewrite Z.mul_1_l in Hk. auto.
Qed.

(** ** generate_unroll *)

Lemma unroll_rec_ok : forall dims, dims <> [] -> trailing_fit dims -> unroll_rec dims = Ok (strides dims).
Proof.
  induction dims as [|d dims IH]; intros Hne H; [congruence|].
  destruct dims as [|d1 dims].
  - reflexivity.
  - simpl. simpl in IH. rewrite IH.
    + simpl. rewrite cint_ok.
      * simpl. rewrite (Z.mul_comm (zprod dims) d1). reflexivity.
      * apply fits_int_iff. specialize (H 1%nat (le_n _)). simpl in H. rewrite zprod_cons in H.
        rewrite Z.mul_comm; auto.
    + discriminate.
    + intros k Hk. apply (H (S k)). lia.
Qed.

Lemma unroll_rec_inv : forall dims u, unroll_rec dims = Ok u -> u = strides dims /\ trailing_fit dims.
Proof.
  induction dims as [|d dims IH]; intros u H; [discriminate|].
  destruct dims as [|d1 dims].
  - simpl in H. injection H as <-. split; auto.
    intros k Hk. destruct k; [lia|]. simpl. rewrite skipn_nil. unfold fits_int, zprod; simpl; lia.
  - change (unroll_rec (d :: d1 :: dims)) with
      (obind (unroll_rec (d1 :: dims)) (fun u => match u with
        | u1 :: _ => let* x := cint (u1 * d1) in Ok (x :: u) | [] => UB UBOutOfBounds end)) in H.
    apply obind_ok in H. destruct H as (u' & Hu' & H).
    apply IH in Hu'. destruct Hu' as [-> Ht].
    simpl in H. apply obind_ok in H. destruct H as (x & Hx & H).
    apply cint_inv in Hx. destruct Hx as [-> Hx]. injection H as <-.
    split.
    + simpl. rewrite (Z.mul_comm (zprod dims) d1). reflexivity.
    + intros k Hk. destruct k as [|[|k]]; [lia| |].
      * simpl. rewrite zprod_cons, Z.mul_comm. apply fits_int_iff; auto.
      * apply (Ht (S k)). lia.
Qed.

(** Every outcome of the stride table construction: a table or UB. *)
Lemma unroll_rec_cases : forall dims, (exists u, unroll_rec dims = Ok u) \/ (exists r, unroll_rec dims = UB r).
Proof.
  induction dims as [|d dims IH]; [right; simpl; eauto|].
  destruct dims as [|d1 dims]; [left; simpl; eauto|].
  change (unroll_rec (d :: d1 :: dims)) with
    (obind (unroll_rec (d1 :: dims)) (fun u => match u with
      | u1 :: _ => let* x := cint (u1 * d1) in Ok (x :: u) | [] => UB UBOutOfBounds end)).
  destruct IH as [[u Hu]|[r Hr]].
  - rewrite Hu. simpl. destruct u as [|u1 u]; [eauto|].
    unfold cint. destruct (in_int (u1 * d1)); simpl; eauto.
  - rewrite Hr. simpl; eauto.
Qed.

(** ** The consistency invariant *)

Definition nd_wf {A : Type} (s : nd A) : Prop :=
  (nd_dim s = [] /\ nd_unroll s = [] /\ nd_val s = [] /\ nd_order s = 0 /\ nd_volume s = 0) \/
  (usable_shape (nd_dim s) /\ nd_unroll s = strides (nd_dim s) /\
   nd_order s = Z.of_nat (length (nd_dim s)) /\ nd_volume s = zprod (nd_dim s) /\
   Z.of_nat (length (nd_val s)) = nd_volume s).

Lemma nd_wf_empty : forall A, nd_wf (@nd_empty A).
Proof. intros A; left; simpl; auto. Qed.

Lemma nd_resize_ok : forall (A : Type) (d : A) dims s,
  usable_shape dims ->
  nd_resize d dims s =
    RRet (mkNd dims (strides dims) (vresize d (nd_val s) (Z.to_nat (zprod dims)))
               (Z.of_nat (length dims)) (zprod dims)) tt.
Proof.
  intros A d dims s (Hne & Hnn & Hl & Ht). unfold nd_resize, mbind, mget, mlift, mput, mmod, generate_unroll.
  rewrite calc_volume_ok by auto.
  pose proof (zprod_nonneg dims Hnn) as Hp.
  replace (zprod dims <? 0) with false by lia. unfold mbind, mget, mlift. simpl.
  rewrite unroll_rec_ok by auto. reflexivity.
Qed.

Lemma nd_resize_wf : forall (A : Type) (d : A) dims,
  usable_shape dims -> forall v,
  nd_wf (mkNd dims (strides dims) (vresize d v (Z.to_nat (zprod dims))) (Z.of_nat (length dims)) (zprod dims)).
Proof.
  intros A d dims Hu v. right; simpl. rewrite length_vresize.
  repeat split; try apply Hu; auto.
  pose proof (zprod_nonneg dims (proj1 (proj2 Hu))). lia.
Qed.

Lemma nd_make_ok : forall (A : Type) (d : A) dims,
  usable_shape dims ->
  nd_make d dims = Ok (mkNd dims (strides dims) (repeat d (Z.to_nat (zprod dims)))
                            (Z.of_nat (length dims)) (zprod dims)).
Proof.
  intros A d dims Hu. unfold nd_make. rewrite nd_resize_ok by auto. simpl.
  unfold vresize. rewrite firstn_nil. simpl. rewrite Nat.sub_0_r. reflexivity.
Qed.

Lemma nd_reshape_ok : forall (A : Type) dims (s : nd A),
  usable_shape dims -> zprod dims = nd_volume s ->
  nd_reshape dims s = RRet (mkNd dims (strides dims) (nd_val s) (Z.of_nat (length dims)) (nd_volume s)) tt.
Proof.
  intros A dims s (Hne & Hnn & Hl & Ht) Hv. unfold nd_reshape, mbind, mget, mlift, mput, generate_unroll.
  rewrite calc_volume_ok by auto. rewrite Hv, Z.eqb_refl. unfold mbind, mget, mlift. simpl.
  rewrite unroll_rec_ok by auto. reflexivity.
Qed.

Lemma nd_reshape_exit : forall (A : Type) dims (s : nd A),
  usable_shape dims -> zprod dims <> nd_volume s -> nd_reshape dims s = RExit.
Proof.
  intros A dims s (Hne & Hnn & Hl & Ht) Hv. unfold nd_reshape, mbind, mget, mlift.
  rewrite calc_volume_ok by auto. replace (zprod dims =? nd_volume s) with false by lia. reflexivity.
Qed.

Lemma nd_set_wf : forall (A : Type) (s s' : nd A) i a, nd_wf s -> nd_set s i a = Ok s' -> nd_wf s'.
Proof.
  intros A s s' i a Hwf H. unfold nd_set in H. apply obind_ok in H. destruct H as (v & Hv & H).
  injection H as <-. apply vset_inv in Hv. destruct Hv as [Hi ->].
  destruct Hwf as [(H1 & H2 & H3 & H4 & H5)|(H1 & H2 & H3 & H4 & H5)].
  - rewrite H3 in Hi. simpl in Hi. lia.
  - right. simpl. rewrite length_lset. auto.
Qed.

(** ** linear_index and tensor_indices on well-formed arrays *)

(** Position of a tuple, in "sum of index times stride" form. *)
Fixpoint dotp (dims t : list Z) : Z :=
  match dims, t with
  | _ :: dims', i :: t' => i * zprod dims' + dotp dims' t'
  | _, _ => 0
  end.

Lemma row_major_dotp_gen : forall dims t acc, length t = length dims ->
  fold_left (fun acc p => acc * fst p + snd p) (combine dims t) acc = acc * zprod dims + dotp dims t.
Proof.
  induction dims as [|d dims IH]; intros t acc Hl; destruct t as [|i t]; simpl in Hl; try discriminate; simpl.
  - unfold zprod; simpl; lia.
  - rewrite IH by lia. rewrite zprod_cons. lia.
Qed.

Lemma row_major_dotp : forall dims t, length t = length dims -> row_major dims t = dotp dims t.
Proof. intros dims t H; unfold row_major. rewrite row_major_dotp_gen by auto. lia. Qed.

Lemma valid_index_length : forall dims t, valid_index dims t -> length t = length dims.
Proof. intros dims t H; induction H; simpl; auto. Qed.

Lemma valid_index_pos : forall dims t, valid_index dims t -> Forall (fun d => 0 < d) dims.
Proof. intros dims t H; induction H as [|d i dims t Hi H IH]; constructor; auto; lia. Qed.

Lemma dotp_bounds : forall dims t, valid_index dims t -> 0 <= dotp dims t < zprod dims.
Proof.
  intros dims t H; induction H as [|d i dims t Hi H IH].
  - rewrite zprod_nil; cbn; lia.
  - simpl. rewrite zprod_cons. pose proof (zprod_pos _ (valid_index_pos _ _ H)). nia.
Qed.

Lemma linear_index_loop_ok : forall dims t acc,
  valid_index dims t -> 0 <= acc -> acc + dotp dims t <= INT_MAX ->
  linear_index_loop (strides dims) t acc = Ok (acc + dotp dims t).
Proof.
  intros dims t acc H; revert acc; induction H as [|d i dims t Hi H IH]; intros acc Ha Hb; simpl in *.
  - f_equal; lia.
  - pose proof (zprod_pos _ (valid_index_pos _ _ H)). pose proof (dotp_bounds _ _ H).
    rewrite cint_ok by (unfold INT_MIN; nia). simpl.
    rewrite cint_ok by (unfold INT_MIN; nia). simpl.
    rewrite IH by nia. f_equal; lia.
Qed.

Lemma dotp_surj : forall dims l, Forall (fun d => 0 < d) dims -> 0 <= l < zprod dims ->
  exists t, valid_index dims t /\ dotp dims t = l.
Proof.
  induction dims as [|d dims IH]; intros l Hpos Hl.
  - exists []. split; [constructor|]. rewrite ?zprod_nil in *; cbn in *; lia.
  - inversion Hpos as [|? ? Hd Hr]; subst. rewrite zprod_cons in Hl.
    pose proof (zprod_pos _ Hr) as Hp.
    destruct (IH (l mod zprod dims) Hr) as (t & Ht & Hdot).
    { apply Z.mod_pos_bound; auto. }
    exists (l / zprod dims :: t). split.
    + constructor; auto. split.
      * apply Z.div_pos; lia.
      * apply Z.div_lt_upper_bound; lia.
    + simpl. rewrite Hdot. pose proof (Z.div_mod l (zprod dims)). lia.
Qed.

Lemma tensor_indices_loop_ok : forall dims t term,
  valid_index dims t -> dotp dims t <= INT_MAX -> length term = length dims ->
  tensor_indices_loop (strides dims) (dotp dims t) term = Ok t.
Proof.
  intros dims t term H; revert term; induction H as [|d i dims t Hi H IH]; intros term Hb Hlen; simpl in *.
  - destruct term; simpl in Hlen; try discriminate; auto.
  - destruct term as [|x term]; simpl in Hlen; try discriminate.
    pose proof (zprod_pos _ (valid_index_pos _ _ H)) as Hp. pose proof (dotp_bounds _ _ H) as Hd.
    assert (Hq : Z.quot (i * zprod dims + dotp dims t) (zprod dims) = i).
    { rewrite Z.quot_div_nonneg by nia. symmetry. apply Z.div_unique with (r := dotp dims t); lia. }
    unfold cdiv. replace (zprod dims =? 0) with false by lia. rewrite Hq.
    rewrite cint_ok by (unfold INT_MIN; nia). simpl.
    rewrite cint_ok by (unfold INT_MIN; nia). simpl.
    rewrite cint_ok by (unfold INT_MIN; nia). simpl.
    replace (i * zprod dims + dotp dims t - i * zprod dims) with (dotp dims t) by lia.
    rewrite IH by (auto; nia). reflexivity.
Qed.

Lemma dotp_inj : forall dims t1 t2, valid_index dims t1 -> valid_index dims t2 ->
  dotp dims t1 = dotp dims t2 -> t1 = t2.
Proof.
  intros dims t1 t2 H1; revert t2; induction H1 as [|d i dims t Hi H IH]; intros t2 H2 Heq.
  - inversion H2; auto.
  - inversion H2 as [|d' j dims' t' Hj H']; subst. simpl in Heq.
    pose proof (dotp_bounds _ _ H). pose proof (dotp_bounds _ _ H').
    assert (i = j) by nia. subst j. f_equal. apply IH; auto. nia.
Qed.

Lemma dotp_lex : forall dims t1 t2, valid_index dims t1 -> valid_index dims t2 ->
  lex_lt t1 t2 -> dotp dims t1 < dotp dims t2.
Proof.
  intros dims t1 t2 H1; revert t2; induction H1 as [|d i dims t Hi H IH]; intros t2 H2 Hlex.
  - simpl in Hlex; contradiction.
  - inversion H2 as [|d' j dims' t' Hj H']; subst. simpl in Hlex. simpl.
    pose proof (dotp_bounds _ _ H). pose proof (dotp_bounds _ _ H').
    destruct Hlex as [Hlt|[-> Hlex]].
    + nia.
    + specialize (IH _ H' Hlex). nia.
Qed.

(** Non-emptiness facts for usable shapes having a valid tuple. *)
Lemma usable_zprod_le : forall dims, usable_shape dims -> zprod dims <= INT_MAX.
Proof.
  intros dims (_ & _ & Hl & _). specialize (Hl (length dims)). rewrite firstn_all in Hl.
  apply (proj1 (fits_int_iff _)) in Hl. lia.
Qed.

Lemma linear_index_wf : forall (A : Type) (s : nd A) t,
  nd_wf s -> nd_dim s <> [] -> valid_index (nd_dim s) t ->
  linear_index s t = Ok (row_major (nd_dim s) t) /\ 0 <= row_major (nd_dim s) t < nd_volume s.
Proof.
  intros A s t Hwf Hne Hv.
  destruct Hwf as [(H1 & _)|(Hu & Hs & Ho & Hvol & Hlen)]; [congruence|].
  pose proof (usable_zprod_le _ Hu) as Hle.
  pose proof (dotp_bounds _ _ Hv) as Hb.
  rewrite row_major_dotp by (apply valid_index_length; auto).
  unfold linear_index. rewrite Hs, linear_index_loop_ok by (auto; lia).
  split; [f_equal; lia|lia].
Qed.

Lemma tensor_indices_wf : forall (A : Type) (s : nd A) t term,
  nd_wf s -> nd_dim s <> [] -> valid_index (nd_dim s) t -> length term = length (nd_dim s) ->
  tensor_indices s (row_major (nd_dim s) t) term = Ok t.
Proof.
  intros A s t term Hwf Hne Hv Hlen'.
  destruct Hwf as [(H1 & _)|(Hu & Hs & Ho & Hvol & Hlen)]; [congruence|].
  pose proof (usable_zprod_le _ Hu) as Hle. pose proof (dotp_bounds _ _ Hv) as Hb.
  rewrite row_major_dotp by (apply valid_index_length; auto).
  unfold tensor_indices. rewrite Hs. apply tensor_indices_loop_ok; auto. lia.
Qed.

Lemma nd_wf_pos : forall (A : Type) (s : nd A),
  nd_wf s -> nd_dim s <> [] -> 0 < nd_volume s -> Forall (fun d => 0 < d) (nd_dim s).
Proof.
  intros A s Hwf Hne Hpos.
  destruct Hwf as [(H1 & _)|(Hu & Hs & Ho & Hvol & Hlen)]; [congruence|].
  rewrite Hvol in Hpos. destruct Hu as (_ & Hnn & _). clear -Hnn Hpos.
  induction Hnn as [|d l Hd Hl IH]; constructor; rewrite zprod_cons in Hpos; pose proof (zprod_nonneg l Hl).
  - nia.
  - apply IH. nia.
Qed.

Lemma row_major_surj : forall (A : Type) (s : nd A) l,
  nd_wf s -> 0 <= l < nd_volume s ->
  nd_dim s <> [] /\ exists t, valid_index (nd_dim s) t /\ row_major (nd_dim s) t = l.
Proof.
  intros A s l Hwf Hl.
  assert (Hne : nd_dim s <> []).
  { destruct Hwf as [(H1 & _ & _ & _ & H5)|(Hu & _)]; [lia|]. apply Hu. }
  split; auto.
  pose proof (nd_wf_pos _ s Hwf Hne ltac:(lia)) as Hpos.
  destruct Hwf as [(H1 & _)|(Hu & Hs & Ho & Hvol & Hlen)]; [congruence|].
  rewrite Hvol in Hl. destruct (dotp_surj _ l Hpos Hl) as (t & Ht & Hd).
  exists t; split; auto. rewrite row_major_dotp by (apply valid_index_length; auto). auto.
Qed.

Lemma nd_at_wf : forall (A : Type) (s : nd A) t,
  nd_wf s -> nd_dim s <> [] -> valid_index (nd_dim s) t ->
  exists a, nd_at s t = Ok a /\ nd_get s (row_major (nd_dim s) t) = Ok a.
Proof.
  intros A s t Hwf Hne Hv.
  destruct (linear_index_wf _ s t Hwf Hne Hv) as [Hl Hb].
  unfold nd_at. rewrite Hl. simpl.
  assert (Hlen : Z.of_nat (length (nd_val s)) = nd_volume s).
  { destruct Hwf as [(H1 & _)|(Hu & Hs & Ho & Hvol & Hlen)]; [congruence|auto]. }
  unfold nd_get. destruct (proj2 (vget_ok_iff _ (nd_val s) (row_major (nd_dim s) t))) as [a Ha]; [lia|].
  eauto.
Qed.

Lemma nd_put_wf : forall (A : Type) (s : nd A) t a,
  nd_wf s -> nd_dim s <> [] -> valid_index (nd_dim s) t ->
  exists s', nd_put s t a = Ok s' /\ nd_wf s' /\
    nd_dim s' = nd_dim s /\ nd_order s' = nd_order s /\ nd_volume s' = nd_volume s /\
    nd_at s' t = Ok a /\ nd_get s' (row_major (nd_dim s) t) = Ok a /\
    (forall t', valid_index (nd_dim s) t' -> t' <> t -> nd_at s' t' = nd_at s t') /\
    (forall i, i <> row_major (nd_dim s) t -> nd_get s' i = nd_get s i).
Proof.
  intros A s t a Hwf Hne Hv.
  destruct (linear_index_wf _ s t Hwf Hne Hv) as [Hl Hb].
  assert (Hlen : Z.of_nat (length (nd_val s)) = nd_volume s).
  { destruct Hwf as [(H1 & _)|(Hu & Hs & Ho & Hvol & Hlen)]; [congruence|auto]. }
  set (i := row_major (nd_dim s) t) in *.
  assert (Hset : nd_set s i a = Ok (mkNd (nd_dim s) (nd_unroll s) (lset (nd_val s) (Z.to_nat i) a)
                                         (nd_order s) (nd_volume s))).
  { unfold nd_set. rewrite vset_ok by lia. reflexivity. }
  eexists. split; [unfold nd_put; rewrite Hl; simpl; exact Hset|].
  split; [eapply nd_set_wf; eauto|]. simpl.
  assert (Hother : forall j, j <> i ->
     nd_get (mkNd (nd_dim s) (nd_unroll s) (lset (nd_val s) (Z.to_nat i) a) (nd_order s) (nd_volume s)) j
     = nd_get s j).
  { intros j Hj. unfold nd_get; simpl. unfold vget. destruct (0 <=? j) eqn:E; auto.
    rewrite nth_error_lset_other by lia. auto. }
  assert (Hsame : nd_get (mkNd (nd_dim s) (nd_unroll s) (lset (nd_val s) (Z.to_nat i) a) (nd_order s) (nd_volume s)) i = Ok a).
  { unfold nd_get; simpl. apply vget_some. split; [lia|]. apply nth_error_lset_same. lia. }
  repeat split; auto.
  - unfold nd_at. change (linear_index _ t) with (linear_index s t). rewrite Hl. simpl. exact Hsame.
  - intros t' Hv' Hneq. destruct (linear_index_wf _ s t' Hwf Hne Hv') as [Hl' Hb'].
    unfold nd_at. change (linear_index {| nd_dim := nd_dim s; nd_unroll := nd_unroll s;
      nd_val := lset (nd_val s) (Z.to_nat i) a; nd_order := nd_order s; nd_volume := nd_volume s |} t')
      with (linear_index s t'). rewrite Hl'. simpl. apply Hother.
    intros Heq. apply Hneq. unfold i in Heq.
    rewrite !row_major_dotp in Heq by (apply valid_index_length; auto).
    eapply dotp_inj; eauto.
Qed.

(** ** Histories *)

Lemma nd_step_safe : forall (A : Type) (d : A) (s : nd A) o,
  nd_wf s -> nd_op_pre s o ->
  (exists s', nd_step d o s = RRet s' tt /\ nd_wf s') \/
  (nd_step d o s = RExit /\ exists dims, o = OpReshape dims /\ zprod dims <> nd_volume s).
Proof.
  intros A d s o Hwf Hpre. destruct o as [dims|dims| |i a|t a]; simpl in *.
  - left. rewrite nd_resize_ok by auto. eexists; split; [reflexivity|]. apply nd_resize_wf; auto.
  - destruct (Z.eq_dec (zprod dims) (nd_volume s)) as [He|He].
    + left. rewrite nd_reshape_ok by auto. eexists; split; [reflexivity|].
      right; simpl. destruct Hwf as [(H1 & _ & H3 & _ & H5)|(Hu & Hs & Ho & Hvol & Hlen)].
      * rewrite H3, H5 in *. repeat split; try apply Hpre; simpl; lia.
      * repeat split; try apply Hpre; auto.
    + right. rewrite nd_reshape_exit by auto. eauto.
  - left. eexists; split; [reflexivity|]. apply nd_wf_empty.
  - left. assert (Hlen : Z.of_nat (length (nd_val s)) = nd_volume s).
    { destruct Hwf as [(H1 & _ & H3 & _ & H5)|(Hu & Hs & Ho & Hvol & Hlen)]; [lia|auto]. }
    unfold lift_set. destruct (nd_set s i a) as [s'| | | |] eqn:E.
    + exists s'; split; auto. eapply nd_set_wf; eauto.
    + unfold nd_set in E. rewrite vset_ok in E by lia. discriminate.
    + unfold nd_set in E. rewrite vset_ok in E by lia. discriminate.
    + unfold nd_set in E. rewrite vset_ok in E by lia. discriminate.
    + unfold nd_set in E. rewrite vset_ok in E by lia. discriminate.
  - left. destruct Hpre as [Hne Hv]. destruct (nd_put_wf _ s t a Hwf Hne Hv) as (s' & Hput & Hwf' & _).
    exists s'. unfold lift_set. rewrite Hput. auto.
Qed.

Lemma nd_reachable_wf : forall (A : Type) (d : A) s, nd_reachable d s -> nd_wf s.
Proof.
  intros A d s H; induction H as [|s o s' H IH Hpre Hstep].
  - apply nd_wf_empty.
  - destruct (nd_step_safe _ d s o IH Hpre) as [(s1 & Hs1 & Hwf)|(Hex & _)]; congruence.
Qed.

Lemma nd_wf_view : forall (A : Type) (s : nd A), nd_wf s ->
  nd_order s = Z.of_nat (length (nd_dim s)) /\
  nd_volume s = (match nd_dim s with [] => 0 | _ => zprod (nd_dim s) end) /\
  (forall i, (exists a, nd_get s i = Ok a) <-> 0 <= i < nd_volume s) /\
  (nd_dim s <> [] -> forall t, valid_index (nd_dim s) t -> exists a, nd_at s t = Ok a).
Proof.
  intros A s Hwf. assert (Hlen : Z.of_nat (length (nd_val s)) = nd_volume s).
  { destruct Hwf as [(H1 & _ & H3 & _ & H5)|(Hu & Hs & Ho & Hvol & Hlen)]; [|auto].
    rewrite H3, H5; auto. }
  split; [|split; [|split]].
  - destruct Hwf as [(H1 & _ & H3 & H4 & H5)|(Hu & Hs & Ho & Hvol & _)]; [rewrite H1, H4; auto|auto].
  - destruct Hwf as [(H1 & _ & H3 & H4 & H5)|(Hu & Hs & Ho & Hvol & _)]; [rewrite H1, H5; auto|].
    destruct (nd_dim s); [destruct Hu; congruence|auto].
  - intros i. unfold nd_get. rewrite vget_ok_iff. lia.
  - intros Hne t Hv. destruct (nd_at_wf _ s t Hwf Hne Hv) as (a & Ha & _). eauto.
Qed.

(** ** Exactly which shapes resize accepts *)

(** Deciding whether the leading products fit: finitely many prefixes. *)
Lemma fits_int_dec : forall z, {fits_int z} + {~ fits_int z}.
Proof.
  intros z. unfold fits_int.
  destruct (Z_le_dec (- 2 ^ 31) z); [destruct (Z_le_dec z (2 ^ 31 - 1))|]; [left|right|right]; lia.
Qed.

Lemma scaled_fit_dec : forall dims acc,
  {forall k, fits_int (acc * zprod (firstn k dims))} + {~ forall k, fits_int (acc * zprod (firstn k dims))}.
Proof.
  induction dims as [|d dims IH]; intros acc.
  - destruct (fits_int_dec acc) as [H|H]; [left|right].
    + intros k. rewrite firstn_nil, zprod_nil, Z.mul_1_r. auto.
    + intros Hk. specialize (Hk 0%nat). simpl in Hk. rewrite zprod_nil, Z.mul_1_r in Hk. auto.
  - destruct (fits_int_dec acc) as [H|H].
    + destruct (IH (acc * d)) as [Hd|Hd]; [left|right].
      * intros [|k]; simpl firstn; rewrite ?zprod_nil, ?zprod_cons, ?Z.mul_1_r; auto.
        rewrite Z.mul_assoc. auto.
      * intros Hk. apply Hd. intros k. specialize (Hk (S k)). simpl firstn in Hk.
        rewrite zprod_cons, Z.mul_assoc in Hk. auto.
    + right. intros Hk. specialize (Hk 0%nat). simpl in Hk. rewrite zprod_nil, Z.mul_1_r in Hk. auto.
Qed.

Lemma leading_fit_dec : forall dims, {leading_fit dims} + {~ leading_fit dims}.
Proof.
  intros dims. destruct (scaled_fit_dec dims 1) as [H|H]; [left|right]; unfold leading_fit.
  - intros k. specialize (H k). rewrite Z.mul_1_l in H. auto.
  - intros Hk. apply H. intros k. rewrite Z.mul_1_l. auto.
Qed.

Lemma nd_resize_outcomes : forall (A : Type) (d : A) dims s,
  match nd_resize d dims s with
  | RRet s' _ => dims <> [] /\ leading_fit dims /\ trailing_fit dims /\ 0 <= zprod dims
  | RThrow s' e => dims <> [] /\ leading_fit dims /\ zprod dims < 0 /\ e = LengthError
  | RUB _ => dims = [] \/ ~ leading_fit dims \/ (0 <= zprod dims /\ ~ trailing_fit dims)
  | RExit => False
  | RNoFuel => False
  end.
Proof.
  intros A d dims s. destruct dims as [|d0 dims'].
  - simpl. auto.
  - set (dims := d0 :: dims') in *. assert (Hne : dims <> []) by (unfold dims; discriminate).
    unfold nd_resize, mbind, mget, mlift, mput, mmod, generate_unroll.
    destruct (leading_fit_dec dims) as [Hl|Hl].
    + rewrite calc_volume_ok by auto. destruct (zprod dims <? 0) eqn:E.
      * split; [auto|split; [auto|split; [lia|auto]]].
      * unfold mbind, mget, mlift. simpl nd_dim.
        destruct (unroll_rec_cases dims) as [[u Hu]|[r Hr]].
        -- rewrite Hu. destruct (unroll_rec_inv _ _ Hu) as [_ Ht]. split; [auto|split; [auto|split; [auto|lia]]].
        -- rewrite Hr. right. right. split; [lia|]. intros Ht.
           rewrite unroll_rec_ok in Hr by auto. discriminate.
    + rewrite calc_volume_overflow by auto. auto.
Qed.

(** ** The property lemmas *)

Lemma index_bijection :
  forall (A : Type) (d : A) (s : nd A), nd_reachable d s -> nd_dim s <> [] ->
  (forall t, valid_index (nd_dim s) t ->
     linear_index s t = Ok (row_major (nd_dim s) t) /\ 0 <= row_major (nd_dim s) t < nd_volume s) /\
  (forall t term, valid_index (nd_dim s) t -> length term = length (nd_dim s) ->
     tensor_indices s (row_major (nd_dim s) t) term = Ok t) /\
  (forall l term, 0 <= l < nd_volume s -> length term = length (nd_dim s) ->
     exists t, valid_index (nd_dim s) t /\ tensor_indices s l term = Ok t /\ linear_index s t = Ok l) /\
  (forall t1 t2, valid_index (nd_dim s) t1 -> valid_index (nd_dim s) t2 -> lex_lt t1 t2 ->
     row_major (nd_dim s) t1 < row_major (nd_dim s) t2).
Proof.
  intros A d s Hr Hne. apply nd_reachable_wf in Hr.
  split; [|split; [|split]].
  - intros t Ht. apply linear_index_wf; auto.
  - intros t term Ht Hlen. apply tensor_indices_wf; auto.
  - intros l term Hl Hlen. destruct (row_major_surj _ s l Hr Hl) as (_ & t & Ht & Hrm).
    exists t. split; [auto|]. rewrite <- Hrm. split.
    + apply tensor_indices_wf; auto.
    + apply linear_index_wf; auto.
  - intros t1 t2 H1 H2 Hlex. rewrite !row_major_dotp by (apply valid_index_length; auto).
    apply dotp_lex; auto.
Qed.

Lemma nd_make_reachable : forall (A : Type) (d : A) dims s,
  usable_shape dims -> nd_make d dims = Ok s -> nd_reachable d s.
Proof.
  intros A d dims s Hu Hm. apply (NdStep d nd_empty (OpResize dims)); [constructor|exact Hu|].
  simpl. unfold nd_make in Hm. rewrite nd_resize_ok in * by auto. injection Hm as <-. reflexivity.
Qed.

Lemma proper_shapes_are_built :
  forall (A : Type) (d : A) (dims : list Z), proper_shape dims ->
  exists s, nd_make d dims = Ok s /\ nd_reachable d s /\ nd_dim s = dims /\
            nd_volume s = zprod dims /\ nd_order s = Z.of_nat (length dims) /\
            (forall i, 0 <= i < zprod dims -> nd_get s i = Ok d).
Proof.
  intros A d dims Hp. apply proper_usable in Hp. pose proof (nd_make_ok _ d dims Hp) as Hm.
  eexists; split; [exact Hm|]. split; [eapply nd_make_reachable; eauto|]. simpl.
  repeat split; auto. intros i Hi. unfold nd_get; simpl. apply vget_some. split; [lia|].
  apply nth_error_repeat. lia.
Qed.

Lemma write_is_local :
  forall (A : Type) (d : A) (s : nd A) (t : list Z) (a : A),
  nd_reachable d s -> nd_dim s <> [] -> valid_index (nd_dim s) t ->
  exists s', nd_put s t a = Ok s' /\ nd_reachable d s' /\
    nd_dim s' = nd_dim s /\ nd_order s' = nd_order s /\ nd_volume s' = nd_volume s /\
    nd_at s' t = Ok a /\ nd_get s' (row_major (nd_dim s) t) = Ok a /\
    (forall t', valid_index (nd_dim s) t' -> t' <> t -> nd_at s' t' = nd_at s t') /\
    (forall i, i <> row_major (nd_dim s) t -> nd_get s' i = nd_get s i).
Proof.
  intros A d s t a Hr Hne Hv.
  destruct (nd_put_wf _ s t a (nd_reachable_wf _ _ _ Hr) Hne Hv) as (s' & Hput & _ & Hrest).
  exists s'. split; [auto|]. split; [|exact Hrest].
  apply (NdStep d s (OpPut t a)); [auto|split; auto|]. simpl. unfold lift_set. rewrite Hput. auto.
Qed.

Lemma bookkeeping :
  forall (A : Type) (d : A) (s : nd A), nd_reachable d s ->
  nd_order s = Z.of_nat (length (nd_dim s)) /\
  nd_volume s = (match nd_dim s with [] => 0 | _ => zprod (nd_dim s) end) /\
  (forall i, (exists a, nd_get s i = Ok a) <-> 0 <= i < nd_volume s) /\
  (nd_dim s <> [] -> forall t, valid_index (nd_dim s) t -> exists a, nd_at s t = Ok a).
Proof. intros A d s Hr. apply nd_wf_view. eapply nd_reachable_wf; eauto. Qed.

Lemma no_undefined_behaviour :
  forall (A : Type) (d : A) (s : nd A) (o : nd_op A), nd_reachable d s -> nd_op_pre s o ->
  (exists s', nd_step d o s = RRet s' tt /\ nd_reachable d s') \/
  (nd_step d o s = RExit /\ exists dims, o = OpReshape dims /\ zprod dims <> nd_volume s).
Proof.
  intros A d s o Hr Hpre.
  destruct (nd_step_safe _ d s o (nd_reachable_wf _ _ _ Hr) Hpre) as [(s' & Hs & _)|H]; [left|right; auto].
  exists s'; split; auto. eapply NdStep; eauto.
Qed.

Lemma reshape_spec :
  forall (A : Type) (d : A) (s : nd A) (dims : list Z), nd_reachable d s -> usable_shape dims ->
  (zprod dims = nd_volume s ->
     exists s', nd_reshape dims s = RRet s' tt /\ nd_dim s' = dims /\ nd_volume s' = nd_volume s /\
                (forall i, nd_get s' i = nd_get s i)) /\
  (zprod dims <> nd_volume s -> nd_reshape dims s = RExit).
Proof.
  intros A d s dims Hr Hu. split.
  - intros Hv. eexists; split; [apply nd_reshape_ok; auto|]. simpl. auto.
  - apply nd_reshape_exit; auto.
Qed.

Lemma nd_wf_length : forall (A : Type) (s : nd A), nd_wf s -> Z.of_nat (length (nd_val s)) = nd_volume s.
Proof.
  intros A s [(H1 & _ & H3 & _ & H5)|(Hu & Hs & Ho & Hvol & Hlen)]; auto. rewrite H3, H5; auto.
Qed.

Lemma resize_spec :
  forall (A : Type) (d : A) (s : nd A) (dims : list Z), nd_reachable d s -> usable_shape dims ->
  exists s', nd_resize d dims s = RRet s' tt /\ nd_dim s' = dims /\ nd_volume s' = zprod dims /\
    (forall i, 0 <= i < Z.min (nd_volume s) (zprod dims) -> nd_get s' i = nd_get s i) /\
    (forall i, nd_volume s <= i < zprod dims -> nd_get s' i = Ok d).
Proof.
  intros A d s dims Hr Hu. eexists; split; [apply nd_resize_ok; auto|]. simpl.
  pose proof (nd_wf_length _ _ (nd_reachable_wf _ _ _ Hr)) as Hlen.
  assert (Hg : forall i, 0 <= i < zprod dims ->
    vget (vresize d (nd_val s) (Z.to_nat (zprod dims))) i =
    match nth_error (nd_val s) (Z.to_nat i) with Some a => Ok a | None => Ok d end).
  { intros i Hi. unfold vget. replace (0 <=? i) with true by lia.
    rewrite nth_error_vresize by lia. destruct (nth_error (nd_val s) (Z.to_nat i)); auto. }
  repeat split; auto; intros i Hi; unfold nd_get; simpl; rewrite Hg by lia.
  - unfold vget. replace (0 <=? i) with true by lia.
    destruct (nth_error (nd_val s) (Z.to_nat i)) eqn:E; auto. apply nth_error_None in E. lia.
  - destruct (nth_error (nd_val s) (Z.to_nat i)) eqn:E; auto.
    assert (Z.to_nat i < length (nd_val s))%nat by (apply nth_error_Some; congruence). lia.
Qed.

Lemma construct_with_values :
  forall (A : Type) (d : A) (dims : list Z) (v : list A), usable_shape dims ->
  (Z.of_nat (length v) = zprod dims ->
     exists s, nd_make_val d dims v = Ok s /\ nd_dim s = dims /\ nd_volume s = zprod dims /\
       forall i, 0 <= i < zprod dims -> nd_get s i = vget v i) /\
  (Z.of_nat (length v) <> zprod dims -> nd_make_val d dims v = Exit).
Proof.
  intros A d dims v Hu. unfold nd_make_val. rewrite nd_make_ok by auto. simpl. split; intros Hv.
  - replace (zprod dims =? Z.of_nat (length v)) with true by lia.
    eexists; split; [reflexivity|]. simpl. auto.
  - replace (zprod dims =? Z.of_nat (length v)) with false by lia. auto.
Qed.

Lemma shape_preconditions :
  forall (A : Type) (d : A) (dims : list Z) (s : nd A),
  ((exists s', nd_resize d dims s = RRet s' tt) <->
     dims <> [] /\ leading_fit dims /\ trailing_fit dims /\ 0 <= zprod dims) /\
  ((exists s', nd_resize d dims s = RThrow s' LengthError) <->
     dims <> [] /\ leading_fit dims /\ zprod dims < 0) /\
  ((exists r, nd_resize d dims s = RUB r) <->
     dims = [] \/ ~ leading_fit dims \/ (0 <= zprod dims /\ ~ trailing_fit dims)).
Proof.
  intros A d dims s. pose proof (nd_resize_outcomes A d dims s) as H.
  destruct (nd_resize d dims s) as [s' []|s' e| |r|]; try contradiction.
  - destruct H as (H1 & H2 & H3 & H4). split; [|split]; split.
    + intros _; auto.
    + intros _; eauto.
    + intros [s2 Hs2]; discriminate.
    + intros (_ & _ & Hneg); lia.
    + intros [r Hr]; discriminate.
    + intros [E|[E|[_ E]]]; contradiction.
  - destruct H as (H1 & H2 & H3 & ->). split; [|split]; split.
    + intros [s2 Hs2]; discriminate.
    + intros (_ & _ & _ & Hp); lia.
    + intros _; auto.
    + intros _; eauto.
    + intros [r Hr]; discriminate.
    + intros [E|[E|[E _]]]; try contradiction; lia.
  - split; [|split]; split.
    + intros [s2 Hs2]; discriminate.
    + intros (G1 & G2 & G3 & G4). destruct H as [E|[E|[_ E]]]; contradiction.
    + intros [s2 Hs2]; discriminate.
    + intros (G1 & G2 & G3). destruct H as [E|[E|[E _]]]; try contradiction; lia.
    + intros _; auto.
    + intros _; eauto.
Qed.

Lemma empty_shape_refuted :
  forall (A : Type) (d : A), exists (s : nd A) (r : ub_reason),
    nd_reachable d s /\ nd_resize d (nd_dim s) s = RUB r /\ nd_reshape (nd_dim s) s = RUB r.
Proof.
  intros A d. exists nd_empty, UBOutOfBounds. split; [constructor|]. split; reflexivity.
Qed.

Lemma usable_example : usable_shape [3; 2] /\ usable_shape [2; 3].
Proof.
  split; apply proper_usable; (split; [discriminate|split; [repeat constructor|vm_compute; discriminate]]).
Qed.

Lemma history_example : exists s : nd Z,
  nd_reachable 0 s /\ nd_dim s = [3; 2] /\ nd_val s = [0; 5; 0; 0; 0; 0].
Proof.
  exists (mkNd [3; 2] [2; 1] [0; 5; 0; 0; 0; 0] 2 6). split; [|split; reflexivity].
  apply (NdStep 0 (mkNd [2; 3] [3; 1] [0; 5; 0; 0; 0; 0] 2 6) (OpReshape [3; 2]));
    [|apply usable_example|reflexivity].
  apply (NdStep 0 (mkNd [2; 3] [3; 1] [0; 0; 0; 0; 0; 0] 2 6) (OpPut [0; 1] 5));
    [|split; [discriminate|repeat constructor; lia]|reflexivity].
  apply (NdStep 0 nd_empty (OpResize [2; 3])); [constructor|apply usable_example|reflexivity].
Qed.

Lemma length_error_leaves_inconsistent :
  exists s s' : nd Z,
    nd_reachable 0 s /\ nd_dim s = [2; 3] /\ nd_resize 0 [-1; 5] s = RThrow s' LengthError /\
    nd_dim s' = [-1; 5] /\ nd_volume s' = -5 /\ nd_get s' 5 = Ok 0.
Proof.
  exists (mkNd [2; 3] [3; 1] [0; 0; 0; 0; 0; 0] 2 6), (mkNd [-1; 5] [3; 1] [0; 0; 0; 0; 0; 0] 2 (-5)).
  split; [|repeat split; reflexivity].
  apply (NdStep 0 nd_empty (OpResize [2; 3])); [constructor|apply usable_example|reflexivity].
Qed.

Lemma overflow_example : leading_fit [0; 65536; 65536] /\ ~ trailing_fit [0; 65536; 65536] /\
  nd_resize 0 [0; 65536; 65536] nd_empty = RUB UBOverflow.
Proof.
  split; [|split].
  - intros [|[|[|k]]]; unfold fits_int, zprod; simpl; try lia; rewrite ?firstn_nil; simpl; lia.
  - intros H. specialize (H 1%nat (le_n _)). unfold fits_int, zprod in H; simpl in H. lia.
  - vm_compute; reflexivity.
Qed.
