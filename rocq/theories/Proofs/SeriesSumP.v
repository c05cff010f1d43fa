(** The coefficient loop computes the tensor-product sum. *)
From Coq Require Import ZArith List Bool Lia ZifyBool.
From Verif Require Import Model.Outcome Model.PNDArray Model.BasisSet Model.Series Spec.Tensor Spec.Series
  Proofs.OutcomeP Proofs.PNDArrayP.
Import ListNotations.
Local Open Scope Z_scope.

Lemma length_upto : forall n, List.length (upto n) = Z.to_nat n.
Proof. intros n. unfold upto. now rewrite map_length, seq_length. Qed.

Lemma nth_error_upto : forall n i, (i < Z.to_nat n)%nat -> nth_error (upto n) i = Some (Z.of_nat i).
Proof.
  intros n i H. unfold upto. apply map_nth_error.
  rewrite nth_error_nth' with (d := 0%nat) by (rewrite seq_length; lia). now rewrite seq_nth.
Qed.

Lemma length_flat_map_const : forall (A B : Type) (f : A -> list B) l k,
  (forall a, List.length (f a) = k) -> List.length (flat_map f l) = (List.length l * k)%nat.
Proof.
  intros A B f l k H. induction l as [|a l IH]; simpl; auto. rewrite app_length, H, IH. reflexivity.
Qed.

Lemma nth_error_flat_map_const : forall (A B : Type) (f : A -> list B) k l q r a,
  (forall a, List.length (f a) = k) -> (r < k)%nat -> nth_error l q = Some a ->
  nth_error (flat_map f l) (q * k + r) = nth_error (f a) r.
Proof.
  intros A B f k l q r a Hf Hr. revert q. induction l as [|x l IH]; intros [|q] Hq; simpl in *; try discriminate.
  - injection Hq as ->. rewrite nth_error_app1; auto. rewrite Hf. auto.
  - rewrite nth_error_app2 by (rewrite Hf; lia). rewrite Hf.
    replace (k + q * k + r - k)%nat with (q * k + r)%nat by lia. auto.
Qed.

Lemma length_tuples : forall dims, Forall (fun d => 0 <= d) dims -> List.length (tuples dims) = Z.to_nat (zprod dims).
Proof.
  intros dims H. induction H as [|d ds Hd H IH].
  - reflexivity.
  - simpl tuples. rewrite length_flat_map_const with (k := Z.to_nat (zprod ds)).
    + rewrite length_upto, zprod_cons. pose proof (zprod_nonneg ds H). rewrite Z2Nat.inj_mul; lia.
    + intros a. now rewrite map_length.
Qed.

(** Tuple number [i] is the one at row-major position [i]. *)
Lemma tuples_nth : forall dims, Forall (fun d => 0 < d) dims -> forall t, valid_index dims t ->
  nth_error (tuples dims) (Z.to_nat (dotp dims t)) = Some t.
Proof.
  intros dims H t Ht. induction Ht as [|d i ds t Hi Ht IH].
  - reflexivity.
  - inversion H as [|? ? Hd Hds]; subst. specialize (IH Hds). pose proof (dotp_bounds _ _ Ht) as Hb.
    pose proof (zprod_pos _ Hds) as Hp.
    simpl dotp. simpl tuples.
    replace (Z.to_nat (i * zprod ds + dotp ds t)) with (Z.to_nat i * Z.to_nat (zprod ds) + Z.to_nat (dotp ds t))%nat.
    + rewrite nth_error_flat_map_const with (k := Z.to_nat (zprod ds)) (a := i).
      * now apply map_nth_error.
      * intros a. rewrite map_length. apply length_tuples. eapply Forall_impl; [|exact Hds]. simpl; lia.
      * lia.
      * rewrite nth_error_upto by lia. now rewrite Z2Nat.id by lia.
    + rewrite Z2Nat.inj_add by nia. rewrite Z2Nat.inj_mul by lia. reflexivity.
Qed.

Lemma valid_in_tuples : forall dims t, valid_index dims t <-> In t (tuples dims).
Proof.
  induction dims as [|d ds IH]; intros t; split.
  - intros H. inversion H. left; auto.
  - intros [<-|[]]. constructor.
  - intros H. inversion H as [|? i ? t' Hi Ht']; subst. simpl. apply in_flat_map. exists i. split.
    + unfold upto. apply in_map_iff. exists (Z.to_nat i). split; [lia|]. apply in_seq. lia.
    + apply in_map. now apply IH.
  - simpl. intros H. apply in_flat_map in H. destruct H as (i & Hi & H). apply in_map_iff in H.
    destruct H as (t' & <- & Ht'). unfold upto in Hi. apply in_map_iff in Hi. destruct Hi as (m & <- & Hm).
    apply in_seq in Hm. constructor; [lia|now apply IH].
Qed.

Section Sum.
Context {S : SerOps}.
Local Notation A := (sa S).

Lemma inner_product : forall (T : list Z) (pick : Z -> Z -> outcome A) fs t k tmp,
  List.length fs = List.length t ->
  (forall j f i, nth_error fs j = Some f -> nth_error t j = Some i ->
     vget T (Z.of_nat (k + j)) = Ok i /\ pick (Z.of_nat (k + j)) i = Ok (f i)) ->
  ofold (fun tmp j => let* t := vget T j in let* b := pick j t in Ok (smul S tmp b))
    (map Z.of_nat (seq k (List.length t))) tmp = Ok (fold_left (smul S) (factors fs t) tmp).
Proof.
  intros T pick fs. induction fs as [|f fs IH]; intros [|i t] k tmp Hlen H; simpl in Hlen; try discriminate.
  - reflexivity.
  - simpl List.length. simpl seq. simpl map. simpl ofold.
    destruct (H 0%nat f i eq_refl eq_refl) as [E1 E2]. rewrite Nat.add_0_r in E1, E2. rewrite E1. simpl. rewrite E2. simpl.
    rewrite IH.
    + reflexivity.
    + congruence.
    + intros j f' i' Hf Hi. replace (Datatypes.S k + j)%nat with (k + Datatypes.S j)%nat by lia. apply H; auto.
Qed.

Lemma ofold_parallel : forall (B C I T : Type) (f : B -> I -> outcome B) (P : B -> C -> Prop) (g : C -> T -> C) is ts b c,
  Forall2 (fun i t => forall b c, P b c -> exists b', f b i = Ok b' /\ P b' (g c t)) is ts -> P b c ->
  exists b', ofold f is b = Ok b' /\ P b' (fold_left g ts c).
Proof.
  intros B C I T f P g is ts b c H. revert b c. induction H as [|i t is ts Hit H IH]; intros b c Hp; simpl; eauto.
  destruct (Hit b c Hp) as (b' & -> & Hp'). simpl. apply IH. auto.
Qed.

Lemma Forall2_nth : forall (B C : Type) (R : B -> C -> Prop) l l',
  List.length l = List.length l' ->
  (forall i a b, nth_error l i = Some a -> nth_error l' i = Some b -> R a b) -> Forall2 R l l'.
Proof.
  intros B C R l. induction l as [|a l IH]; intros [|b l'] Hl H; simpl in Hl; try discriminate; constructor.
  - apply (H 0%nat); auto.
  - apply IH; [congruence|]. intros i. apply (H (Datatypes.S i)).
Qed.

Lemma fold_left_map : forall (B C D : Type) (f : B -> C -> B) (g : D -> C) l b,
  fold_left f (map g l) b = fold_left (fun b d => f b (g d)) l b.
Proof. intros B C D f g l. induction l as [|d l IH]; intros b; simpl; auto. Qed.

Lemma calc_sum_ok : forall (c : nd A) dims cf fs zero pick,
  nd_wf c -> nd_dim c = dims -> dims <> [] ->
  (forall t, valid_index dims t -> nd_at c t = Ok (cf t)) ->
  List.length fs = List.length dims ->
  (forall j n f t, nth_error dims j = Some n -> nth_error fs j = Some f -> 0 <= t < n -> pick (Z.of_nat j) t = Ok (f t)) ->
  calc_sum pick c zero = Ok (tensor_sum S dims cf fs zero).
Proof.
  intros c dims cf fs zero pick Hwf Hd Hne Hc Hlf Hpick.
  pose proof (nd_wf_view _ c Hwf) as (Hord & Hvol & _). rewrite Hd in Hord, Hvol.
  assert (Hnn : Forall (fun d => 0 <= d) dims).
  { destruct Hwf as [(H1 & _)|(Hu & _)]; [congruence|]. destruct Hu as (_ & Hnn & _). congruence. }
  assert (Hv : nd_volume c = zprod dims) by (destruct dims; congruence).
  unfold calc_sum.
  destruct (ofold_parallel (list Z * A) A Z (list Z)
     (fun (r : list Z * A) i =>
      let* tmp := nd_get c i in
      let* tindex := tensor_indices c i (fst r) in
      let* tmp := ofold (fun tmp j =>
          let* t := vget tindex j in
          let* b := pick j t in
          Ok (smul S tmp b)) (zseq (nd_order c)) tmp in
      Ok (tindex, sadd S (snd r) tmp))
     (fun r acc => List.length (fst r) = List.length dims /\ snd r = acc)
     (fun acc t => sadd S acc (fold_left (smul S) (factors fs t) (cf t)))
     (zseq (nd_volume c)) (tuples dims) (repeat 0 (Z.to_nat (nd_order c)), zero) zero) as (r & Hr & _ & Hs).
  - apply Forall2_nth.
    + rewrite length_tuples by auto. unfold zseq. rewrite map_length, seq_length. now rewrite Hv.
    + intros i a t Hi Ht [tin acc0] acc (Hlen & Hacc). simpl in Hlen, Hacc. subst acc0.
      assert (Hil : (i < Z.to_nat (zprod dims))%nat) by (rewrite <- length_tuples by auto; apply nth_error_Some; congruence).
      assert (Ha : a = Z.of_nat i).
      { unfold zseq in Hi. rewrite (map_nth_error Z.of_nat i (seq 0 (Z.to_nat (nd_volume c))) (d := i)) in Hi; [congruence|].
        rewrite nth_error_nth' with (d := 0%nat) by (rewrite seq_length; lia). rewrite seq_nth by lia. reflexivity. }
      assert (Hval : valid_index dims t) by (apply valid_in_tuples; eapply nth_error_In; eauto).
      assert (Hpos : Forall (fun d => 0 < d) dims) by (eapply valid_index_pos; eauto).
      assert (Hrm : Z.of_nat i = dotp dims t).
      { pose proof (dotp_bounds _ _ Hval). pose proof (tuples_nth dims Hpos t Hval) as Hn.
        assert (Hnd : NoDup (tuples dims)).
        { apply NoDup_nth_error. intros p q Hp Hpq.
          assert (Hex : forall p, (p < List.length (tuples dims))%nat -> exists t, nth_error (tuples dims) p = Some t /\ dotp dims t = Z.of_nat p).
          { intros p' Hp'. rewrite length_tuples in Hp' by auto.
            destruct (dotp_surj dims (Z.of_nat p') Hpos) as (t' & Hv' & Hd'); [lia|].
            exists t'. split; auto. rewrite <- (tuples_nth dims Hpos t' Hv'). f_equal. lia. }
          destruct (Hex p Hp) as (t1 & E1 & D1).
          assert (Hq : (q < List.length (tuples dims))%nat) by (apply nth_error_Some; congruence).
          destruct (Hex q Hq) as (t2 & E2 & D2). assert (t1 = t2) by congruence. subst. lia. }
        assert (i = Z.to_nat (dotp dims t)); [|lia].
        apply (proj1 (NoDup_nth_error (tuples dims)) Hnd); [|congruence].
        rewrite length_tuples by auto. exact Hil. }
      subst a. rewrite Hrm.
      assert (Hget : nd_get c (dotp dims t) = Ok (cf t)).
      { destruct (nd_at_wf _ c t Hwf) as (a & Ha1 & Ha2); [congruence|congruence|].
        rewrite Hd in Ha2. rewrite row_major_dotp in Ha2 by (now apply valid_index_length).
        rewrite Ha2. rewrite <- (Hc t Hval). congruence. }
      rewrite Hget. cbn [obind fst snd].
      assert (Hti : tensor_indices c (dotp dims t) tin = Ok t).
      { rewrite <- row_major_dotp by (now apply valid_index_length). rewrite <- Hd.
        apply tensor_indices_wf; auto; rewrite ?Hd; auto. }
      rewrite Hti. cbn [obind].
      pose proof (valid_index_length _ _ Hval) as Hlt.
      assert (Hz : zseq (nd_order c) = map Z.of_nat (seq 0 (List.length t))).
      { unfold zseq. rewrite Hord, Nat2Z.id. now rewrite Hlt. }
      rewrite Hz.
      rewrite inner_product with (fs := fs).
      * simpl. eexists. split; [reflexivity|]. simpl. auto.
      * congruence.
      * intros j f x Hf Hx. rewrite Nat.add_0_l. split.
        -- rewrite vget_nat, Hx. reflexivity.
        -- destruct (nth_error dims j) as [n|] eqn:En.
           ++ apply (Hpick j n f x); auto.
              clear - Hval Hx En. revert j Hx En. induction Hval as [|d i0 ds t Hi H IH]; intros [|j] Hx En; simpl in *; try discriminate.
              ** congruence.
              ** eapply IH; eauto.
           ++ apply nth_error_None in En. assert (j < List.length t)%nat by (apply nth_error_Some; congruence). lia.
  - simpl. rewrite repeat_length. split; auto. lia.
  - rewrite Hr. simpl. rewrite Hs. unfold tensor_sum. rewrite fold_left_map. reflexivity.
Qed.

End Sum.
