(** Series: what the evaluations compute and what they leave alone. *)
From Coq Require Import ZArith List Bool Lia ZifyBool.
From Verif Require Import Model.Outcome Model.PNDArray Model.PSimple Model.BasisSet Model.Series Spec.Tensor Spec.NDHistory Spec.Basis
  Spec.Series Proofs.OutcomeP Proofs.PNDArrayP Proofs.FuncObjP Proofs.BasisP Proofs.SeriesSumP Proofs.SeriesP.
Import ListNotations.
Local Open Scope Z_scope.

Section Eval.
Context {S : SerOps}.
Local Notation X := (sx S).
Local Notation A := (sa S).
Implicit Types (s : series S) (bs : list (bset X A)).

Definition frame s s' : Prop :=
  se_coeff s' = se_coeff s /\ se_val s' = se_val s /\ se_grad s' = se_grad s /\ se_hess s' = se_hess s.

Lemma frame_refl : forall s, frame s s.
Proof. intros s. repeat split. Qed.
Lemma frame_trans : forall s1 s2 s3, frame s1 s2 -> frame s2 s3 -> frame s1 s3.
Proof. intros s1 s2 s3 (A1 & A2 & A3 & A4) (B1 & B2 & B3 & B4). repeat split; congruence. Qed.

Lemma stored_entry : forall s k j t (b : bset X A), vget (se_basis s) j = Ok (Some b) -> 0 <= t < 2 ^ 64 ->
  stored_basis s k j t = vget (cache b k) t.
Proof.
  intros s k j t b H Ht. unfold stored_basis, se_get_basis, se_get_basis_grad, se_get_basis_hess, basis_get.
  rewrite H. simpl. destruct k; simpl; unfold int_to_size; rewrite Z.mod_small by lia; reflexivity.
Qed.

Lemma entry_at : forall bs zero one s j (b : bset X A), inv bs zero one s -> nth_error bs j = Some b ->
  exists b', vget (se_basis s) (Z.of_nat j) = Ok (Some b') /\ same_set b b'.
Proof.
  intros bs zero one s j b H Hb. rewrite vget_nat. pose proof (inv_basis _ _ _ _ H) as HF. clear H. revert j Hb.
  induction HF as [|b0 p0 l l' (b0' & -> & H0) HF IH]; intros [|j] Hb; simpl in *; try discriminate.
  - injection Hb as ->. eauto.
  - apply IH. auto.
Qed.

(** Stored results of the basis sets other than those of kind [k] of the selected variables. *)
Definition others (k : kind) (sel : Z -> bool) s s' : Prop :=
  forall k' j t, k' <> k \/ sel j = false -> stored_basis s' k' j t = stored_basis s k' j t.

Lemma eval_step : forall bs zero one s k xs j (b : bset X A) x g,
  inv bs zero one s -> nth_error bs j = Some b -> bs_size b <= int_max -> nth_error xs j = Some x ->
  (forall t, 0 <= t < bs_size b -> fun_of b k t x = Ok (g t)) ->
  exists s', (do* x := mlift (vget xs (Z.of_nat j)) in on_basis (Z.of_nat j) (pb_eval_k k x) ;;; mret tt) s = RRet s' tt /\
    inv bs zero one s' /\ frame s s' /\
    (forall t, 0 <= t < bs_size b -> stored_basis s' k (Z.of_nat j) t = Ok (g t)) /\
    others k (fun j' => j' =? Z.of_nat j) s s'.
Proof.
  intros bs zero one s k xs j b x g Hi Hb Hm Hx Hg.
  destruct (entry_at _ _ _ _ _ _ Hi Hb) as (b' & Hv & Hs). pose proof Hs as (Hf & Hl).
  assert (Heval : on_basis (Z.of_nat j) (pb_eval_k k x) s =
    RRet (mkSeries (se_coeff s) (se_one s) (se_zero s)
            (lset (se_basis s) j (Some (set_cache b' k (map g (zseq (bs_size b)))))) (se_val s) (se_grad s) (se_hess s))
         (map g (zseq (bs_size b)))).
  { unfold on_basis, on_elem. rewrite Hv, pb_eval_k_eq.
    rewrite (all_return_gen b' (bs_size b) k x g); auto using size_nonneg.
    - now rewrite Nat2Z.id.
    - intros t Ht. rewrite Hf. auto. }
  unfold mbind at 1. unfold mlift at 1. rewrite vget_nat, Hx. unfold mbind at 1. rewrite Heval. unfold mret.
  eexists; split; [reflexivity|]. split.
  { pose proof (keeps_on_basis bs zero one _ (Z.of_nat j) (pb_eval_k k x) (fun b => keeps_eval_k k x b) s Hi) as Hk.
    rewrite Heval in Hk. exact Hk. }
  split; [repeat split|]. set (s' := mkSeries _ _ _ _ _ _ _).
  assert (Hv' : vget (se_basis s') (Z.of_nat j) = Ok (Some (set_cache b' k (map g (zseq (bs_size b)))))).
  { simpl. pose proof (vget_lset_same _ (se_basis s) (Z.of_nat j) (Some (set_cache b' k (map g (zseq (bs_size b))))) _ Hv) as E.
    now rewrite Nat2Z.id in E. }
  unfold int_max in Hm. pose proof (size_nonneg b) as Hnn. split.
  - intros t Ht. rewrite (stored_entry _ _ _ _ _ Hv') by lia. rewrite cache_set_same. apply vget_tab. auto.
  - intros k' j' t Hc. destruct (Z.eq_dec j' (Z.of_nat j)) as [->|Hj].
    + destruct Hc as [Hk|Hc]; [|lia].
      assert (Hst : forall p q : option (bset X A), (forall k0, k0 <> k -> pbstored p k0 t = pbstored q k0 t) ->
        vget (se_basis s') (Z.of_nat j) = Ok p -> vget (se_basis s) (Z.of_nat j) = Ok q ->
        stored_basis s' k' (Z.of_nat j) t = stored_basis s k' (Z.of_nat j) t).
      { intros p q Hpq Hp Hq. specialize (Hpq k' Hk).
        destruct k'; unfold stored_basis, se_get_basis, se_get_basis_grad, se_get_basis_hess, basis_get; rewrite Hp, Hq; exact Hpq. }
      apply (Hst (Some (set_cache b' k (map g (zseq (bs_size b))))) (Some b')); auto.
      intros k0 Hk0. destruct k0, k; try congruence; reflexivity.
    + unfold stored_basis, se_get_basis, se_get_basis_grad, se_get_basis_hess, basis_get. simpl.
      pose proof (vget_lset_other _ (se_basis s) (Z.of_nat j) j' (Some (set_cache b' k (map g (zseq (bs_size b)))))) as E.
      rewrite Nat2Z.id in E. rewrite E by lia. reflexivity.
Qed.

(** A loop over the variables whose body refreshes the selected ones. *)
Lemma eval_loop : forall bs zero one k (sel : Z -> bool) (gs : list (Z -> A)) (body : Z -> M (series S) unit),
  List.length gs = List.length bs ->
  (forall s j b g, inv bs zero one s -> nth_error bs j = Some b -> nth_error gs j = Some g ->
     exists s', body (Z.of_nat j) s = RRet s' tt /\ inv bs zero one s' /\ frame s s' /\
       (sel (Z.of_nat j) = true -> forall t, 0 <= t < bs_size b -> stored_basis s' k (Z.of_nat j) t = Ok (g t)) /\
       others k (fun j' => (j' =? Z.of_nat j) && sel j') s s') ->
  forall m i s, (i + m <= List.length bs)%nat -> inv bs zero one s ->
  exists s', mfor (map Z.of_nat (seq i m)) body s = RRet s' tt /\ inv bs zero one s' /\ frame s s' /\
    (forall j b g t, (i <= j < i + m)%nat -> nth_error bs j = Some b -> nth_error gs j = Some g -> sel (Z.of_nat j) = true ->
       0 <= t < bs_size b -> stored_basis s' k (Z.of_nat j) t = Ok (g t)) /\
    others k (fun j' => (Z.of_nat i <=? j') && (j' <? Z.of_nat (i + m)) && sel j') s s'.
Proof.
  intros bs zero one k sel gs body Hlen Hbody m. induction m as [|m IH]; intros i s Him Hi.
  - exists s. simpl. split; [reflexivity|]. split; auto. split; [apply frame_refl|]. split; [intros; lia|].
    intros k' j t _. reflexivity.
  - destruct (nth_error bs i) as [b|] eqn:Eb; [|apply nth_error_None in Eb; lia].
    destruct (nth_error gs i) as [g|] eqn:Eg; [|apply nth_error_None in Eg; lia].
    destruct (Hbody s i b g Hi Eb Eg) as (s1 & E1 & Hi1 & Hf1 & Hn1 & Ho1).
    destruct (IH (Datatypes.S i) s1 ltac:(lia) Hi1) as (s2 & E2 & Hi2 & Hf2 & Hn2 & Ho2).
    exists s2. split; [|split; [auto|split; [eapply frame_trans; eauto|split]]].
    + simpl. unfold mbind. rewrite E1. exact E2.
    + intros j b' g' t Hj Hb' Hg' Hsel Ht. destruct (Nat.eq_dec j i) as [->|Hji].
      * rewrite Ho2 by (right; lia). rewrite Eb in Hb'. rewrite Eg in Hg'. injection Hb' as <-. injection Hg' as <-.
        apply Hn1; auto.
      * eapply Hn2; eauto. lia.
    + intros k' j t Hc. rewrite Ho2, Ho1; auto.
      * destruct Hc as [Hc|Hc]; [auto|]. right. destruct (sel j); [|apply andb_false_r]. rewrite andb_true_r in *. lia.
      * destruct Hc as [Hc|Hc]; [auto|]. right. destruct (sel j); [|apply andb_false_r]. rewrite andb_true_r in *. lia.
Qed.

Lemma at_point_nth : forall (phis : list (Z -> X -> A)) xs j phi x,
  nth_error phis j = Some phi -> nth_error xs j = Some x -> nth_error (at_point phis xs) j = Some (fun k => phi k x).
Proof.
  induction phis as [|p phis IH]; intros [|y xs] [|j] phi x H1 H2; simpl in *; try discriminate.
  - injection H1 as ->. injection H2 as ->. reflexivity.
  - apply IH; auto.
Qed.

Lemma length_at_point : forall (phis : list (Z -> X -> A)) xs, List.length xs = List.length phis ->
  List.length (at_point phis xs) = List.length phis.
Proof. intros. unfold at_point. rewrite map_length, combine_length. lia. Qed.

Lemma Forall2_nth_error : forall (B C : Type) (R : B -> C -> Prop) l l' j b c, Forall2 R l l' ->
  nth_error l j = Some b -> nth_error l' j = Some c -> R b c.
Proof.
  intros B C R l l' j b c H. revert j. induction H; intros [|j] H1 H2; simpl in *; try discriminate; [congruence|eauto].
Qed.

Definition eval_basis_k (k : kind) (xs : list X) : M (series S) unit :=
  match k with KVal => se_eval_basis xs | KGrad => se_eval_basis_grad xs | KHess => se_eval_basis_hess xs end.

Lemma sizes_bound : forall bs j b, fit_sizes (sizes bs) -> nth_error bs j = Some b -> bs_size b <= int_max.
Proof.
  intros bs j b (_ & H) Hb. eapply (Forall_nth Z (fun n => n <= int_max) (sizes bs) j); eauto.
  unfold sizes. apply map_nth_error. auto.
Qed.

(** Evaluating all basis sets at a point. *)
Lemma eval_basis_ok : forall bs zero one k phis xs s,
  fit_sizes (sizes bs) -> inv bs zero one s -> implements k bs phis -> List.length xs = List.length bs ->
  exists s', eval_basis_k k xs s = RRet s' tt /\ inv bs zero one s' /\ frame s s' /\
    cached s' (sizes bs) k (at_point phis xs) /\ others k (fun _ => true) s s'.
Proof.
  intros bs zero one k phis xs s Hfit Hi Himp Hxs.
  pose proof (Forall2_len _ _ _ _ _ Himp) as Hlp.
  assert (Hla : List.length (at_point phis xs) = List.length bs) by (rewrite length_at_point; lia).
  destruct (eval_loop bs zero one k (fun _ => true) (at_point phis xs)
     (fun i => do* x := mlift (vget xs i) in on_basis i (pb_eval_k k x) ;;; mret tt) Hla) with (m := List.length bs) (i := 0%nat) (s := s)
    as (s' & E & Hi' & Hf & Hn & Ho).
  - intros s0 j b g Hi0 Hb Hg.
    destruct (nth_error xs j) as [x|] eqn:Ex.
    2:{ apply nth_error_None in Ex. assert (j < List.length bs)%nat by (apply nth_error_Some; congruence). lia. }
    destruct (nth_error phis j) as [phi|] eqn:Ep.
    2:{ apply nth_error_None in Ep. assert (j < List.length bs)%nat by (apply nth_error_Some; congruence). lia. }
    rewrite (at_point_nth _ _ _ _ _ Ep Ex) in Hg. injection Hg as <-.
    destruct (eval_step bs zero one s0 k xs j b x (fun t => phi t x) Hi0 Hb) as (s1 & E1 & Hi1 & Hf1 & Hn1 & Ho1); auto.
    + eapply sizes_bound; eauto.
    + intros t Ht. exact (Forall2_nth_error _ _ _ _ _ _ _ _ Himp Hb Ep t x Ht).
    + exists s1. split; [exact E1|]. split; [auto|]. split; [auto|]. split; [auto|]. intros k' j' t Hc. apply Ho1. destruct Hc; auto. right. lia.
  - lia.
  - exact Hi.
  - exists s'. split; [|split; [auto|split; [auto|split]]].
    + rewrite <- E. pose proof (zseq_order _ _ _ _ Hi) as Hz.
      destruct k; unfold eval_basis_k, se_eval_basis, se_eval_basis_grad, se_eval_basis_hess, mbind at 1, mget; rewrite Hz; reflexivity.
    + split; [unfold sizes; rewrite map_length; lia|].
      intros j n f t Hd Hf' Ht. unfold sizes in Hd.
      destruct (nth_error bs j) as [b|] eqn:Eb.
      * rewrite (map_nth_error bs_size _ _ Eb) in Hd. injection Hd as <-. eapply Hn; eauto.
        assert (j < List.length bs)%nat by (apply nth_error_Some; congruence). lia.
      * apply nth_error_None in Eb. assert (j < List.length (map bs_size bs))%nat by (apply nth_error_Some; congruence).
        rewrite map_length in *. lia.
    + intros k' j t [Hk|Hk]; [|discriminate]. apply Ho. auto.
Qed.

Lemma cached_others : forall s s' dims k k' (sel : Z -> bool) fs, k' <> k -> others k sel s s' -> cached s dims k' fs -> cached s' dims k' fs.
Proof.
  intros s s' dims k k' sel fs Hk Ho (Hl & Hc). split; auto. intros j n f t H1 H2 H3. rewrite Ho by auto. eapply Hc; eauto.
Qed.

(** Factors used by the three sums. *)
Lemma pick_val_ok : forall s dims V j n f t, cached s dims KVal V ->
  nth_error dims j = Some n -> nth_error V j = Some f -> 0 <= t < n -> pick_val s (Z.of_nat j) t = Ok (f t).
Proof. intros s dims V j n f t (_ & Hc) H1 H2 H3. apply (Hc j n f t); auto. Qed.

Lemma nth_error_swap : forall (B : Type) (l l' : list B) i j, 0 <= i -> List.length l = List.length l' ->
  nth_error (swap l i l') j = if Z.of_nat j =? i then nth_error l' j else nth_error l j.
Proof.
  intros B l l' i j Hi Hl. unfold swap. destruct (nth_error l' (Z.to_nat i)) as [b|] eqn:E.
  - destruct (Z.of_nat j =? i) eqn:Ej.
    + replace (Z.to_nat i) with j in * by lia. rewrite E. apply nth_error_lset_same. rewrite Hl. apply nth_error_Some. congruence.
    + apply nth_error_lset_other. lia.
  - destruct (Z.of_nat j =? i) eqn:Ej; auto. replace (Z.to_nat i) with j in * by lia. rewrite E.
    apply nth_error_None. apply nth_error_None in E. lia.
Qed.

Lemma length_swap : forall (B : Type) (l l' : list B) i, List.length (swap l i l') = List.length l.
Proof. intros. unfold swap. destruct (nth_error _ _); auto. apply length_lset. Qed.

Lemma pick_grad_ok : forall s dims V G di j n f t, 0 <= di -> cached s dims KVal V -> cached s dims KGrad G ->
  nth_error dims j = Some n -> nth_error (by1 V G di) j = Some f -> 0 <= t < n -> pick_grad di s (Z.of_nat j) t = Ok (f t).
Proof.
  intros s dims V G di j n f t Hdi (HlV & HV) (HlG & HG) H1 H2 H3. unfold by1 in H2. rewrite nth_error_swap in H2 by lia.
  unfold pick_grad. destruct (Z.of_nat j =? di).
  - apply (HG j n f t); auto.
  - apply (HV j n f t); auto.
Qed.

Lemma pick_hess_ok : forall s dims V G H di dj j n f t, 0 <= di -> 0 <= dj -> cached s dims KVal V ->
  (di <> dj -> cached s dims KGrad G) -> (di = dj -> cached s dims KHess H) ->
  List.length G = List.length dims -> List.length H = List.length dims ->
  nth_error dims j = Some n -> nth_error (by2 V G H di dj) j = Some f -> 0 <= t < n -> pick_hess di dj s (Z.of_nat j) t = Ok (f t).
Proof.
  intros s dims V G H di dj j n f t Hdi Hdj (HlV & HV) HG HH HlG HlH H1 H2 H3. unfold by2 in H2. unfold pick_hess.
  destruct (di =? dj) eqn:E.
  - assert (di = dj) by lia. subst dj. rewrite nth_error_swap in H2 by lia. rewrite orb_diag.
    destruct (Z.of_nat j =? di); [apply (proj2 (HH eq_refl) j n f t); auto|apply (HV j n f t); auto].
  - assert (Hne : di <> dj) by lia. rewrite nth_error_swap in H2 by (rewrite ?length_swap; lia).
    destruct (Z.of_nat j =? dj) eqn:Ej.
    + rewrite orb_true_r. apply (proj2 (HG Hne) j n f t); auto.
    + rewrite orb_false_r. rewrite nth_error_swap in H2 by lia.
      destruct (Z.of_nat j =? di); [apply (proj2 (HG Hne) j n f t); auto|apply (HV j n f t); auto].
Qed.

Lemma length_by2 : forall (B : Type) (V G H : list B) di dj, List.length (by2 V G H di dj) = List.length V.
Proof. intros. unfold by2. destruct (di =? dj); now rewrite ?length_swap. Qed.

Section Known.
Context (bs : list (bset X A)) (zero one : A).
Hypothesis Hfit : fit_sizes (sizes bs).
Local Notation dims := (sizes bs).

Lemma dims_ne : dims <> [].
Proof. destruct Hfit as ((H & _) & _). exact H. Qed.

Lemma calc_val_ok : forall s c V, inv bs zero one s -> coefficients s dims c -> cached s dims KVal V ->
  exists s', calc_val s = RRet s' (tensor_sum S dims c V zero) /\ inv bs zero one s' /\
    se_val s' = Some (tensor_sum S dims c V zero) /\ se_coeff s' = se_coeff s /\ se_basis s' = se_basis s /\
    se_grad s' = se_grad s /\ se_hess s' = se_hess s.
Proof.
  intros s c V Hi Hc HV. pose proof (keeps_calc_val bs zero one s Hi) as Hk.
  unfold calc_val, mbind, mget, mlift, mput, mret in *.
  rewrite (calc_sum_ok (se_coeff s) dims c V (se_zero s) (pick_val s)) in *; eauto using inv_wf, inv_dim, dims_ne.
  - rewrite (inv_zero _ _ _ _ Hi) in *. eexists; split; [reflexivity|]. split; [exact Hk|]. auto.
  - apply HV.
  - intros; eapply pick_val_ok; eauto.
  - apply HV.
  - intros; eapply pick_val_ok; eauto.
Qed.

Lemma calc_grad_ok : forall s c V G di, inv bs zero one s -> coefficients s dims c -> cached s dims KVal V -> cached s dims KGrad G ->
  0 <= di < Z.of_nat (List.length bs) ->
  exists s', calc_grad_val di s = RRet s' (tensor_sum S dims c (by1 V G di) zero) /\ inv bs zero one s' /\
    se_val s' = se_val s /\ se_coeff s' = se_coeff s /\ se_basis s' = se_basis s /\
    se_grad s' = lset (se_grad s) (Z.to_nat di) (tensor_sum S dims c (by1 V G di) zero) /\ se_hess s' = se_hess s.
Proof.
  intros s c V G di Hi Hc HV HG Hdi. pose proof (keeps_calc_grad bs zero one di s Hi) as Hk.
  unfold calc_grad_val, mbind, mget, mlift, mput, mret in *.
  assert (Hvs : forall a, vset (se_grad s) di a = Ok (lset (se_grad s) (Z.to_nat di) a)).
  { intros a. unfold vset. rewrite (inv_grad _ _ _ _ Hi). replace ((0 <=? di) && (di <? Z.of_nat (List.length bs))) with true by lia.
    reflexivity. }
  rewrite Hvs in *.
  rewrite (calc_sum_ok (se_coeff s) dims c (by1 V G di) (se_zero s) (pick_grad di s)) in *; eauto using inv_wf, inv_dim, dims_ne.
  - rewrite (inv_zero _ _ _ _ Hi) in *. rewrite Hvs in *. eexists; split; [reflexivity|]. split; [exact Hk|]. simpl. auto.
  - unfold by1. rewrite length_swap. apply HV.
  - intros; eapply pick_grad_ok; eauto. lia.
  - unfold by1. rewrite length_swap. apply HV.
  - intros; eapply pick_grad_ok; eauto. lia.
Qed.

Lemma calc_hess_ok : forall s c V G H di dj, inv bs zero one s -> coefficients s dims c -> cached s dims KVal V ->
  (di <> dj -> cached s dims KGrad G) -> (di = dj -> cached s dims KHess H) ->
  List.length G = List.length dims -> List.length H = List.length dims ->
  0 <= di < Z.of_nat (List.length bs) -> 0 <= dj < Z.of_nat (List.length bs) ->
  exists s' row, calc_hess_val di dj s = RRet s' (tensor_sum S dims c (by2 V G H di dj) zero) /\ inv bs zero one s' /\
    se_val s' = se_val s /\ se_coeff s' = se_coeff s /\ se_basis s' = se_basis s /\ se_grad s' = se_grad s /\
    vget (se_hess s) di = Ok row /\ List.length row = List.length bs /\
    se_hess s' = lset (se_hess s) (Z.to_nat di) (lset row (Z.to_nat dj) (tensor_sum S dims c (by2 V G H di dj) zero)).
Proof.
  intros s c V G H di dj Hi Hc HV HG HH HlG HlH Hdi Hdj. pose proof (keeps_calc_hess bs zero one di dj s Hi) as Hk.
  unfold calc_hess_val, mbind, mget, mlift, mput, mret in *.
  destruct (proj2 (vget_ok_iff _ (se_hess s) di)) as (row & Hrow); [rewrite (inv_hess _ _ _ _ Hi); lia|].
  rewrite Hrow in *.
  assert (Hlr : List.length row = List.length bs).
  { apply vget_some in Hrow as [_ Hrow]. exact (SeriesP.Forall_nth _ _ _ _ _ (inv_rows _ _ _ _ Hi) Hrow). }
  assert (Hvs : forall a, vset row dj a = Ok (lset row (Z.to_nat dj) a)).
  { intros a. unfold vset. rewrite Hlr. replace ((0 <=? dj) && (dj <? Z.of_nat (List.length bs))) with true by lia. reflexivity. }
  assert (Hvh : forall a, vset (se_hess s) di a = Ok (lset (se_hess s) (Z.to_nat di) a)).
  { intros a. unfold vset. rewrite (inv_hess _ _ _ _ Hi). replace ((0 <=? di) && (di <? Z.of_nat (List.length bs))) with true by lia.
    reflexivity. }
  rewrite Hvs in *.
  assert (Hsum : calc_sum (pick_hess di dj s) (se_coeff s) (se_zero s) = Ok (tensor_sum S dims c (by2 V G H di dj) zero)).
  { rewrite <- (inv_zero _ _ _ _ Hi). apply calc_sum_ok; eauto using inv_wf, inv_dim, dims_ne.
    - rewrite length_by2. apply HV.
    - intros j n f t E1 E2 E3. apply (pick_hess_ok s dims V G H di dj j n f t); auto; lia. }
  rewrite Hsum in *. rewrite Hvs in *. rewrite Hvh in *. eexists; exists row. split; [reflexivity|]. split; [exact Hk|].
  simpl. repeat split; auto.
Qed.

Lemma coefficients_same : forall s s' c, se_coeff s' = se_coeff s -> coefficients s dims c -> coefficients s' dims c.
Proof. intros s s' c E H. unfold coefficients. rewrite E. exact H. Qed.

Lemma cached_same : forall s s' k fs, se_basis s' = se_basis s -> cached s dims k fs -> cached s' dims k fs.
Proof.
  intros s s' k fs E (Hl & H). split; auto. intros j n f t H1 H2 H3. rewrite <- (H j n f t H1 H2 H3).
  unfold stored_basis, se_get_basis, se_get_basis_grad, se_get_basis_hess, basis_get. now rewrite E.
Qed.

(** operator()(var) *)
Lemma call_ok : forall s c phis xs, inv bs zero one s -> coefficients s dims c -> implements KVal bs phis ->
  List.length xs = List.length bs ->
  exists s', se_call xs s = RRet s' (tensor_sum S dims c (at_point phis xs) zero) /\ inv bs zero one s' /\
    se_get s' = Ok (tensor_sum S dims c (at_point phis xs) zero) /\ se_coeff s' = se_coeff s /\
    cached s' dims KVal (at_point phis xs) /\ others KVal (fun _ => true) s s' /\
    se_grad s' = se_grad s /\ se_hess s' = se_hess s.
Proof.
  intros s c phis xs Hi Hc Himp Hxs.
  destruct (eval_basis_ok bs zero one KVal phis xs s Hfit Hi Himp Hxs) as (s1 & E1 & Hi1 & (F1 & F2 & F3 & F4) & Hc1 & Ho1).
  destruct (calc_val_ok s1 c (at_point phis xs) Hi1 (coefficients_same _ _ _ F1 Hc) Hc1) as (s2 & E2 & Hi2 & V2 & C2 & B2 & G2 & H2).
  exists s2. split; [|split; [auto|split; [|split; [congruence|split; [|split; [|split; congruence]]]]]].
  - unfold se_call, mbind. change (se_eval_basis xs s) with (eval_basis_k KVal xs s). rewrite E1. exact E2.
  - unfold se_get. rewrite V2. reflexivity.
  - now apply cached_same with s1.
  - intros k' j t Hk. rewrite <- (Ho1 k' j t Hk).
    unfold stored_basis, se_get_basis, se_get_basis_grad, se_get_basis_hess, basis_get. now rewrite B2.
Qed.

(** The loop of eval_grad. *)
Lemma grad_loop : forall c V G m i s, inv bs zero one s -> coefficients s dims c -> cached s dims KVal V -> cached s dims KGrad G ->
  (i + m <= List.length bs)%nat ->
  exists s', mfor (map Z.of_nat (seq i m)) (fun i => calc_grad_val i ;;; mret tt) s = RRet s' tt /\ inv bs zero one s' /\
    se_val s' = se_val s /\ se_coeff s' = se_coeff s /\ se_basis s' = se_basis s /\ se_hess s' = se_hess s /\
    (forall j, (i <= j < i + m)%nat -> se_get_grad s' (Z.of_nat j) = Ok (tensor_sum S dims c (by1 V G (Z.of_nat j)) zero)) /\
    (forall j, ~ (i <= j < i + m)%nat -> se_get_grad s' (Z.of_nat j) = se_get_grad s (Z.of_nat j)).
Proof.
  intros c V G m. induction m as [|m IH]; intros i s Hi Hc HV HG Him.
  - exists s. simpl. repeat split; auto; try apply Hi. intros; lia.
  - destruct (calc_grad_ok s c V G (Z.of_nat i) Hi Hc HV HG ltac:(lia)) as (s1 & E1 & Hi1 & V1 & C1 & B1 & G1 & H1).
    destruct (IH (Datatypes.S i) s1) as (s2 & E2 & Hi2 & V2 & C2 & B2 & H2 & N2 & O2); auto; try lia.
    + eapply coefficients_same; eauto.
    + eapply cached_same; eauto.
    + eapply cached_same; eauto.
    + rewrite Nat2Z.id in G1. exists s2. repeat split; try congruence; try apply Hi2.
      * simpl. unfold mbind at 1. unfold mbind at 1. rewrite E1. unfold mret at 1. exact E2.
      * intros j Hj. destruct (Nat.eq_dec j i) as [->|Hji]; [|apply N2; lia].
        rewrite O2 by lia. unfold se_get_grad. rewrite G1, vget_nat, nth_error_lset_same; auto.
        rewrite (inv_grad _ _ _ _ Hi). lia.
      * intros j Hj. rewrite O2 by lia. unfold se_get_grad. rewrite G1, !vget_nat, nth_error_lset_other by lia. reflexivity.
Qed.

(** eval_grad(var) *)
Lemma eval_grad_ok : forall s c phis dphis xs, inv bs zero one s -> coefficients s dims c ->
  implements KVal bs phis -> implements KGrad bs dphis -> List.length xs = List.length bs ->
  exists s', se_eval_grad xs s = RRet s' tt /\ inv bs zero one s' /\ se_coeff s' = se_coeff s /\ se_val s' = se_val s /\
    se_hess s' = se_hess s /\
    (forall i, 0 <= i < Z.of_nat (List.length bs) ->
       se_get_grad s' i = Ok (tensor_sum S dims c (by1 (at_point phis xs) (at_point dphis xs) i) zero)) /\
    cached s' dims KVal (at_point phis xs) /\ cached s' dims KGrad (at_point dphis xs).
Proof.
  intros s c phis dphis xs Hi Hc Hp Hd Hxs.
  destruct (eval_basis_ok bs zero one KVal phis xs s Hfit Hi Hp Hxs) as (s1 & E1 & Hi1 & (F1 & F2 & F3 & F4) & Hc1 & Ho1).
  destruct (eval_basis_ok bs zero one KGrad dphis xs s1 Hfit Hi1 Hd Hxs) as (s2 & E2 & Hi2 & (K1 & K2 & K3 & K4) & Hc2 & Ho2).
  assert (HV2 : cached s2 dims KVal (at_point phis xs)) by (eapply cached_others; eauto; discriminate).
  destruct (grad_loop c (at_point phis xs) (at_point dphis xs) (List.length bs) 0 s2) as (s3 & E3 & Hi3 & V3 & C3 & B3 & H3 & N3 & _); auto.
  { eapply coefficients_same; [|exact Hc]. congruence. }
  exists s3. repeat split; try congruence; try apply Hi3.
  - unfold se_eval_grad. unfold mbind at 1. change (se_eval_basis xs s) with (eval_basis_k KVal xs s). rewrite E1.
    unfold mbind at 1. change (se_eval_basis_grad xs s1) with (eval_basis_k KGrad xs s1). rewrite E2.
    unfold mbind at 1, mget. rewrite (zseq_order _ _ _ _ Hi2). exact E3.
  - intros i Hi'. replace i with (Z.of_nat (Z.to_nat i)) by lia. apply N3. lia.
  - apply HV2.
  - apply (cached_same _ _ _ _ B3 HV2).
  - apply Hc2.
  - apply (cached_same _ _ _ _ B3 Hc2).
Qed.

Lemma row_loop : forall c V G H i m j0 s, inv bs zero one s -> coefficients s dims c -> cached s dims KVal V -> cached s dims KGrad G ->
  cached s dims KHess H -> (i < List.length bs)%nat -> (j0 + m <= List.length bs)%nat ->
  exists s', mfor (map Z.of_nat (seq j0 m)) (fun j => calc_hess_val (Z.of_nat i) j ;;; mret tt) s = RRet s' tt /\ inv bs zero one s' /\
    se_val s' = se_val s /\ se_coeff s' = se_coeff s /\ se_basis s' = se_basis s /\ se_grad s' = se_grad s /\
    (forall j, (j0 <= j < j0 + m)%nat ->
       se_get_hess s' (Z.of_nat i) (Z.of_nat j) = Ok (tensor_sum S dims c (by2 V G H (Z.of_nat i) (Z.of_nat j)) zero)) /\
    (forall i' j, i' <> i \/ ~ (j0 <= j < j0 + m)%nat ->
       se_get_hess s' (Z.of_nat i') (Z.of_nat j) = se_get_hess s (Z.of_nat i') (Z.of_nat j)).
Proof.
  intros c V G H i m. induction m as [|m IH]; intros j0 s Hi Hc HV HG HH Hib Him.
  - exists s. simpl. repeat split; auto; try apply Hi. intros; lia.
  - destruct (calc_hess_ok s c V G H (Z.of_nat i) (Z.of_nat j0) Hi Hc HV (fun _ => HG) (fun _ => HH) (proj1 HG) (proj1 HH) ltac:(lia) ltac:(lia))
      as (s1 & row & E1 & Hi1 & V1 & C1 & B1 & G1 & R1 & L1 & H1).
    destruct (IH (Datatypes.S j0) s1) as (s2 & E2 & Hi2 & V2 & C2 & B2 & G2 & N2 & O2); auto; try lia.
    + eapply coefficients_same; eauto.
    + eapply cached_same; eauto.
    + eapply cached_same; eauto.
    + eapply cached_same; eauto.
    + rewrite !Nat2Z.id in H1. rewrite vget_nat in R1. destruct (nth_error (se_hess s) i) as [row'|] eqn:Er; [|discriminate].
      injection R1 as ->.
      exists s2. repeat split; try congruence; try apply Hi2.
      * simpl. unfold mbind at 1. unfold mbind at 1. rewrite E1. unfold mret at 1. exact E2.
      * intros j Hj. destruct (Nat.eq_dec j j0) as [->|Hji]; [|apply N2; lia].
        rewrite O2 by lia. unfold se_get_hess. rewrite H1, vget_nat, nth_error_lset_same.
        -- simpl. rewrite vget_nat, nth_error_lset_same; auto. lia.
        -- rewrite (inv_hess _ _ _ _ Hi). lia.
      * intros i' j Hij. rewrite O2 by (destruct Hij; [auto|right; lia]). unfold se_get_hess. rewrite H1, !vget_nat.
        destruct (Nat.eq_dec i' i) as [->|Hii].
        -- rewrite nth_error_lset_same, Er by (rewrite (inv_hess _ _ _ _ Hi); lia). simpl.
           rewrite !vget_nat, nth_error_lset_other; auto. destruct Hij; [congruence|lia].
        -- rewrite nth_error_lset_other by auto. reflexivity.
Qed.

Lemma hess_loop : forall c V G H m i s, inv bs zero one s -> coefficients s dims c -> cached s dims KVal V -> cached s dims KGrad G ->
  cached s dims KHess H -> (i + m <= List.length bs)%nat ->
  exists s', mfor (map Z.of_nat (seq i m)) (fun i => mfor (map Z.of_nat (seq 0 (List.length bs))) (fun j => calc_hess_val i j ;;; mret tt)) s
               = RRet s' tt /\ inv bs zero one s' /\
    se_val s' = se_val s /\ se_coeff s' = se_coeff s /\ se_basis s' = se_basis s /\ se_grad s' = se_grad s /\
    (forall i' j, (i <= i' < i + m)%nat -> (j < List.length bs)%nat ->
       se_get_hess s' (Z.of_nat i') (Z.of_nat j) = Ok (tensor_sum S dims c (by2 V G H (Z.of_nat i') (Z.of_nat j)) zero)) /\
    (forall i' j, ~ (i <= i' < i + m)%nat ->
       se_get_hess s' (Z.of_nat i') (Z.of_nat j) = se_get_hess s (Z.of_nat i') (Z.of_nat j)).
Proof.
  intros c V G H m. induction m as [|m IH]; intros i s Hi Hc HV HG HH Him.
  - exists s. simpl. repeat split; auto; try apply Hi. intros; lia.
  - destruct (row_loop c V G H i (List.length bs) 0 s) as (s1 & E1 & Hi1 & V1 & C1 & B1 & G1 & N1 & O1); auto; try lia.
    destruct (IH (Datatypes.S i) s1) as (s2 & E2 & Hi2 & V2 & C2 & B2 & G2 & N2 & O2); auto; try lia.
    + eapply coefficients_same; eauto.
    + eapply cached_same; eauto.
    + eapply cached_same; eauto.
    + eapply cached_same; eauto.
    + exists s2. repeat split; try congruence; try apply Hi2.
      * simpl. unfold mbind at 1. rewrite E1. exact E2.
      * intros i' j Hi' Hj. destruct (Nat.eq_dec i' i) as [->|Hii]; [|apply N2; lia].
        rewrite O2 by lia. apply N1. lia.
      * intros i' j Hi'. rewrite O2 by lia. apply O1. left. lia.
Qed.

(** eval_hess(var) *)
Lemma eval_hess_ok : forall s c phis dphis ddphis xs, inv bs zero one s -> coefficients s dims c ->
  implements KVal bs phis -> implements KGrad bs dphis -> implements KHess bs ddphis -> List.length xs = List.length bs ->
  exists s', se_eval_hess xs s = RRet s' tt /\ inv bs zero one s' /\ se_coeff s' = se_coeff s /\ se_val s' = se_val s /\
    se_grad s' = se_grad s /\
    (forall i j, 0 <= i < Z.of_nat (List.length bs) -> 0 <= j < Z.of_nat (List.length bs) ->
       se_get_hess s' i j =
       Ok (tensor_sum S dims c (by2 (at_point phis xs) (at_point dphis xs) (at_point ddphis xs) i j) zero)).
Proof.
  intros s c phis dphis ddphis xs Hi Hc Hp Hd Hdd Hxs.
  destruct (eval_basis_ok bs zero one KVal phis xs s Hfit Hi Hp Hxs) as (s1 & E1 & Hi1 & (F1 & F2 & F3 & F4) & Hc1 & Ho1).
  destruct (eval_basis_ok bs zero one KGrad dphis xs s1 Hfit Hi1 Hd Hxs) as (s2 & E2 & Hi2 & (K1 & K2 & K3 & K4) & Hc2 & Ho2).
  destruct (eval_basis_ok bs zero one KHess ddphis xs s2 Hfit Hi2 Hdd Hxs) as (s3 & E3 & Hi3 & (L1 & L2 & L3 & L4) & Hc3 & Ho3).
  assert (HV2 : cached s2 dims KVal (at_point phis xs)) by (eapply cached_others; eauto; discriminate).
  assert (HV3 : cached s3 dims KVal (at_point phis xs)) by (eapply cached_others; eauto; discriminate).
  assert (HG3 : cached s3 dims KGrad (at_point dphis xs)) by (eapply cached_others; eauto; discriminate).
  destruct (hess_loop c (at_point phis xs) (at_point dphis xs) (at_point ddphis xs) (List.length bs) 0 s3)
    as (s4 & E4 & Hi4 & V4 & C4 & B4 & G4 & N4 & _); auto.
  { eapply coefficients_same; [|exact Hc]. congruence. }
  exists s4. repeat split; try congruence; try apply Hi4.
  - unfold se_eval_hess. unfold mbind at 1. change (se_eval_basis xs s) with (eval_basis_k KVal xs s). rewrite E1.
    unfold mbind at 1. change (se_eval_basis_grad xs s1) with (eval_basis_k KGrad xs s1). rewrite E2.
    unfold mbind at 1. change (se_eval_basis_hess xs s2) with (eval_basis_k KHess xs s2). rewrite E3.
    unfold mbind at 1, mget. rewrite (zseq_order _ _ _ _ Hi3). exact E4.
  - intros i j Hi' Hj. replace i with (Z.of_nat (Z.to_nat i)) by lia. replace j with (Z.of_nat (Z.to_nat j)) by lia. apply N4; lia.
Qed.

End Known.
End Eval.
