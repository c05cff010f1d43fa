(** Series over the reals: sums, derivatives, linearity. *)
From Coq Require Import ZArith Reals.
From Coquelicot Require Import Coquelicot.
From Coq Require Import List Bool Lia ZifyBool Lra.
From Verif Require Import Model.Outcome Model.Num Model.NumInst Model.PNDArray Model.BasisSet Model.Series Spec.Tensor Spec.Basis
  Spec.Series Proofs.OutcomeP Proofs.PNDArrayP Proofs.BasisP Proofs.SeriesSumP Proofs.SeriesP Proofs.SeriesEvalP.
Import ListNotations.
Local Open Scope Z_scope.

Definition RS : SerOps := num_series ROps.

Definition rsuml (l : list R) : R := fold_right Rplus 0%R l.

Lemma fold_plus : forall (l : list R) a, fold_left Rplus l a = (a + rsuml l)%R.
Proof. induction l as [|x l IH]; intros a; simpl; [unfold rsuml; simpl; ring|]. rewrite IH. unfold rsuml; simpl. ring. Qed.

Lemma fold_mult : forall (l : list R) a, fold_left Rmult l a = (a * product l)%R.
Proof. induction l as [|x l IH]; intros a; simpl; [unfold product; simpl; ring|]. rewrite IH. unfold product; simpl. ring. Qed.

Lemma rsuml_app : forall l l', rsuml (l ++ l') = (rsuml l + rsuml l')%R.
Proof. induction l as [|x l IH]; intros l'; unfold rsuml in *; simpl; [ring|]. rewrite IH. ring. Qed.

Lemma rsuml_tuples : forall dims F, rsuml (map F (tuples dims)) = nested_sum dims F.
Proof.
  induction dims as [|d ds IH]; intros F; simpl.
  - unfold rsuml; simpl. ring.
  - induction (upto d) as [|i l IHl]; simpl; [reflexivity|].
    rewrite map_app, rsuml_app, map_map. rewrite IHl. f_equal. rewrite <- IH. reflexivity.
Qed.

(** The sum the code forms is the nested sum. *)
Lemma tensor_sum_R : forall dims (c : list Z -> R) (fs : list (Z -> R)),
  tensor_sum RS dims c fs 0%R = nested_sum dims (fun t => (c t * product (factors fs t))%R).
Proof.
  intros dims c fs. unfold tensor_sum. rewrite <- rsuml_tuples.
  change (sadd RS) with Rplus. change (smul RS) with Rmult. change (sa RS) with R. rewrite fold_plus.
  transitivity (rsuml (map (fun t => fold_left Rmult (factors fs t) (c t)) (tuples dims))); [ring|].
  f_equal. apply map_ext. intros t. apply fold_mult.
Qed.

Lemma nested_ext : forall dims F G, (forall t, valid_index dims t -> F t = G t) -> nested_sum dims F = nested_sum dims G.
Proof.
  induction dims as [|d ds IH]; intros F G H; simpl.
  - apply H. constructor.
  - f_equal. apply map_ext_in. intros i Hi. apply IH. intros t Ht. apply H. constructor; auto.
    unfold upto in Hi. apply in_map_iff in Hi as (m & <- & Hm). apply in_seq in Hm. lia.
Qed.

Lemma nested_linear : forall dims F G a b,
  nested_sum dims (fun t => (a * F t + b * G t)%R) = (a * nested_sum dims F + b * nested_sum dims G)%R.
Proof.
  induction dims as [|d ds IH]; intros F G a b; simpl; [reflexivity|].
  induction (upto d) as [|i l IHl]; simpl; [ring|]. rewrite IHl, IH. ring.
Qed.

Lemma nested_zero : forall dims, nested_sum dims (fun _ => 0%R) = 0%R.
Proof.
  induction dims as [|d ds IH]; simpl; [reflexivity|].
  induction (upto d) as [|i l IHl]; simpl; [reflexivity|]. rewrite IHl, IH. ring.
Qed.

Lemma nested_derive : forall dims (F : list Z -> R -> R) (F' : list Z -> R) u,
  (forall t, valid_index dims t -> is_derive (F t) u (F' t)) ->
  is_derive (fun v => nested_sum dims (fun t => F t v)) u (nested_sum dims F').
Proof.
  induction dims as [|d ds IH]; intros F F' u H; simpl.
  - apply H. constructor.
  - assert (Hin : forall i, In i (upto d) -> 0 <= i < d).
    { intros i Hi. unfold upto in Hi. apply in_map_iff in Hi as (m & <- & Hm). apply in_seq in Hm. lia. }
    induction (upto d) as [|i l IHl]; simpl.
    + apply (is_derive_const (V := R_NormedModule)).
    + apply (is_derive_plus (V := R_NormedModule)).
      * apply (IH (fun t => F (i :: t)) (fun t => F' (i :: t))). intros t Ht. apply H. constructor; auto. apply Hin. left; auto.
      * apply IHl. intros j Hj. apply Hin. right; auto.
Qed.

(** ** Products with one factor replaced *)
Lemma product_derive : forall (phis dphis : list (Z -> R -> R)) (xs : list R) (t : list Z) i (u : R) (d phi : Z -> R -> R) k,
  List.length phis = List.length dphis -> List.length xs = List.length phis -> List.length t = List.length phis ->
  nth_error phis i = Some phi -> nth_error dphis i = Some d -> nth_error t i = Some k -> nth_error xs i = Some u ->
  is_derive (phi k) u (d k u) ->
  is_derive (fun v => product (factors (at_point phis (lset xs i v)) t)) u
            (product (factors (by1 (at_point phis xs) (at_point dphis xs) (Z.of_nat i)) t)).
Proof.
  intros phis. induction phis as [|p phis IH]; intros [|dp dphis] [|x xs] [|k0 t] i u d phi k H1 H2 H3 Hphi Hd Hk Hx Hder;
    simpl in H1, H2, H3; try discriminate; [destruct i; discriminate|].
  destruct i as [|i].
  - simpl in *. injection Hphi as ->. injection Hd as ->. injection Hk as ->. injection Hx as ->.
    change (is_derive (fun v : R => (phi k v * product (factors (at_point phis xs) t))%R) u
              (d k u * product (factors (at_point phis xs) t))%R).
    set (rest := product (factors (at_point phis xs) t)).
    apply is_derive_ext with (f := fun v : R => (rest * phi k v)%R); [intros; simpl; ring|].
    replace (d k u * rest)%R with (rest * d k u)%R by ring.
    apply (is_derive_scal (fun v => phi k v) u rest (d k u)). exact Hder.
  - simpl in Hphi, Hd, Hk, Hx. injection H1 as H1. injection H2 as H2. injection H3 as H3.
    specialize (IH dphis xs t i u d phi k H1 H2 H3 Hphi Hd Hk Hx Hder).
    assert (Hby : by1 (at_point (p :: phis) (x :: xs)) (at_point (dp :: dphis) (x :: xs)) (Z.of_nat (S i)) =
                  (fun k => p k x) :: by1 (at_point phis xs) (at_point dphis xs) (Z.of_nat i)).
    { unfold by1, swap. rewrite !Nat2Z.id. change (nth_error (at_point (dp :: dphis) (x :: xs)) (S i)) with (nth_error (at_point dphis xs) i).
      change (at_point (p :: phis) (x :: xs)) with ((fun k => p k x) :: at_point phis xs).
      destruct (nth_error (at_point dphis xs) i); reflexivity. }
    rewrite Hby.
    change (fun v : R => product (factors (at_point (p :: phis) (lset (x :: xs) (S i) v)) (k0 :: t)))
      with (fun v : R => (p k0 x * product (factors (at_point phis (lset xs i v)) t))%R).
    change (product (factors ((fun k => p k x) :: by1 (at_point phis xs) (at_point dphis xs) (Z.of_nat i)) (k0 :: t)))
      with (p k0 x * product (factors (by1 (at_point phis xs) (at_point dphis xs) (Z.of_nat i)) t))%R.
    apply (is_derive_scal (fun v : R => product (factors (at_point phis (lset xs i v)) t)) u (p k0 x)). exact IH.
Qed.

(** Differentiation and evaluation at a point commute. *)
Lemma at_point_swap : forall (phis dphis : list (Z -> R -> R)) xs i, 0 <= i -> List.length phis = List.length dphis ->
  List.length xs = List.length phis ->
  at_point (swap phis i dphis) xs = swap (at_point phis xs) i (at_point dphis xs).
Proof.
  intros phis dphis xs i Hi Hl Hx. apply nth_error_inj. intros j.
  assert (Hn : forall (f : list (Z -> R -> R)), List.length xs = List.length f -> nth_error (at_point f xs) j =
     match nth_error f j, nth_error xs j with Some p, Some x => Some (fun k => p k x) | _, _ => None end).
  { clear. intros f. revert xs j. induction f as [|p f IH]; intros [|x xs] [|j] H; simpl in *; try discriminate; auto. apply IH. lia. }
  rewrite nth_error_swap by (unfold at_point; rewrite ?map_length, ?combine_length; lia).
  rewrite (Hn (swap phis i dphis)) by (now rewrite length_swap). rewrite (Hn phis), (Hn dphis) by lia.
  rewrite nth_error_swap by lia. destruct (Z.of_nat j =? i); reflexivity.
Qed.

Lemma valid_nth : forall dims t j, valid_index dims t -> (j < List.length dims)%nat -> exists k, nth_error t j = Some k.
Proof.
  intros dims t j H Hj. destruct (nth_error t j) as [k|] eqn:E; [eauto|]. apply nth_error_None in E.
  rewrite (valid_index_length _ _ H) in E. lia.
Qed.

(** The gradient formula is the partial derivative. *)
Lemma series_partial : forall dims c (phis dphis : list (Z -> R -> R)) (xs : list R) i,
  derivatives phis dphis -> List.length phis = List.length dims -> List.length xs = List.length dims ->
  0 <= i < Z.of_nat (List.length dims) ->
  partial (series_fun dims c phis) i xs (series_fun dims c (swap phis i dphis) xs).
Proof.
  intros dims c phis dphis xs i Hd Hlp Hlx Hi. assert (Hld : List.length phis = List.length dphis) by exact (Forall2_len _ _ _ _ _ Hd).
  destruct (nth_error xs (Z.to_nat i)) as [u|] eqn:Ex; [|apply nth_error_None in Ex; lia].
  destruct (nth_error phis (Z.to_nat i)) as [phi|] eqn:Ep; [|apply nth_error_None in Ep; lia].
  destruct (nth_error dphis (Z.to_nat i)) as [d|] eqn:Ed; [|apply nth_error_None in Ed; lia].
  exists u. split; [auto|]. unfold series_fun.
  apply (nested_derive dims (fun t v => (c t * product (factors (at_point phis (lset xs (Z.to_nat i) v)) t))%R)).
  intros t Ht. destruct (valid_nth dims t (Z.to_nat i) Ht) as (k & Hk); [lia|].
  rewrite at_point_swap by lia.
  apply (is_derive_scal (fun v : R => product (factors (at_point phis (lset xs (Z.to_nat i) v)) t)) u (c t)).
  assert (P := product_derive phis dphis xs t (Z.to_nat i) u d phi k Hld ltac:(lia)
    ltac:(rewrite (valid_index_length _ _ Ht); lia) Ep Ed Hk Ex (Forall2_nth_error _ _ _ _ _ _ _ _ Hd Ep Ed k u)).
  rewrite Z2Nat.id in P by lia. exact P.
Qed.

Lemma derivatives_swap : forall (phis dphis ddphis : list (Z -> R -> R)) i, 0 <= i -> derivatives phis dphis -> derivatives dphis ddphis ->
  derivatives (swap phis i dphis) (swap dphis i ddphis).
Proof.
  intros phis dphis ddphis i Hi H1 H2. assert (List.length phis = List.length dphis) by exact (Forall2_len _ _ _ _ _ H1).
  assert (List.length dphis = List.length ddphis) by exact (Forall2_len _ _ _ _ _ H2).
  unfold derivatives. apply Forall2_nth; [rewrite !length_swap; lia|].
  intros j a b Ha Hb. rewrite nth_error_swap in Ha, Hb by lia. destruct (Z.of_nat j =? i).
  - exact (Forall2_nth_error _ _ _ _ _ _ _ _ H2 Ha Hb).
  - exact (Forall2_nth_error _ _ _ _ _ _ _ _ H1 Ha Hb).
Qed.

Lemma series_second : forall dims c (phis dphis ddphis : list (Z -> R -> R)) (xs : list R) i j,
  derivatives phis dphis -> derivatives dphis ddphis -> List.length phis = List.length dims -> List.length xs = List.length dims ->
  0 <= i < Z.of_nat (List.length dims) -> 0 <= j < Z.of_nat (List.length dims) ->
  second (series_fun dims c phis) i j xs (series_fun dims c (by2 phis dphis ddphis i j) xs).
Proof.
  intros dims c phis dphis ddphis xs i j H1 H2 Hlp Hlx Hi Hj.
  assert (List.length phis = List.length dphis) by exact (Forall2_len _ _ _ _ _ H1).
  assert (List.length dphis = List.length ddphis) by exact (Forall2_len _ _ _ _ _ H2).
  exists (series_fun dims c (swap phis i dphis)). split.
  - intros y Hy. apply series_partial; auto. lia.
  - assert (Hby : by2 phis dphis ddphis i j = swap (swap phis i dphis) j (swap dphis i ddphis)).
    { apply nth_error_inj. intros k. unfold by2. destruct (i =? j) eqn:E.
      - assert (i = j) by lia. subst j. rewrite !nth_error_swap by (rewrite ?length_swap; lia).
        destruct (Z.of_nat k =? i); auto.
      - rewrite !nth_error_swap by (rewrite ?length_swap; lia).
        destruct (Z.of_nat k =? j) eqn:E1, (Z.of_nat k =? i) eqn:E2; auto. lia. }
    rewrite Hby. apply series_partial; auto.
    + apply derivatives_swap; auto. lia.
    + now rewrite length_swap.
Qed.

Lemma at_point_by2 : forall (phis dphis ddphis : list (Z -> R -> R)) xs i j, 0 <= i -> 0 <= j ->
  List.length phis = List.length dphis -> List.length phis = List.length ddphis -> List.length xs = List.length phis ->
  at_point (by2 phis dphis ddphis i j) xs = by2 (at_point phis xs) (at_point dphis xs) (at_point ddphis xs) i j.
Proof.
  intros phis dphis ddphis xs i j Hi Hj H1 H2 Hx. unfold by2. destruct (i =? j).
  - apply at_point_swap; auto; lia.
  - rewrite at_point_swap by (rewrite ?length_swap; lia). rewrite at_point_swap by lia. reflexivity.
Qed.

(** Mixed second derivatives do not depend on the order, in any arithmetic. *)
Lemma by2_sym : forall (B : Type) (V G H : list B) i j, 0 <= i -> 0 <= j -> List.length V = List.length G ->
  List.length V = List.length H -> by2 V G H i j = by2 V G H j i.
Proof.
  intros B V G H i j Hi Hj H1 H2. unfold by2. rewrite (Z.eqb_sym j i). destruct (i =? j) eqn:E.
  - replace j with i by lia. reflexivity.
  - apply nth_error_inj. intros k. rewrite !nth_error_swap by (rewrite ?length_swap; lia).
    destruct (Z.of_nat k =? i) eqn:E1, (Z.of_nat k =? j) eqn:E2; auto.
Qed.

(** Linearity in the coefficients. *)
Lemma tensor_sum_linear : forall dims (c c' : list Z -> R) a b fs,
  tensor_sum RS dims (fun t => (a * c t + b * c' t)%R) fs 0%R =
  (a * tensor_sum RS dims c fs 0 + b * tensor_sum RS dims c' fs 0)%R.
Proof.
  intros dims c c' a b fs. rewrite !tensor_sum_R. rewrite <- nested_linear. apply nested_ext. intros t _. ring.
Qed.

Lemma tensor_sum_zero : forall dims fs, tensor_sum RS dims (fun _ => 0%R) fs 0%R = 0%R.
Proof.
  intros dims fs. rewrite tensor_sum_R. transitivity (nested_sum dims (fun _ => 0%R)); [|apply nested_zero]. apply nested_ext. intros; ring.
Qed.
