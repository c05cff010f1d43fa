(** Series over the reals: the products of one term and their derivatives; a concrete case. *)
From Coq Require Import ZArith Reals.
From Coquelicot Require Import Coquelicot.
From Coq Require Import List Bool Lia ZifyBool Lra.
From Verif Require Import Model.Outcome Model.Num Model.NumInst Model.PNDArray Model.BasisSet Model.Series Spec.Tensor Spec.NDHistory
  Spec.Basis Spec.Series Spec.Products Proofs.OutcomeP Proofs.PNDArrayP Proofs.BasisP Proofs.SeriesSumP Proofs.SeriesP
  Proofs.SeriesEvalP Proofs.SeriesOneP Proofs.SeriesRP Proofs.SeriesClientP Proofs.SeriesProductP Proofs.SeriesExamples.
Import ListNotations.
Local Open Scope Z_scope.

Lemma product_partial : forall (phis dphis : list (Z -> R -> R)) (t : list Z) (xs : list R) i,
  derivatives phis dphis -> List.length t = List.length phis -> List.length xs = List.length phis -> 0 <= i < Z.of_nat (List.length phis) ->
  partial (product_fun phis t) i xs (product_fun (swap phis i dphis) t xs).
Proof.
  intros phis dphis t xs i Hd Hlt Hlx Hi. assert (Hld : List.length phis = List.length dphis) by exact (Forall2_len _ _ _ _ _ Hd).
  destruct (nth_error xs (Z.to_nat i)) as [u|] eqn:Ex; [|apply nth_error_None in Ex; lia].
  destruct (nth_error phis (Z.to_nat i)) as [phi|] eqn:Ep; [|apply nth_error_None in Ep; lia].
  destruct (nth_error dphis (Z.to_nat i)) as [d|] eqn:Ed; [|apply nth_error_None in Ed; lia].
  destruct (nth_error t (Z.to_nat i)) as [k|] eqn:Ek; [|apply nth_error_None in Ek; lia].
  exists u. split; [auto|]. unfold product_fun. rewrite at_point_swap by lia.
  assert (P := product_derive phis dphis xs t (Z.to_nat i) u d phi k Hld ltac:(lia)
    ltac:(lia) Ep Ed Ek Ex (Forall2_nth_error _ _ _ _ _ _ _ _ Hd Ep Ed k u)).
  rewrite Z2Nat.id in P by lia. exact P.
Qed.

Lemma product_second : forall (phis dphis ddphis : list (Z -> R -> R)) (t : list Z) (xs : list R) i j,
  derivatives phis dphis -> derivatives dphis ddphis -> List.length t = List.length phis -> List.length xs = List.length phis ->
  0 <= i < Z.of_nat (List.length phis) -> 0 <= j < Z.of_nat (List.length phis) ->
  second (product_fun phis t) i j xs (product_fun (by2 phis dphis ddphis i j) t xs).
Proof.
  intros phis dphis ddphis t xs i j H1 H2 Hlt Hlx Hi Hj.
  assert (List.length phis = List.length dphis) by exact (Forall2_len _ _ _ _ _ H1).
  assert (List.length dphis = List.length ddphis) by exact (Forall2_len _ _ _ _ _ H2).
  exists (product_fun (swap phis i dphis) t). split.
  - intros y Hy. apply product_partial; auto. lia.
  - assert (Hby : by2 phis dphis ddphis i j = swap (swap phis i dphis) j (swap dphis i ddphis)).
    { apply nth_error_inj. intros k. unfold by2. destruct (i =? j) eqn:E.
      - assert (i = j) by lia. subst j. rewrite !nth_error_swap by (rewrite ?length_swap; lia).
        destruct (Z.of_nat k =? i); auto.
      - rewrite !nth_error_swap by (rewrite ?length_swap; lia).
        destruct (Z.of_nat k =? j) eqn:E1, (Z.of_nat k =? i) eqn:E2; auto. lia. }
    rewrite Hby. apply product_partial; rewrite ?length_swap; auto. apply derivatives_swap; auto. lia.
Qed.

Definition fams (phis dphis ddphis : list (Z -> R -> R)) (k : kind) : list (Z -> R -> R) :=
  match k with KVal => phis | KGrad => dphis | KHess => ddphis end.

Lemma chosen_val : forall (B : Type) n (F : kind -> list B), List.length (F KVal) = n -> chosen [] n F (F KVal).
Proof. intros B n F H. split; auto. Qed.
Lemma chosen_grad : forall (B : Type) n (F : kind -> list B) i, 0 <= i -> List.length (F KVal) = n -> List.length (F KGrad) = n ->
  chosen [i] n F (by1 (F KVal) (F KGrad) i).
Proof.
  intros B n F i Hi H1 H2. split; [unfold by1; now rewrite length_swap|]. intros j f Hf. unfold by1 in Hf.
  rewrite nth_error_swap in Hf by lia. rewrite order_one. destruct (Z.of_nat j =? i); auto.
Qed.
Lemma chosen_hess : forall (B : Type) n (F : kind -> list B) i i', 0 <= i -> 0 <= i' -> List.length (F KVal) = n -> List.length (F KGrad) = n ->
  List.length (F KHess) = n -> chosen [i; i'] n F (by2 (F KVal) (F KGrad) (F KHess) i i').
Proof.
  intros B n F i i' Hi Hi' H1 H2 H3. split; [now rewrite length_by2|]. intros j f Hf. unfold by2 in Hf. rewrite order_two.
  destruct (i =? i') eqn:E.
  - assert (i = i') by lia. subst i'. rewrite nth_error_swap in Hf by lia. rewrite orb_diag. destruct (Z.of_nat j =? i); auto.
  - rewrite nth_error_swap in Hf by (rewrite ?length_swap; lia). destruct (Z.of_nat j =? i') eqn:E1.
    + rewrite orb_true_r. auto.
    + rewrite orb_false_r. rewrite nth_error_swap in Hf by lia. destruct (Z.of_nat j =? i); auto.
Qed.

Lemma term_product_R : forall (fs : list (Z -> R)) t, term_product (S := RS) fs t 1%R = product (factors fs t).
Proof. intros fs t. unfold term_product. change (smul RS) with Rmult. rewrite fold_mult. apply Rmult_1_l. Qed.

Lemma real_products : forall (bs : list (bset R R)) zero (s : series RS) phis dphis ddphis t xs,
  proper_basis (S := RS) bs -> series_over (S := RS) bs zero 1%R s ->
  implements (S := RS) KVal bs phis -> implements (S := RS) KGrad bs dphis -> implements (S := RS) KHess bs ddphis ->
  derivatives phis dphis -> derivatives dphis ddphis -> List.length xs = List.length bs -> valid_index (sizes (S := RS) bs) t ->
  (exists s', se_product (S := RS) t xs s = RRet s' (product_fun phis t xs)) /\
  (forall i, 0 <= i < Z.of_nat (List.length bs) ->
     exists s' g, se_product_grad (S := RS) t xs i s = RRet s' g /\ partial (product_fun phis t) i xs g) /\
  (forall i j, 0 <= i < Z.of_nat (List.length bs) -> 0 <= j < Z.of_nat (List.length bs) ->
     exists s' h, se_product_hess (S := RS) t xs i j s = RRet s' h /\ second (product_fun phis t) i j xs h).
Proof.
  intros bs zero s phis dphis ddphis t xs Hp Ho I0 I1 I2 D1 D2 Hxs Hv.
  pose proof (Forall2_len _ _ _ _ _ I0) as L0. pose proof (Forall2_len _ _ _ _ _ I1) as L1. pose proof (Forall2_len _ _ _ _ _ I2) as L2.
  change (sx RS) with R in *. change (sa RS) with R in *.
  assert (Hlt : List.length t = List.length phis).
  { rewrite (valid_index_length _ _ Hv). unfold sizes. rewrite map_length. exact L0. }
  assert (Himp : forall ds j, let k := order_of ds j in implements (S := RS) k bs (fams phis dphis ddphis k)).
  { intros ds j. simpl. destruct (order_of ds j); auto. }
  assert (Hla : forall k, List.length (at_point (fams phis dphis ddphis k) xs) = List.length bs).
  { intros k. unfold at_point. rewrite map_length, combine_length. change (sx RS) with R in *. change (sa RS) with R in *. destruct k; cbn [fams]; lia. }
  set (F := fun k => at_point (fams phis dphis ddphis k) xs).
  split; [|split].
  - destruct (product_fresh (S := RS) bs zero 1%R s (fams phis dphis ddphis) (F KVal) [] t xs _ Hp Ho (Himp [])
      (chosen_val _ _ F (Hla KVal)) Hxs Hv eq_refl) as (s' & E & _).
    exists s'. rewrite E, term_product_R. reflexivity.
  - intros i Hi.
    destruct (product_fresh (S := RS) bs zero 1%R s (fams phis dphis ddphis) (by1 (F KVal) (F KGrad) i) [i] t xs _ Hp Ho (Himp [i])
      (chosen_grad _ _ F i ltac:(lia) (Hla KVal) (Hla KGrad)) Hxs Hv eq_refl) as (s' & E & _).
    exists s', (product_fun (swap phis i dphis) t xs). split.
    + rewrite E, term_product_R. unfold product_fun. rewrite at_point_swap by lia. reflexivity.
    + apply product_partial; auto; lia.
  - intros i j Hi Hj.
    destruct (product_fresh (S := RS) bs zero 1%R s (fams phis dphis ddphis) (by2 (F KVal) (F KGrad) (F KHess) i j) [i; j] t xs _ Hp Ho (Himp [i; j])
      (chosen_hess _ _ F i j ltac:(lia) ltac:(lia) (Hla KVal) (Hla KGrad) (Hla KHess)) Hxs Hv eq_refl) as (s' & E & _).
    exists s', (product_fun (by2 phis dphis ddphis i j) t xs). split.
    + rewrite E, term_product_R. unfold product_fun. rewrite at_point_by2 by lia. reflexivity.
    + apply product_second; auto; lia.
Qed.

(** The derivative by a variable that does not exist. *)
Lemma no_such_variable : exists (bs : list (bset R R)) (s s' : series RS) phis dphis t xs i,
  proper_basis (S := RS) bs /\ series_over (S := RS) bs 0%R 1%R s /\ implements (S := RS) KVal bs phis /\ implements (S := RS) KGrad bs dphis /\
  derivatives phis dphis /\ valid_index (sizes (S := RS) bs) t /\ List.length xs = List.length bs /\ Z.of_nat (List.length bs) <= i /\
  se_product_grad (S := RS) t xs i s = RRet s' (product_fun phis t xs) /\ product_fun phis t xs <> 0%R.
Proof.
  assert (Hv : valid_index (sizes (S := RS) ex_bs) [1; 1]) by (change (valid_index [3; 2] [1; 1]); repeat constructor; discriminate).
  assert (Hi : forall j, let k := order_of [2] j in implements (S := RS) k ex_bs (fams ex_phis ex_dphis ex_ddphis k)).
  { intros j. simpl. destruct ex_implements as (A & B & C). destruct (order_of [2] j); auto. }
  assert (Hc : chosen [2] (List.length ex_bs) (fun k => at_point (fams ex_phis ex_dphis ex_ddphis k) [1%R; 1%R]) (at_point ex_phis [1%R; 1%R])).
  { split; [reflexivity|]. intros [|[|[|j]]] f Hf; simpl in *; try discriminate; auto. }
  destruct (product_fresh (S := RS) ex_bs 0%R 1%R ex_s (fams ex_phis ex_dphis ex_ddphis) (at_point ex_phis [1%R; 1%R]) [2] [1; 1] [1%R; 1%R] _
    ex_proper ex_over Hi Hc eq_refl Hv eq_refl) as (s' & E & _).
  exists ex_bs, ex_s, s', ex_phis, ex_dphis, [1; 1], [1%R; 1%R], 2. split; [exact ex_proper|]. split; [exact ex_over|].
    split; [apply ex_implements|]. split; [apply ex_implements|]. split; [apply ex_derivatives|]. split; [exact Hv|]. split; [reflexivity|].
    split; [discriminate|]. split; [rewrite E, term_product_R; reflexivity|].
    unfold product_fun, ex_phis, product, factors, at_point, mono. simpl. lra.
Qed.
