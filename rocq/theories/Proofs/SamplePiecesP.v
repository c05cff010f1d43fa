(** The sample piecewise function. *)
From Coq Require Import ZArith List Bool String Reals Lra Lia.
From Flocq Require Import Core.
From Coquelicot Require Import Coquelicot.
From Coq Require Import List.
From Verif Require Import Model.Outcome Model.Num Model.NumInst Model.Stream Model.PSimple Model.FuncObj Model.Piecewise Model.CExpr Model.Samples
  Spec.Funcs Spec.Piecewise Spec.Series Spec.Poly Proofs.FuncObjP Proofs.PiecewiseP Proofs.PolyP Proofs.SampleSetsP Proofs.SampleFuncsP.
Import ListNotations.
Local Open Scope R_scope.

(** ** Powers *)
Lemma power_half : forall r, 0 < r -> Rpower r (1 / 2) = sqrt r.
Proof. intros r H. rewrite <- Rpower_sqrt by exact H. f_equal. lra. Qed.
Lemma power_mhalf : forall r, 0 < r -> Rpower r (- (1 / 2)) = / sqrt r.
Proof. intros r H. rewrite Rpower_Ropp, power_half by exact H. reflexivity. Qed.
Lemma power_m3half : forall r, 0 < r -> Rpower r (- (3 / 2)) = / sqrt r ^ 3.
Proof.
  intros r H. rewrite Rpower_Ropp. f_equal. replace (3 / 2) with (1 / 2 + (1 / 2 + 1 / 2)) by lra. rewrite !Rpower_plus, power_half by exact H. ring.
Qed.

Lemma root_pos : forall r, 1 / 4 <= r -> 0 < sqrt r.
Proof. intros r H. apply sqrt_lt_R0. lra. Qed.
Lemma root_nonzero : forall r, 1 / 4 <= r -> sqrt r <> 0.
Proof. intros r H. apply Rgt_not_eq, root_pos, H. Qed.

(** ** The closed forms *)
Definition gradient (i : Z) (v : list R) : R :=
  let x := nth 0 v 0 in let y := nth 1 v 0 in let w := if Z.eqb i 0 then x else y in
  if Rlt_dec x 0 then (if Z.eqb i 0 then 1 else 0)
  else if Rlt_dec (x ^ 2 + y ^ 2) (1 / 4) then 2 * w else w / sqrt (x ^ 2 + y ^ 2).
Definition hessian (i j : Z) (v : list R) : R :=
  let x := nth 0 v 0 in let y := nth 1 v 0 in
  let s := sqrt (x ^ 2 + y ^ 2) in
  let wi := if Z.eqb i 0 then x else y in let wj := if Z.eqb j 0 then x else y in
  if Rlt_dec x 0 then 0
  else if Rlt_dec (x ^ 2 + y ^ 2) (1 / 4) then (if Z.eqb i j then 2 else 0)
  else (if Z.eqb i j then / s else 0) - wi * wj / s ^ 3.
Definition figure (q : quantity) (v : list R) : R :=
  match q with QVal => bowl v | QGrad i => gradient i v | QHess i j => hessian i j v end.
Definition two (q : quantity) : Prop :=
  match q with QVal => True | QGrad i => (0 <= i < 2)%Z | QHess i j => (0 <= i < 2)%Z /\ (0 <= j < 2)%Z end.

(** ** Which piece *)
Section Bowl.
Variable power : R -> R -> R.
Hypothesis power_ok : forall a b, 0 < a -> power a b = Rpower a b.

Ltac run_cond := intros x y; unfold cond_eval;
  match goal with |- context [parse_cond ?l ?n] => let E := fresh in destruct (parse_cond l n) as [?e|] eqn:E; vm_compute in E; [injection E as <-|discriminate] end;
  cbn; change (Pos.to_nat 1) with 1%nat; cbn.
Lemma c00 : forall x y, cond_eval ROps power piece0_cond0 [x; y] = Ok (Rlt_bool x 0).
Proof. run_cond. reflexivity. Qed.
Lemma c10 : forall x y, cond_eval ROps power piece1_cond0 [x; y] = Ok (Rlt_bool (x ^ 2 + y ^ 2) (1 / 4)).
Proof.
  run_cond. f_equal. change (Rlt_bool (x * x + y * y) (25 / 100) = Rlt_bool (x ^ 2 + y ^ 2) (1 / 4)).
  replace (25 / 100) with (1 / 4) by lra. replace (x * x + y * y) with (x ^ 2 + y ^ 2) by ring. reflexivity.
Qed.
Lemma c11 : forall x y, cond_eval ROps power piece1_cond1 [x; y] = Ok (Rle_bool 0 x).
Proof. run_cond. reflexivity. Qed.
Lemma c20 : forall x y, cond_eval ROps power piece2_cond0 [x; y] = Ok (Rle_bool (1 / 4) (x ^ 2 + y ^ 2)).
Proof.
  run_cond. f_equal. change (Rle_bool (25 / 100) (x * x + y * y) = Rle_bool (1 / 4) (x ^ 2 + y ^ 2)).
  replace (25 / 100) with (1 / 4) by lra. replace (x * x + y * y) with (x ^ 2 + y ^ 2) by ring. reflexivity.
Qed.
Lemma c21 : forall x y, cond_eval ROps power piece2_cond1 [x; y] = Ok (Rle_bool 0 x).
Proof. run_cond. reflexivity. Qed.

(** ** The functions of the pieces *)
Let s n v := named_eval ROps power mypiecewisefunc_classes n v.
Ltac poly := intros x y; unfold s; run_code; f_equal; rr.
Lemma p0f : forall x y, s "MyPieceWiseFunc_piece0_f" [x; y] = Ok x. Proof. poly. Qed.
Lemma p0g0 : forall x y, s "MyPieceWiseFunc_piece0_grad_0" [x; y] = Ok 1. Proof. poly. Qed.
Lemma p0g1 : forall x y, s "MyPieceWiseFunc_piece0_grad_1" [x; y] = Ok 0. Proof. poly. Qed.
Lemma p0h00 : forall x y, s "MyPieceWiseFunc_piece0_hess_0_0" [x; y] = Ok 0. Proof. poly. Qed.
Lemma p0h01 : forall x y, s "MyPieceWiseFunc_piece0_hess_0_1" [x; y] = Ok 0. Proof. poly. Qed.
Lemma p0h10 : forall x y, s "MyPieceWiseFunc_piece0_hess_1_0" [x; y] = Ok 0. Proof. poly. Qed.
Lemma p0h11 : forall x y, s "MyPieceWiseFunc_piece0_hess_1_1" [x; y] = Ok 0. Proof. poly. Qed.
Lemma p1f : forall x y, s "MyPieceWiseFunc_piece1_f" [x; y] = Ok (x ^ 2 + y ^ 2). Proof. poly. Qed.
Lemma p1g0 : forall x y, s "MyPieceWiseFunc_piece1_grad_0" [x; y] = Ok (2 * x). Proof. poly. Qed.
Lemma p1g1 : forall x y, s "MyPieceWiseFunc_piece1_grad_1" [x; y] = Ok (2 * y). Proof. poly. Qed.
Lemma p1h00 : forall x y, s "MyPieceWiseFunc_piece1_hess_0_0" [x; y] = Ok 2. Proof. poly. Qed.
Lemma p1h01 : forall x y, s "MyPieceWiseFunc_piece1_hess_0_1" [x; y] = Ok 0. Proof. poly. Qed.
Lemma p1h10 : forall x y, s "MyPieceWiseFunc_piece1_hess_1_0" [x; y] = Ok 0. Proof. poly. Qed.
Lemma p1h11 : forall x y, s "MyPieceWiseFunc_piece1_hess_1_1" [x; y] = Ok 2. Proof. poly. Qed.

Ltac cone := intros x y H; unfold s; run_code; f_equal;
  change (x * (x * 1) + y * (y * 1)) with (x ^ 2 + y ^ 2); rewrite !power_ok by lra;
  repeat match goal with |- context [Rpower (?a * ?a + ?b * ?b) _] => replace (a * a + b * b) with (x ^ 2 + y ^ 2) by ring end;
  rewrite ?power_half, ?power_mhalf, ?power_m3half by lra.
Lemma p2f : forall x y, 1 / 4 <= x ^ 2 + y ^ 2 -> s "MyPieceWiseFunc_piece2_f" [x; y] = Ok (sqrt (x ^ 2 + y ^ 2) - 1 / 4).
Proof. cone. lra. Qed.
Lemma p2g0 : forall x y, 1 / 4 <= x ^ 2 + y ^ 2 -> s "MyPieceWiseFunc_piece2_grad_0" [x; y] = Ok (x / sqrt (x ^ 2 + y ^ 2)).
Proof. cone. reflexivity. Qed.
Lemma p2g1 : forall x y, 1 / 4 <= x ^ 2 + y ^ 2 -> s "MyPieceWiseFunc_piece2_grad_1" [x; y] = Ok (y / sqrt (x ^ 2 + y ^ 2)).
Proof. cone. reflexivity. Qed.
Lemma p2h00 : forall x y, 1 / 4 <= x ^ 2 + y ^ 2 ->
  s "MyPieceWiseFunc_piece2_hess_0_0" [x; y] = Ok (/ sqrt (x ^ 2 + y ^ 2) - x * x / sqrt (x ^ 2 + y ^ 2) ^ 3).
Proof. cone. match goal with |- @eq _ ?a ?b => change (@eq R a b) end. field. apply root_nonzero, H. Qed.
Lemma p2h01 : forall x y, 1 / 4 <= x ^ 2 + y ^ 2 -> s "MyPieceWiseFunc_piece2_hess_0_1" [x; y] = Ok (0 - x * y / sqrt (x ^ 2 + y ^ 2) ^ 3).
Proof. cone. match goal with |- @eq _ ?a ?b => change (@eq R a b) end. field. apply root_nonzero, H. Qed.
Lemma p2h10 : forall x y, 1 / 4 <= x ^ 2 + y ^ 2 -> s "MyPieceWiseFunc_piece2_hess_1_0" [x; y] = Ok (0 - y * x / sqrt (x ^ 2 + y ^ 2) ^ 3).
Proof. cone. match goal with |- @eq _ ?a ?b => change (@eq R a b) end. field. apply root_nonzero, H. Qed.
Lemma p2h11 : forall x y, 1 / 4 <= x ^ 2 + y ^ 2 ->
  s "MyPieceWiseFunc_piece2_hess_1_1" [x; y] = Ok (/ sqrt (x ^ 2 + y ^ 2) - y * y / sqrt (x ^ 2 + y ^ 2) ^ 3).
Proof. cone. match goal with |- @eq _ ?a ?b => change (@eq R a b) end. field. apply root_nonzero, H. Qed.

Lemma like_pieces : forall (o : pw (list R) (fobj (list R) R)), same_pieces_as o (mypiecewise ROps power) -> exists F0 F1 F2 : family (list R) R,
  built_from (mypiece ROps power "piece0") F0 /\ built_from (mypiece ROps power "piece1") F1 /\ built_from (mypiece ROps power "piece2") F2 /\
  described built_from o
    [([cond_eval ROps power piece0_cond0], F0); ([cond_eval ROps power piece1_cond0; cond_eval ROps power piece1_cond1], F1);
     ([cond_eval ROps power piece2_cond0; cond_eval ROps power piece2_cond1], F2)].
Proof.
  intros o (l & Ho & H). unfold described, mypiecewise in H; cbn [pw_piece] in H.
  inversion H as [|p0 d0 ps l0 H0 H']; subst. inversion H' as [|p1 d1 ps1 l1 H1 HH2]; subst. inversion HH2 as [|p2 d2 ps2 l2 H2 HH3]; subst.
  inversion HH3; subst. destruct d0 as [k0 F0], d1 as [k1 F1], d2 as [k2 F2]; cbn [fst snd] in *.
  destruct H0 as [E0 B0], H1 as [E1 B1], H2 as [E2 B2]. subst k0 k1 k2. exists F0, F1, F2. repeat (split; [assumption|]). exact Ho.
Qed.

Lemma ask_piece : forall (o : pw (list R) (fobj (list R) R)) l v k d q f a, described built_from o l -> chosen l v k -> nth_error l k = Some d ->
  snd d q = Some f -> f v = Ok a -> exists o', ask (pw_class fobj_class) q v o = RRet o' a /\ described built_from o' l.
Proof.
  intros o l v k d q f a Hd Hc E Hf Ha. pose proof (first_piece fobj_class built_from o l v k d q f (fobj_computes) Hd Hc E Hf) as G.
  rewrite Ha in G. destruct (ask (pw_class fobj_class) q v o) as [o' b| | | |]; cbn in G; try discriminate; try (destruct G; discriminate).
  destruct G as [Eb [Hd' _]]. injection Eb as <-. eauto.
Qed.

(** At every point the object yields these figures. *)
Lemma bowl_figures : forall (o : pw (list R) (fobj (list R) R)) (x y : R) q, same_pieces_as o (mypiecewise ROps power) -> two q ->
  exists o', ask (pw_class fobj_class) q [x; y] o = RRet o' (figure q [x; y]) /\ same_pieces_as o' (mypiecewise ROps power).
Proof.
  intros o x y q Ho Hq. destruct (like_pieces o Ho) as (F0 & F1 & F2 & B0 & B1 & B2 & Hd).
  set (l := [([cond_eval ROps power piece0_cond0], F0); ([cond_eval ROps power piece1_cond0; cond_eval ROps power piece1_cond1], F1);
     ([cond_eval ROps power piece2_cond0; cond_eval ROps power piece2_cond1], F2)]) in *.
  assert (Hl : described built_from (mypiecewise ROps power) l) by (constructor; [split; [reflexivity|exact B0]|constructor; [split; [reflexivity|exact B1]|constructor; [split; [reflexivity|exact B2]|constructor]]]).
  assert (K : forall k d f, chosen l [x; y] k -> nth_error l k = Some d -> snd d q = Some f -> f [x; y] = Ok (figure q [x; y]) ->
    exists o', ask (pw_class fobj_class) q [x; y] o = RRet o' (figure q [x; y]) /\ same_pieces_as o' (mypiecewise ROps power)).
  { intros k d f Hc E Hf Ha. destruct (ask_piece o l [x; y] k d q f _ Hd Hc E Hf Ha) as (o' & H & H'). exists o'. split; [exact H|]. exists l. auto. }
  assert (F0' : x < 0 \/ fails [cond_eval ROps power piece0_cond0] [x; y] /\ 0 <= x).
  { destruct (Rlt_dec x 0) as [L|L]; [left; exact L|right]. split; [|lra]. exists [], (cond_eval ROps power piece0_cond0), []. split; [reflexivity|].
    split; [constructor|]. rewrite c00, Rlt_bool_false by lra. reflexivity. }
  destruct F0' as [Hx|[Hf0 Hx]].
  - assert (C : chosen l [x; y] 0).
    { split; [|intros i d Hi; lia]. exists ([cond_eval ROps power piece0_cond0], F0). split; [reflexivity|]. constructor; [|constructor].
      rewrite c00, Rlt_bool_true by exact Hx. reflexivity. }
    assert (Q : forall sp, component (mypiece ROps power "piece0") q = Ok sp -> F0 q = Some (sp_eval sp)).
    { intros sp E. rewrite (component_family _ _ B0), E. reflexivity. }
    destruct q as [|i|i j]; cbn in Hq.
    + apply (K 0%nat _ _ C eq_refl (Q _ eq_refl)). cbn -[named_eval]. unfold bowl; cbn. destruct (Rlt_dec x 0); [|lra]. exact (p0f x y).
    + assert (i = 0%Z \/ i = 1%Z) as [-> | ->] by lia; apply (K 0%nat _ _ C eq_refl (Q _ eq_refl)); unfold figure, gradient;
        cbn -[named_eval pow]; (destruct (Rlt_dec x 0); [|lra]); [exact (p0g0 x y)|exact (p0g1 x y)].
    + destruct Hq as [Hi Hj]. assert (i = 0%Z \/ i = 1%Z) as [-> | ->] by lia; assert (j = 0%Z \/ j = 1%Z) as [-> | ->] by lia;
        apply (K 0%nat _ _ C eq_refl (Q _ eq_refl)); unfold figure, hessian; cbn -[named_eval pow]; (destruct (Rlt_dec x 0); [|lra]);
        [exact (p0h00 x y)|exact (p0h01 x y)|exact (p0h10 x y)|exact (p0h11 x y)].
  - destruct (Rlt_dec (x ^ 2 + y ^ 2) (1 / 4)) as [Hr|Hr].
    + assert (C : chosen l [x; y] 1).
      { split.
        - exists ([cond_eval ROps power piece1_cond0; cond_eval ROps power piece1_cond1], F1). split; [reflexivity|]. constructor; [|constructor; [|constructor]].
          + rewrite c10, Rlt_bool_true by exact Hr. reflexivity.
          + rewrite c11, Rle_bool_true by exact Hx. reflexivity.
        - intros [|i] d Hi E; [|lia]. injection E as <-. exact Hf0. }
      assert (Q : forall sp, component (mypiece ROps power "piece1") q = Ok sp -> F1 q = Some (sp_eval sp)).
      { intros sp E. rewrite (component_family _ _ B1), E. reflexivity. }
      destruct q as [|i|i j]; cbn in Hq.
      * apply (K 1%nat _ _ C eq_refl (Q _ eq_refl)). unfold figure, bowl; cbn -[named_eval pow]. destruct (Rlt_dec x 0); [lra|].
        destruct (Rlt_dec (x ^ 2 + y ^ 2) (1 / 4)); [|lra]. exact (p1f x y).
      * assert (i = 0%Z \/ i = 1%Z) as [-> | ->] by lia; apply (K 1%nat _ _ C eq_refl (Q _ eq_refl)); unfold figure, gradient;
          cbn -[named_eval pow]; (destruct (Rlt_dec x 0); [lra|]); (destruct (Rlt_dec (x ^ 2 + y ^ 2) (1 / 4)); [|lra]); [exact (p1g0 x y)|exact (p1g1 x y)].
      * destruct Hq as [Hi Hj]. assert (i = 0%Z \/ i = 1%Z) as [-> | ->] by lia; assert (j = 0%Z \/ j = 1%Z) as [-> | ->] by lia;
          apply (K 1%nat _ _ C eq_refl (Q _ eq_refl)); unfold figure, hessian; cbn -[named_eval pow]; (destruct (Rlt_dec x 0); [lra|]);
          (destruct (Rlt_dec (x ^ 2 + y ^ 2) (1 / 4)); [|lra]); [exact (p1h00 x y)|exact (p1h01 x y)|exact (p1h10 x y)|exact (p1h11 x y)].
    + assert (Hr' : 1 / 4 <= x ^ 2 + y ^ 2) by lra.
      assert (C : chosen l [x; y] 2).
      { split.
        - exists ([cond_eval ROps power piece2_cond0; cond_eval ROps power piece2_cond1], F2). split; [reflexivity|]. constructor; [|constructor; [|constructor]].
          + rewrite c20, Rle_bool_true by exact Hr'. reflexivity.
          + rewrite c21, Rle_bool_true by exact Hx. reflexivity.
        - intros [|[|i]] d Hi E; [| |lia]; injection E as <-; [exact Hf0|].
          exists [], (cond_eval ROps power piece1_cond0), [cond_eval ROps power piece1_cond1]. split; [reflexivity|]. split; [constructor|].
          rewrite c10, Rlt_bool_false by exact Hr'. reflexivity. }
      assert (Q : forall sp, component (mypiece ROps power "piece2") q = Ok sp -> F2 q = Some (sp_eval sp)).
      { intros sp E. rewrite (component_family _ _ B2), E. reflexivity. }
      destruct q as [|i|i j]; cbn in Hq.
      * apply (K 2%nat _ _ C eq_refl (Q _ eq_refl)). unfold figure, bowl; cbn -[named_eval pow]. destruct (Rlt_dec x 0); [lra|].
        destruct (Rlt_dec (x ^ 2 + y ^ 2) (1 / 4)); [lra|]. exact (p2f x y Hr').
      * assert (i = 0%Z \/ i = 1%Z) as [-> | ->] by lia; apply (K 2%nat _ _ C eq_refl (Q _ eq_refl)); unfold figure, gradient;
          cbn -[named_eval pow]; (destruct (Rlt_dec x 0); [lra|]); (destruct (Rlt_dec (x ^ 2 + y ^ 2) (1 / 4)); [lra|]); [exact (p2g0 x y Hr')|exact (p2g1 x y Hr')].
      * destruct Hq as [Hi Hj]. assert (i = 0%Z \/ i = 1%Z) as [-> | ->] by lia; assert (j = 0%Z \/ j = 1%Z) as [-> | ->] by lia;
          apply (K 2%nat _ _ C eq_refl (Q _ eq_refl)); unfold figure, hessian; cbn -[named_eval pow]; (destruct (Rlt_dec x 0); [lra|]);
          (destruct (Rlt_dec (x ^ 2 + y ^ 2) (1 / 4)); [lra|]); [exact (p2h00 x y Hr')|exact (p2h01 x y Hr')|exact (p2h10 x y Hr')|exact (p2h11 x y Hr')].
Qed.
End Bowl.
