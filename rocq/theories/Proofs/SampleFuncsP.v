(** The sample functions. *)
From Coq Require Import ZArith List Bool String Reals Lra Lia.
From Coquelicot Require Import Coquelicot.
From Coq Require Import List.
From Verif Require Import Model.Outcome Model.Num Model.NumInst Model.Stream Model.PSimple Model.FuncObj Model.CExpr Model.Samples
  Spec.Funcs Spec.Series Spec.Poly Proofs.FuncObjP Proofs.PolyP Proofs.SampleSetsP.
Import ListNotations.
Local Open Scope R_scope.

Ltac run_code :=
  rewrite named_eval_code;
  match goal with |- context [named_code ?l ?n] => let E := fresh in destruct (named_code l n) as [?e|] eqn:E; vm_compute in E; [injection E as <-|discriminate] end;
  cbn; change (Pos.to_nat 1) with 1%nat; cbn.

Section Quadratic_.
Variable pw : R -> R -> R.
Let s n v := named_eval ROps pw quadratic_classes n v.
Lemma quad_f : forall x, s "Quadratic_f" [x] = Ok (quadratic_fun [x]).
Proof. intros x. unfold s. run_code. unfold quadratic_fun; cbn. f_equal. rr. Qed.
Lemma quad_g : forall x, s "Quadratic_grad_0" [x] = Ok (1 + 2 * x).
Proof. intros x. unfold s. run_code. f_equal. rr. Qed.
Lemma quad_h : forall x, s "Quadratic_hess_0_0" [x] = Ok 2.
Proof. intros x. unfold s. run_code. f_equal. Qed.

Lemma one_coordinate : forall v : list R, List.length v = Z.to_nat 1 -> exists x, v = [x].
Proof. intros [|x [|]] H; try discriminate. eauto. Qed.
Lemma two_coordinates : forall v : list R, List.length v = Z.to_nat 2 -> exists x y, v = [x; y].
Proof. intros [|x [|y [|]]] H; try discriminate. eauto. Qed.

Lemma like_evaluate : forall (o o0 : fobj (list R) R) q v a sp, like o o0 -> component o0 q = Ok sp -> sp_eval sp v = Ok a ->
  res_outcome (evaluate q v o) = Ok a.
Proof.
  intros o o0 q v a sp (F & H & H0) Hc Ha. rewrite (evaluate_outcome o F q (sp_eval sp) v H); [exact Ha|].
  rewrite (component_family _ _ H0), Hc. reflexivity.
Qed.

Lemma quadratic_represents : forall o, like o (quadratic ROps pw) -> represents 1 o quadratic_fun.
Proof.
  intros o Ho v Hv. destruct (one_coordinate v Hv) as [x ->]. split; [|split].
  - eapply like_evaluate; [exact Ho|reflexivity|]. exact (quad_f x).
  - intros i Hi. assert (i = 0%Z) as -> by lia. exists (1 + 2 * x). split.
    + eapply like_evaluate; [exact Ho|reflexivity|]. exact (quad_g x).
    + exists x. split; [reflexivity|]. cbn. unfold quadratic_fun; cbn. auto_derive; [exact I|ring].
  - intros i j Hi Hj. assert (i = 0%Z) as -> by lia. assert (j = 0%Z) as -> by lia. exists 2. split.
    + eapply like_evaluate; [exact Ho|reflexivity|]. exact (quad_h x).
    + exists (fun v => 1 + 2 * nth 0 v 0). split.
      * intros y Hy. destruct (one_coordinate y Hy) as [u ->]. exists u. split; [reflexivity|]. cbn. unfold quadratic_fun; cbn. auto_derive; [exact I|ring].
      * exists x. split; [reflexivity|]. cbn. auto_derive; [exact I|ring].
Qed.
End Quadratic_.

Section MyFunc_.
Variable pw : R -> R -> R.
Let s n v := named_eval ROps pw myfunc_classes n v.
Ltac mf := intros x y; unfold s; run_code; unfold cubic_fun; cbn; f_equal; rr.
Lemma mf_f : forall x y, s "MyFunc_f" [x; y] = Ok (cubic_fun [x; y]). Proof. mf. Qed.
Lemma mf_g0 : forall x y, s "MyFunc_grad_0" [x; y] = Ok (3 * x ^ 2 + 2 * x * y + y ^ 2). Proof. mf. Qed.
Lemma mf_g1 : forall x y, s "MyFunc_grad_1" [x; y] = Ok (x ^ 2 + 2 * x * y + 3 * y ^ 2). Proof. mf. Qed.
Lemma mf_h00 : forall x y, s "MyFunc_hess_0_0" [x; y] = Ok (6 * x + 2 * y). Proof. mf. Qed.
Lemma mf_h01 : forall x y, s "MyFunc_hess_0_1" [x; y] = Ok (2 * x + 2 * y). Proof. mf. Qed.
Lemma mf_h10 : forall x y, s "MyFunc_hess_1_0" [x; y] = Ok (2 * x + 2 * y). Proof. mf. Qed.
Lemma mf_h11 : forall x y, s "MyFunc_hess_1_1" [x; y] = Ok (2 * x + 6 * y). Proof. mf. Qed.

Definition mf_grad (i : Z) (v : list R) : R :=
  let x := nth 0 v 0 in let y := nth 1 v 0 in
  if Z.eqb i 0 then 3 * x ^ 2 + 2 * x * y + y ^ 2 else x ^ 2 + 2 * x * y + 3 * y ^ 2.
Lemma mf_partial : forall i v, (0 <= i < 2)%Z -> List.length v = Z.to_nat 2 -> partial cubic_fun i v (mf_grad i v).
Proof.
  intros i v Hi Hv. destruct (two_coordinates v Hv) as (x & y & ->).
  assert (i = 0%Z \/ i = 1%Z) as [-> | ->] by lia; unfold mf_grad; cbn.
  - exists x. split; [reflexivity|]. change (Z.to_nat 1) with 1%nat; cbn. unfold cubic_fun; cbn. auto_derive; [exact I|ring].
  - exists y. split; [reflexivity|]. change (Z.to_nat 1) with 1%nat; cbn. unfold cubic_fun; cbn. auto_derive; [exact I|ring].
Qed.

Lemma myfunc_represents : forall o, like o (myfunc ROps pw) -> represents 2 o cubic_fun.
Proof.
  intros o Ho v Hv. destruct (two_coordinates v Hv) as (x & y & ->). split; [|split].
  - eapply like_evaluate; [exact Ho|reflexivity|]. exact (mf_f x y).
  - intros i Hi. exists (mf_grad i [x; y]). split; [|apply mf_partial; [exact Hi|reflexivity]].
    assert (i = 0%Z \/ i = 1%Z) as [-> | ->] by lia.
    + eapply like_evaluate; [exact Ho|reflexivity|]. exact (mf_g0 x y).
    + eapply like_evaluate; [exact Ho|reflexivity|]. exact (mf_g1 x y).
  - intros i j Hi Hj.
    assert (K : forall h, partial (mf_grad i) j [x; y] h -> second cubic_fun i j [x; y] h).
    { intros h Hh. exists (mf_grad i). split; [|exact Hh]. intros z Hz. apply mf_partial; [exact Hi|exact Hz]. }
    assert (i = 0%Z \/ i = 1%Z) as [-> | ->] by lia; assert (j = 0%Z \/ j = 1%Z) as [-> | ->] by lia.
    + exists (6 * x + 2 * y). split; [eapply like_evaluate; [exact Ho|reflexivity|]; exact (mf_h00 x y)|]. apply K. exists x. split; [reflexivity|].
      change (Z.to_nat 1) with 1%nat; unfold mf_grad; cbn. auto_derive; [exact I|ring].
    + exists (2 * x + 2 * y). split; [eapply like_evaluate; [exact Ho|reflexivity|]; exact (mf_h01 x y)|]. apply K. exists y. split; [reflexivity|].
      change (Z.to_nat 1) with 1%nat; unfold mf_grad; cbn. auto_derive; [exact I|ring].
    + exists (2 * x + 2 * y). split; [eapply like_evaluate; [exact Ho|reflexivity|]; exact (mf_h10 x y)|]. apply K. exists x. split; [reflexivity|].
      change (Z.to_nat 1) with 1%nat; unfold mf_grad; cbn. auto_derive; [exact I|ring].
    + exists (2 * x + 6 * y). split; [eapply like_evaluate; [exact Ho|reflexivity|]; exact (mf_h11 x y)|]. apply K. exists y. split; [reflexivity|].
      change (Z.to_nat 1) with 1%nat; unfold mf_grad; cbn. auto_derive; [exact I|ring].
Qed.
End MyFunc_.
