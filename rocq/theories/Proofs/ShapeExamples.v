(** Concrete cases and counterexamples for the element functions. *)
From Coq Require Import ZArith List Bool Lia Reals Lra.
From Coquelicot Require Import Coquelicot.
From Verif Require Import Model.Outcome Model.Num Model.NumInst Model.PSimple Model.FuncObj Model.Interpolator
  Model.Quad Model.Hexahedron Spec.Funcs Spec.Shape Proofs.FuncObjP Proofs.ElemObjP Proofs.ShapeP.
Import ListNotations.
Local Open Scope Z_scope.

(** A 2 x 1/2 rectangle at (1, -1), an interior point; a 2 x 1/2 x 3 box. *)
Definition ex_lo : point2 := (1, -1)%R.
Definition ex_h : point2 := (2, 1/2)%R.
Definition ex_r : point2 := (3/2, -3/4)%R.
Definition ex_lo3 : point3 := @mkC3 ROps 1%R (-1)%R 0%R.
Definition ex_h3 : point3 := @mkC3 ROps 2%R (1/2)%R 3%R.
Definition ex_r3 : point3 := @mkC3 ROps (3/2)%R (-3/4)%R 1%R.
Definition ex_above3 : point3 := @mkC3 ROps (3/2)%R (-3/4)%R 7%R.

Lemma ex_proper2 : proper2 ex_h.
Proof. split; simpl; lra. Qed.
Lemma ex_positive2 : positive2 ex_h.
Proof. split; simpl; lra. Qed.
Lemma ex_in_rect : in_rect ex_lo ex_h ex_r.
Proof. split; [exists (1/4)%R|exists (1/2)%R]; simpl; split; lra. Qed.
Lemma ex_proper3 : proper3 ex_h3.
Proof. split; [|split]; simpl; lra. Qed.
Lemma ex_positive3 : positive3 ex_h3.
Proof. split; [|split]; simpl; lra. Qed.
Lemma ex_in_box : in_box ex_lo3 ex_h3 ex_r3.
Proof. split; [exists (1/4)%R|split; [exists (1/2)%R|exists (1/3)%R]]; simpl; split; lra. Qed.

(** The weights at the interior point: 3/8, 1/8, 1/8, 3/8. *)
Lemma ex_weights : map (fun k => it_val (quad_values ROps 0 0 (corner2 ex_lo ex_h k) ex_h k) ex_r) corners2 =
  [3/8; 1/8; 1/8; 3/8]%R.
Proof. unfold quad_values, quad_value, quad_f; simpl. repeat (f_equal; try lra). Qed.

Lemma ex_not_in_box : ~ in_box ex_lo3 ex_h3 ex_above3.
Proof. intros (_ & _ & (t & Ht & E)). simpl in E. lra. Qed.

Lemma hex_range_refuted : exists (lo h r : point3) k, positive3 h /\ In k corners3 /\
  it_range (hex_values ROps 0 0 (corner3 lo h k) h k) r = true /\ ~ in_box lo h r.
Proof.
  destruct (proj2 (hex_range_iff (fun _ => 0) 0 ex_lo3 ex_h3 ex_above3 ex_positive3)) as (k & Hk & E).
  - split; [exists (1/4)%R|exists (1/2)%R]; simpl; split; lra.
  - exists ex_lo3, ex_h3, ex_above3, k. split; [exact ex_positive3|]. split; auto. split; auto. exact ex_not_in_box.
Qed.

Lemma hex_hess_refuted : exists nd el (n h r : point3) k i j w, positive3 h /\ In k corners3 /\
  0 <= i < 3 /\ 0 <= j < 3 /\ in_box n h r /\
  it_hess (hex_values ROps nd el n h k) r i j = Ok w /\ ~ second3 (it_val (hex_values ROps nd el n h k)) i j r w.
Proof.
  destruct (hex_hess_right_iff 0 0 ex_lo3 ex_h3 0 ex_r3 0 1 ex_proper3 (or_introl eq_refl) ltac:(lia) ltac:(lia))
    as (w & E & Hw).
  exists 0, 0, ex_lo3, ex_h3, ex_r3, 0, 0, 1, w.
  split; [exact ex_positive3|]. split; [now left|]. split; [lia|]. split; [lia|]. split; [exact ex_in_box|].
  split; [exact E|]. rewrite Hw. intros [C|C]; [discriminate|]. simpl in C. lra.
Qed.

(** The stored third derivatives of a Hexahedron after eval_grad and eval_hess at another point, in binary64. *)
Definition fpt (x y z : Z) : c3 FOps := @mkC3 FOps (f64_make x 0) (f64_make y 0) (f64_make z 0).
Definition ex_var (x y z : Z) : var3 FOps := mkVar3 (fpt x y z) (fpt 0 0 0) (fpt 4 4 4) (fpt 1 1 1).

(** grad(v1, 2); eval_grad(v2): what grad(2) and grad(v2, 2) then give. *)
Definition ex_stale_grad : outcome (f64 * f64) :=
  match (evaluate (QGrad 2) (ex_var 1 1 1) ;;; hex_eval_grad FOps (ex_var 2 2 2)) (hex_new FOps) with
  | RRet o _ => let* a := stored o (QGrad 2) in
                let* b := res_outcome (evaluate (QGrad 2) (ex_var 2 2 2) o) in Ok (a, b)
  | _ => Exit
  end.

Lemma stale_grad : match ex_stale_grad with Ok (a, b) => Bool.eqb (nleb FOps b a) false | _ => false end = true.
Proof. vm_compute. reflexivity. Qed.

Lemma hex_eval_grad_refuted : exists (o o' : fobj (var3 FOps) f64) v a b,
  like o (hex_new FOps) /\ hex_eval_grad FOps v o = RRet o' tt /\
  stored o' (QGrad 2) = Ok a /\ res_outcome (evaluate (QGrad 2) v o) = Ok b /\ nltb FOps a b = true.
Proof.
  assert (L : like (hex_new FOps) (hex_new FOps)) by (exists (hex_family FOps); split; apply hex_built).
  destruct (evaluate_spec (hex_new FOps) (hex_family FOps) (QGrad 2) _ (ex_var 1 1 1) _ (hex_built FOps) eq_refl eq_refl)
    as (o & E & B & S & _).
  assert (Lo : like o (hex_new FOps)) by (exists (hex_family FOps); split; [exact B|apply hex_built]).
  destruct (hex_eval_grad_ok FOps o (ex_var 2 2 2) Lo) as (o' & E' & _ & R).
  exists o, o', (ex_var 2 2 2). do 2 eexists. split; [exact Lo|]. split; [exact E'|]. split.
  - destruct (R (QGrad 2)) as [_ R2]. eapply eq_trans; [apply R2|exact S]. intros (i & Hi & C). injection C as <-. lia.
  - split.
    + exact (evaluate_outcome o (hex_family FOps) (QGrad 2) (fun v => Ok (hex_grad_2 FOps v)) (ex_var 2 2 2) B eq_refl).
    + vm_compute. reflexivity.
Qed.

(** After eval_hess the entry (0,2) of a new object is still indeterminate. *)
Lemma hex_eval_hess_refuted : exists (o' : fobj (var3 FOps) f64) v a,
  hex_eval_hess FOps v (hex_new FOps) = RRet o' tt /\
  stored o' (QHess 0 2) = UB UBUninit /\ res_outcome (evaluate (QHess 0 2) v (hex_new FOps)) = Ok a.
Proof.
  assert (L : like (hex_new FOps) (hex_new FOps)) by (exists (hex_family FOps); split; apply hex_built).
  destruct (hex_eval_hess_ok FOps _ (ex_var 2 2 2) L) as (o' & E' & _ & R).
  exists o', (ex_var 2 2 2). eexists. split; [exact E'|]. split.
  - destruct (R (QHess 0 2)) as [_ R2]. eapply eq_trans; [apply R2|reflexivity]. intros (i & j & Hi & Hj & C). injection C as <- <-. lia.
  - exact (evaluate_outcome (hex_new FOps) (hex_family FOps) (QHess 0 2) (fun v => Ok (hex_hess_0_2 FOps v)) (ex_var 2 2 2) (hex_built FOps) eq_refl).
Qed.
