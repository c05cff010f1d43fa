(** x^2 where x < 0, 2x + 1 where 0 <= x and x < 10. *)
From Coq Require Import ZArith List Bool String Lia.
From Verif Require Import Model.Outcome Model.PSimple Model.FuncObj Model.Piecewise Spec.Funcs Spec.Piecewise Proofs.OutcomeP Proofs.FuncObjP Proofs.PiecewiseP.
Import ListNotations.
Local Open Scope Z_scope.

Definition fn (f : Z -> Z) : simple Z Z := mkSimple "f" (fun x => Ok (f x)) None.
Definition cond (c : Z -> bool) : simple Z bool := mkSimple "c" (fun x => Ok (c x)) None.

Definition square : fobj Z Z := mkFobj (fn (fun x => x * x)) [fn (fun x => 2 * x)] [[fn (fun _ => 2)]].
Definition line : fobj Z Z := mkFobj (fn (fun x => 2 * x + 1)) [fn (fun _ => 2)] [[fn (fun _ => 0)]].

Definition family_of (o : fobj Z Z) : family Z Z := fun q => match component o q with Ok s => Some (sp_eval s) | _ => None end.

Definition curve : pw Z (fobj Z Z) := mkPw None
  [mkPiece square [cond (fun x => x <? 0)]; mkPiece line [cond (fun x => 0 <=? x); cond (fun x => x <? 10)]].
Definition curve_cases : cases Z Z :=
  [([fun x => Ok (x <? 0)], family_of square); ([fun x => Ok (0 <=? x); fun x => Ok (x <? 10)], family_of line)].

Lemma family_of_built : forall o, built_from o (family_of o).
Proof. intros o. apply family_component. reflexivity. Qed.

Lemma curve_described : described built_from curve curve_cases.
Proof. constructor; [|constructor; [|constructor]]; (split; [reflexivity | apply family_of_built]). Qed.

Lemma curve_decisive : decisive curve_cases.
Proof.
  intros d c v [<- | [<- | []]]; cbn.
  - intros [<- | []]. eauto.
  - intros [<- | [<- | []]]; eauto.
Qed.

Lemma curve_negative : forall x, x < 0 -> chosen curve_cases x 0.
Proof.
  intros x H. split.
  - eexists. split; [reflexivity|]. constructor; [|constructor]. f_equal. apply Z.ltb_lt. exact H.
  - intros i d Hi. lia.
Qed.

Lemma curve_small : forall x, 0 <= x < 10 -> chosen curve_cases x 1.
Proof.
  intros x H. split.
  - eexists. split; [reflexivity|]. constructor; [|constructor; [|constructor]]; f_equal; [apply Z.leb_le | apply Z.ltb_lt]; lia.
  - intros [|i] d Hi E; [|lia]. injection E as <-. exists [], (fun x => Ok (x <? 0)), []. repeat split; [constructor|]. f_equal. apply Z.ltb_ge. lia.
Qed.

Lemma curve_large : forall x, 10 <= x -> unmatched curve_cases x.
Proof.
  intros x H. constructor; [|constructor; [|constructor]].
  - exists [], (fun x => Ok (x <? 0)), []. repeat split; [constructor|]. f_equal. apply Z.ltb_ge. lia.
  - exists [fun x => Ok (0 <=? x)], (fun x => Ok (x <? 10)), []. split; [reflexivity|]. split.
    + constructor; [|constructor]. f_equal. apply Z.leb_le. lia.
    + f_equal. apply Z.ltb_ge. lia.
Qed.

Definition curve_class : fclass Z Z (pw Z (fobj Z Z)) := pw_class fobj_class.

Lemma curve_has : forall q d, In q [QVal; QGrad 0; QHess 0 0] -> In d curve_cases -> snd d q <> None.
Proof. intros q d [<- | [<- | [<- | []]]] [<- | [<- | []]]; discriminate. Qed.

Lemma curve_runs : exists o1 o2 o3, ask curve_class QVal 3 curve = RRet o1 7 /\ ask curve_class (QGrad 0) (-4) o1 = RRet o2 (-8) /\
  ask curve_class QVal 12 o2 = RThrow o3 DomainError.
Proof. do 3 eexists. repeat split; vm_compute; reflexivity. Qed.

(** Value at 3 (second piece), gradient at -4 (first piece): the value getter now reads the first piece. *)
Definition curve_hist : list (quantity * Z) := [(QVal, -2); (QVal, 3); (QGrad 0, -4)].
Lemma curve_stale : exists o', asked curve_class curve curve_hist o' /\ told curve_class o' QVal = Ok 4 /\
  (exists o1 o2, asked curve_class curve [(QVal, -2)] o1 /\ ask curve_class QVal 3 o1 = RRet o2 7 /\ told curve_class o2 QVal = Ok 7).
Proof.
  eexists. split; [|split].
  - unfold curve_hist. apply (AskStep curve_class curve [(QVal, -2); (QVal, 3)]) with (t1 := match ask curve_class QVal 3 (match ask curve_class QVal (-2) curve with RRet s _ => s | _ => curve end) with RRet s _ => s | _ => curve end).
    + apply (AskStep curve_class curve [(QVal, -2)]) with (t1 := match ask curve_class QVal (-2) curve with RRet s _ => s | _ => curve end).
      * apply (AskStep curve_class curve []) with (t1 := curve); [constructor|]. left. eexists. vm_compute. reflexivity.
      * left. eexists. vm_compute. reflexivity.
    + left. eexists. vm_compute. reflexivity.
  - vm_compute. reflexivity.
  - do 2 eexists. split; [|split].
    + apply (AskStep curve_class curve []) with (t1 := curve); [constructor|]. left. eexists. vm_compute. reflexivity.
    + vm_compute. reflexivity.
    + vm_compute. reflexivity.
Qed.

(** Value at 3, gradient at -4: the value getter reads a value that was never assigned. *)
Lemma curve_uninit : exists o1 o2, ask curve_class QVal 3 curve = RRet o1 7 /\ ask curve_class (QGrad 0) (-4) o1 = RRet o2 (-8) /\
  told curve_class o1 QVal = Ok 7 /\ told curve_class o2 QVal = UB UBUninit.
Proof. do 2 eexists. repeat split; vm_compute; reflexivity. Qed.

Definition nothing : nat -> memory Z := fun _ _ => None.
Lemma curve_nothing : forall k p d, nth_error (pw_piece curve) k = Some p -> nth_error curve_cases k = Some d -> in_store fobj_class (pc_expr p) (snd d) (nothing k).
Proof.
  intros k p d Ep Ed q Hq. rewrite fobj_told. rewrite stored_component.
  destruct k as [|[|k]]; cbn in Ep, Ed; try (destruct k; discriminate); injection Ep as <-; injection Ed as <-; cbn in Hq |- *; unfold family_of in Hq.
  - destruct (component square q) as [s| | | |] eqn:E; try congruence. cbn. destruct q as [|i|i j]; cbn in E.
    + injection E as <-. reflexivity.
    + apply vget_some in E. destruct E as [_ E]. destruct (Z.to_nat i) as [|[|n]]; cbn in E; try discriminate. now injection E as <-.
    + destruct (vget [[fn (fun _ => 2)]] i) as [row| | | |] eqn:Er; cbn in E; try discriminate.
      apply vget_some in Er. destruct Er as [_ Er]. destruct (Z.to_nat i) as [|[|n]]; cbn in Er; try discriminate. injection Er as <-.
      apply vget_some in E. destruct E as [_ E]. destruct (Z.to_nat j) as [|[|n]]; cbn in E; try discriminate. now injection E as <-.
  - destruct (component line q) as [s| | | |] eqn:E; try congruence. cbn. destruct q as [|i|i j]; cbn in E.
    + injection E as <-. reflexivity.
    + apply vget_some in E. destruct E as [_ E]. destruct (Z.to_nat i) as [|[|n]]; cbn in E; try discriminate. now injection E as <-.
    + destruct (vget [[fn (fun _ => 0)]] i) as [row| | | |] eqn:Er; cbn in E; try discriminate.
      apply vget_some in Er. destruct Er as [_ Er]. destruct (Z.to_nat i) as [|[|n]]; cbn in Er; try discriminate. injection Er as <-.
      apply vget_some in E. destruct E as [_ E]. destruct (Z.to_nat j) as [|[|n]]; cbn in E; try discriminate. now injection E as <-.
Qed.

Lemma curve_recorded : exists m, recorded curve_cases None nothing curve_hist (Some 0%nat) m /\ m 0%nat QVal = Some 4 /\ m 1%nat QVal = Some 7.
Proof.
  eexists. split.
  - unfold curve_hist. apply (RcHit curve_cases None nothing [(QVal, -2); (QVal, 3)]) with (c := Some 1%nat) (q := QGrad 0) (v := -4) (k := 0%nat) (d := ([fun x => Ok (x <? 0)], family_of square)).
    + apply (RcHit curve_cases None nothing [(QVal, -2)]) with (c := Some 0%nat) (q := QVal) (v := 3) (k := 1%nat) (d := ([fun x => Ok (0 <=? x); fun x => Ok (x <? 10)], family_of line)).
      * apply (RcHit curve_cases None nothing []) with (c := None) (q := QVal) (v := -2) (k := 0%nat) (d := ([fun x => Ok (x <? 0)], family_of square)).
        -- constructor.
        -- apply curve_negative. lia.
        -- reflexivity.
      * apply curve_small. lia.
      * reflexivity.
    + apply curve_negative. lia.
    + reflexivity.
  - vm_compute. auto.
Qed.

(** The curve as one function. *)
Definition curve_family : family Z Z := fun q => match q with
  | QVal => Some (fun x => if x <? 0 then Ok (x * x) else if x <? 10 then Ok (2 * x + 1) else Throw DomainError)
  | _ => None end.
Lemma not_both : forall (cs : list (Z -> outcome bool)) v, fails cs v -> ~ holds cs v.
Proof.
  intros cs v (c1 & c & c2 & -> & _ & Hc) H. apply Forall_app in H. destruct H as [_ H]. inversion H. congruence.
Qed.
Lemma curve_by_cases : by_cases curve_cases curve_family.
Proof.
  intros q f H. destruct q; cbn in H; try discriminate. injection H as <-. split; [|split].
  - intros d [<- | [<- | []]]; cbn; unfold family_of; cbn; congruence.
  - intros v k d g [(d' & E & Hh) Hf] Ed Hg. assert (d' = d) by congruence. subst d'. destruct k as [|[|k]]; cbn in Ed.
    + injection Ed as <-. cbn in Hg, Hh. injection Hg as <-. inversion Hh as [|c0 l0 H1 _]; subst. cbn in H1. injection H1 as ->. reflexivity.
    + injection Ed as <-. cbn in Hg, Hh. injection Hg as <-. inversion Hh as [|c0 l0 H1 Hr]; subst. inversion Hr as [|c2 l2 H4 _]; subst. cbn in H1, H4. injection H1 as H1. injection H4 as ->.
      apply Z.leb_le in H1. replace (v <? 0) with false by (symmetry; apply Z.ltb_ge; lia). reflexivity.
    + destruct k; discriminate.
  - intros v Hu. inversion Hu as [|d1 l1 H1 Hr]; subst. inversion Hr as [|d2 l2 H2 _]; subst. cbn in H1, H2.
    destruct (Z.ltb_spec v 0) as [L|L].
    + exfalso. apply (not_both _ _ H1). constructor; [|constructor]. f_equal. now apply Z.ltb_lt.
    + destruct (Z.ltb_spec v 10) as [L2|L2]; auto. exfalso. apply (not_both _ _ H2).
      constructor; [|constructor; [|constructor]]; f_equal; [now apply Z.leb_le | now apply Z.ltb_lt].
Qed.

(** The curve where x < 5, x^2 elsewhere. *)
Definition nest : pw Z (pw Z (fobj Z Z)) := mkPw None
  [mkPiece curve [cond (fun x => x <? 5)]; mkPiece (mkPw None [mkPiece square []]) []].
Lemma nest_runs : exists o1 o2, ask (pw_class curve_class) QVal 3 nest = RRet o1 7 /\ ask (pw_class curve_class) QVal 12 o1 = RRet o2 144.
Proof. do 2 eexists. split; vm_compute; reflexivity. Qed.

Lemma curve_simple : exists s, ask_simple curve_class (QGrad 0) curve = Ok s /\ sp_eval s 3 = Ok 2 /\ sp_eval s (-4) = Ok (-8) /\ sp_eval s 12 = Throw DomainError.
Proof. eexists. split; [reflexivity|]. repeat split. Qed.

(** A condition that throws. *)
Definition wary : pw Z (fobj Z Z) := mkPw None [mkPiece square [cond (fun x => x <? 0)]; mkPiece line [mkSimple "c" (fun _ => Throw RuntimeError) None]].
Lemma wary_described : described built_from wary
  ([([fun x => Ok (x <? 0)], family_of square)] ++ ([] ++ (fun _ => Throw RuntimeError) :: [], family_of line) :: []).
Proof. constructor; [|constructor; [|constructor]]; (split; [reflexivity | apply family_of_built]). Qed.
Lemma wary_unmatched : unmatched [([fun x => Ok (x <? 0)], family_of square)] 3.
Proof. constructor; [|constructor]. exists [], (fun x => Ok (x <? 0)), []. repeat split. constructor. Qed.

Lemma curve_one_piece : exists o1 o', ask curve_class QVal (-2) curve = RRet o1 4 /\ pw_curr o1 = Some 0 /\
  asked curve_class o1 [(QVal, -3); (QGrad 0, -4)] o' /\ told curve_class o' QVal = Ok 9 /\ told curve_class o' (QGrad 0) = Ok (-8).
Proof.
  do 2 eexists. split; [vm_compute; reflexivity|]. split; [reflexivity|]. split.
  - eapply (AskStep curve_class _ [(QVal, -3)]).
    + eapply (AskStep curve_class _ []); [constructor|]. left. eexists. vm_compute. reflexivity.
    + left. eexists. vm_compute. reflexivity.
  - split; vm_compute; reflexivity.
Qed.

Lemma curve_miss : exists o1 o2, ask curve_class QVal 3 curve = RRet o1 7 /\ ask curve_class QVal 12 o1 = RThrow o2 DomainError /\ told curve_class o2 QVal = Ok 7.
Proof. do 2 eexists. split; [|split]; vm_compute; reflexivity. Qed.

Lemma curve_eval_grad : exists o1 o2, k_eval_grad curve_class 3 curve = RRet o1 tt /\ told curve_class o1 (QGrad 0) = Ok 2 /\
  k_eval_hess curve_class (-1) o1 = RRet o2 tt /\ told curve_class o2 (QHess 0 0) = Ok 2 /\ told curve_class o2 (QGrad 0) = UB UBUninit.
Proof. do 2 eexists. repeat split; vm_compute; reflexivity. Qed.
