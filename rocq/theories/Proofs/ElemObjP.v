(** The element function objects: stored derivatives after eval_grad and eval_hess. *)
From Coq Require Import ZArith List Bool Lia String.
From Verif Require Import Model.Outcome Model.Num Model.NumInst Model.PSimple Model.FuncObj Model.Interpolator
  Model.Quad Model.Hexahedron Spec.Funcs Proofs.OutcomeP Proofs.FuncObjP.
Import ListNotations.
Local Open Scope Z_scope.

(** The functions listed in tables, as a family. *)
Definition table {V A : Type} (f : V -> A) (gs : list (V -> A)) (hs : list (list (V -> A))) : family V A :=
  fun q => match q with
           | QVal => Some (fun v => Ok (f v))
           | QGrad i => match vget gs i with Ok g => Some (fun v => Ok (g v)) | _ => None end
           | QHess i j => match vget hs i with
                          | Ok row => match vget row j with Ok g => Some (fun v => Ok (g v)) | _ => None end
                          | _ => None
                          end
           end.

Lemma vget_map : forall (A B : Type) (f : A -> B) l i,
  vget (map f l) i = match vget l i with Ok a => Ok (f a) | Throw e => Throw e | Exit => Exit | UB r => UB r | NoFuel => NoFuel end.
Proof.
  intros A B f l i. unfold vget. destruct (0 <=? i); auto. rewrite nth_error_map.
  destruct (nth_error l (Z.to_nat i)); auto.
Qed.

Lemma vget_cases : forall (A : Type) (l : list A) i, (exists a, vget l i = Ok a) \/ vget l i = UB UBOutOfBounds.
Proof. intros. apply vget_not. Qed.

Section Elem.
Context (O : NumOps) {V : Type}.

Lemma table_built : forall (f : V -> num O) gs hs n0 ng nh,
  built_from (mkFobj (new_simple O n0 f) (map (fun p => new_simple O (fst p) (snd p)) (combine ng gs))
                     (map (map (new_simple O nh)) hs)) (table f gs hs) \/ List.length ng <> List.length gs.
Proof.
  intros f gs hs n0 ng nh. destruct (Nat.eq_dec (List.length ng) (List.length gs)) as [E|E]; [left|right; exact E].
  split; [reflexivity|]. split.
  - intros i. simpl. rewrite vget_map.
    assert (G : vget gs i = match vget (combine ng gs) i with Ok p => Ok (snd p) | Throw e => Throw e | Exit => Exit | UB r => UB r | NoFuel => NoFuel end).
    { rewrite <- vget_map. f_equal. clear -E. revert gs E. induction ng as [|x ng IH]; intros [|g gs] E; simpl in *; try discriminate; auto.
      f_equal. apply IH. congruence. }
    rewrite G. destruct (vget (combine ng gs) i); reflexivity.
  - intros i j. simpl. rewrite vget_map. destruct (vget hs i) as [row| | | |]; auto. rewrite vget_map.
    destruct (vget row j); auto.
Qed.

Lemma component_none : forall (o : fobj V (num O)) q, (exists s, component o q = Ok s) \/ component o q = UB UBOutOfBounds.
Proof.
  intros o [|i|i j]; simpl; eauto using vget_cases.
  destruct (vget_cases _ (fo_hess o) i) as [[row ->]| ->]; simpl; auto using vget_cases.
Qed.

Lemma evaluate_missing : forall (o : fobj V (num O)) q v, component o q = UB UBOutOfBounds ->
  evaluate q v o = RUB UBOutOfBounds.
Proof.
  intros o [|i|i j] v H; simpl in *; try discriminate.
  - unfold fo_call_grad, on_grad, on_elem. now rewrite H.
  - unfold fo_call_hess, on_hess, on_elem. destruct (vget_cases _ (fo_hess o) i) as [[row E]| E]; rewrite E in *; simpl in *; auto.
    now rewrite H.
Qed.

(** What any evaluation of a table object gives. *)
Lemma evaluate_table : forall (o : fobj V (num O)) F q v, built_from o F ->
  res_outcome (evaluate q v o) = match F q with Some f => f v | None => UB UBOutOfBounds end.
Proof.
  intros o F q v HF. destruct (F q) as [f|] eqn:E.
  - eapply evaluate_outcome; eauto.
  - rewrite (component_family _ _ HF) in E. destruct (component_none o q) as [[s Hs]|Hs].
    + rewrite Hs in E. discriminate.
    + now rewrite (evaluate_missing _ _ _ Hs).
Qed.

Lemma like_family : forall (o o0 : fobj V (num O)) F, like o o0 -> built_from o0 F -> exists F', built_from o F' /\ forall q, F' q = F q.
Proof.
  intros o o0 F (G & H & H0) HF. exists G. split; auto. intros q.
  now rewrite (component_family _ _ H0), (component_family _ _ HF).
Qed.

Lemma built_ext : forall (o : fobj V (num O)) F F', built_from o F -> (forall q, F' q = F q) -> built_from o F'.
Proof. intros o F F' H E. apply family_component. intros q. rewrite E. now apply component_family. Qed.

Lemma like_built : forall (o o0 : fobj V (num O)) F, like o o0 -> built_from o0 F -> built_from o F.
Proof.
  intros o o0 F L H. destruct (like_family _ _ _ L H) as (F' & H' & E). eapply built_ext; eauto.
Qed.

End Elem.

Section Objects.
Context (O : NumOps).

Definition quad_family : family (var2 O) (num O) :=
  table (quad_f O) [quad_grad_0 O; quad_grad_1 O] [[quad_hess_0_0 O; quad_hess_0_1 O]; [quad_hess_1_0 O; quad_hess_1_1 O]].
Definition hex_family : family (var3 O) (num O) := table (hex_f O) (hex_grads O) (hex_hesses O).

Ltac lit i := destruct i as [|[?p|?p|]|?p]; try reflexivity.

Lemma vget_range : forall (A : Type) (l : list A) i, vget l i = UB UBOutOfBounds \/ 0 <= i < Z.of_nat (List.length l).
Proof.
  intros A l i. destruct (vget_cases _ l i) as [H|H]; auto. right. now apply vget_ok_iff.
Qed.

Lemma quad_built : built_from (quad_new O) quad_family.
Proof.
  split; [reflexivity|]. split.
  - intros i. unfold quad_family, table. 
    destruct (vget_range _ [quad_grad_0 O; quad_grad_1 O] i) as [H|H].
    + rewrite H. rewrite vget_out; [reflexivity|].
      intros C. assert (exists a, vget [quad_grad_0 O; quad_grad_1 O] i = Ok a) as [a Ha] by (apply vget_ok_iff; exact C). congruence.
    + simpl in H. assert (i = 0 \/ i = 1) as [-> | ->] by lia; reflexivity.
  - intros i j.
    destruct (Z_lt_dec i 0) as [N|N]. { unfold quad_family, table. rewrite !vget_out by (simpl; lia). reflexivity. }
    destruct (Z_le_dec 2 i) as [N1|N1]. { unfold quad_family, table. rewrite !vget_out by (simpl; lia). reflexivity. }
    destruct (Z_lt_dec j 0) as [N2|N2].
    { assert (i = 0 \/ i = 1) as [-> | ->] by lia; simpl; rewrite !vget_out by (simpl; lia); reflexivity. }
    destruct (Z_le_dec 2 j) as [N3|N3].
    { assert (i = 0 \/ i = 1) as [-> | ->] by lia; simpl; rewrite !vget_out by (simpl; lia); reflexivity. }
    assert (i = 0 \/ i = 1) as [-> | ->] by lia; assert (j = 0 \/ j = 1) as [-> | ->] by lia; reflexivity.
Qed.

Lemma hex_built : built_from (hex_new O) hex_family.
Proof.
  destruct (table_built O (hex_f O) (hex_grads O) (hex_hesses O) "Hexahedron_f"%string
              ["Hexahedron_grad_0"; "Hexahedron_grad_1"; "Hexahedron_grad_2"]%string "Hexahedron_hess"%string) as [H|H].
  - exact H.
  - exfalso. apply H. reflexivity.
Qed.

(** The interpolators' use of the shared function object: the result is a function of the point, whatever the object
    stores. *)
Lemma quad_call_value : forall o, like o (quad_new O) -> forall n h s r,
  res_outcome (evaluate QVal (mkVar2 r n h s) o) = Ok (quad_value O n h s r) /\
  (forall i, res_outcome (evaluate (QGrad i) (mkVar2 r n h s) o) = quad_dvalue O n h s r i) /\
  (forall i j, res_outcome (evaluate (QHess i j) (mkVar2 r n h s) o) = quad_ddvalue O n h s r i j).
Proof.
  intros o L n h s r. pose proof (like_built _ _ _ _ L quad_built) as B.
  split; [|split]; intros; rewrite (evaluate_table _ _ _ _ _ B); simpl.
  - reflexivity.
  - unfold quad_dvalue. destruct (vget_cases _ [quad_grad_0 O; quad_grad_1 O] i) as [[g ->]| ->]; reflexivity.
  - unfold quad_ddvalue.
    destruct (vget_cases _ [[quad_hess_0_0 O; quad_hess_0_1 O]; [quad_hess_1_0 O; quad_hess_1_1 O]] i) as [[g ->]| ->]; simpl; auto.
    destruct (vget_cases _ g j) as [[w ->]| ->]; reflexivity.
Qed.

Lemma hex_call_value : forall o, like o (hex_new O) -> forall n h s r,
  res_outcome (evaluate QVal (mkVar3 r n h s) o) = Ok (hex_value O n h s r) /\
  (forall i, res_outcome (evaluate (QGrad i) (mkVar3 r n h s) o) = hex_dvalue O n h s r i) /\
  (forall i j, res_outcome (evaluate (QHess i j) (mkVar3 r n h s) o) = hex_ddvalue O n h s r i j).
Proof.
  intros o L n h s r. pose proof (like_built _ _ _ _ L hex_built) as B.
  split; [|split]; intros; rewrite (evaluate_table _ _ _ _ _ B); simpl.
  - reflexivity.
  - unfold hex_dvalue. destruct (vget_cases _ (hex_grads O) i) as [[g ->]| ->]; reflexivity.
  - unfold hex_ddvalue. destruct (vget_cases _ (hex_hesses O) i) as [[g ->]| ->]; simpl; auto.
    destruct (vget_cases _ g j) as [[w ->]| ->]; reflexivity.
Qed.

Lemma grads_refresh : forall (V : Type) (o : fobj V (num O)) F l v, built_from o F ->
  (forall i, In i l -> exists f a, F (QGrad i) = Some f /\ f v = Ok a) ->
  exists o', fo_eval_grads l v o = RRet o' tt /\ built_from o' F /\
    refreshed o o' v (fun q => exists i, In i l /\ q = QGrad i).
Proof.
  intros V o F l v HF H. destruct (grads_spec l v o F HF H) as (o' & E & B & S & T).
  exists o'. split; auto. split; auto. intros q. split.
  - intros (i & Hi & ->). destruct (H i Hi) as (f & a & Hf & Ha). exists a. split; eauto.
    rewrite (evaluate_outcome _ _ _ _ _ HF Hf). exact Ha.
  - intros N. apply T. intros i Hi Hq. apply N. eauto.
Qed.

Lemma hesses_refresh : forall (V : Type) (o : fobj V (num O)) F l v, built_from o F ->
  (forall i j, In (i, j) l -> exists f a, F (QHess i j) = Some f /\ f v = Ok a) ->
  exists o', fo_eval_hesses l v o = RRet o' tt /\ built_from o' F /\
    refreshed o o' v (fun q => exists i j, In (i, j) l /\ q = QHess i j).
Proof.
  intros V o F l v HF H. destruct (hesses_spec l v o F HF H) as (o' & E & B & S & T).
  exists o'. split; auto. split; auto. intros q. split.
  - intros (i & j & Hi & ->). destruct (H i j Hi) as (f & a & Hf & Ha). exists a. split; eauto.
    rewrite (evaluate_outcome _ _ _ _ _ HF Hf). exact Ha.
  - intros N. apply T. intros i j Hi Hq. apply N. eauto.
Qed.

Lemma refreshed_iff : forall (V : Type) (o o' : fobj V (num O)) v P Q, refreshed o o' v P -> (forall q, P q <-> Q q) ->
  refreshed o o' v Q.
Proof. intros V o o' v P Q H E q. destruct (H q). rewrite <- E. split; auto. Qed.

Lemma quad_eval_grad_ok : forall o v, like o (quad_new O) ->
  exists o', quad_eval_grad O v o = RRet o' tt /\ like o' (quad_new O) /\
    refreshed o o' v (fun q => exists i, 0 <= i < 2 /\ q = QGrad i).
Proof.
  intros o v L. pose proof (like_built _ _ _ _ L quad_built) as B.
  destruct (grads_refresh _ o quad_family [0; 1] v B) as (o' & E & B' & R).
  { intros i [<-|[<-|[]]]; do 2 eexists; split; reflexivity. }
  exists o'. split; [exact E|]. split.
  - exists quad_family. split; [exact B'|exact quad_built].
  - eapply refreshed_iff; [exact R|]. intros q; split; intros (i & Hi & ->); exists i; (split; [|reflexivity]); simpl in *; lia.
Qed.

Lemma quad_eval_hess_ok : forall o v, like o (quad_new O) ->
  exists o', quad_eval_hess O v o = RRet o' tt /\ like o' (quad_new O) /\
    refreshed o o' v (fun q => exists i j, 0 <= i < 2 /\ 0 <= j < 2 /\ q = QHess i j).
Proof.
  intros o v L. pose proof (like_built _ _ _ _ L quad_built) as B.
  destruct (hesses_refresh _ o quad_family [(0, 0); (0, 1); (1, 0); (1, 1)] v B) as (o' & E & B' & R).
  { intros i j Hi. simpl in Hi. repeat (destruct Hi as [Hi|Hi]; [injection Hi as <- <-; do 2 eexists; split; reflexivity|]). destruct Hi. }
  exists o'. split; [exact E|]. split.
  - exists quad_family. split; [exact B'|exact quad_built].
  - eapply refreshed_iff; [exact R|]. intros q; split.
    + intros (i & j & Hi & ->); exists i, j. simpl in Hi. 
      repeat (destruct Hi as [Hi|Hi]; [injection Hi as <- <-; repeat split; lia|]). destruct Hi.
    + intros (i & j & Hi & Hj & ->); exists i, j. split; [|reflexivity].
      assert (i = 0 \/ i = 1) as [-> | ->] by lia; assert (j = 0 \/ j = 1) as [-> | ->] by lia; simpl; tauto.
Qed.

Lemma hex_eval_grad_ok : forall o v, like o (hex_new O) ->
  exists o', hex_eval_grad O v o = RRet o' tt /\ like o' (hex_new O) /\
    refreshed o o' v (fun q => exists i, 0 <= i < 2 /\ q = QGrad i).
Proof.
  intros o v L. pose proof (like_built _ _ _ _ L hex_built) as B.
  destruct (grads_refresh _ o hex_family [0; 1] v B) as (o' & E & B' & R).
  { intros i [<-|[<-|[]]]; do 2 eexists; split; reflexivity. }
  exists o'. split; [exact E|]. split.
  - exists hex_family. split; [exact B'|exact hex_built].
  - eapply refreshed_iff; [exact R|]. intros q; split; intros (i & Hi & ->); exists i; (split; [|reflexivity]); simpl in *; lia.
Qed.

Lemma hex_eval_hess_ok : forall o v, like o (hex_new O) ->
  exists o', hex_eval_hess O v o = RRet o' tt /\ like o' (hex_new O) /\
    refreshed o o' v (fun q => exists i j, 0 <= i < 2 /\ 0 <= j < 2 /\ q = QHess i j).
Proof.
  intros o v L. pose proof (like_built _ _ _ _ L hex_built) as B.
  destruct (hesses_refresh _ o hex_family [(0, 0); (0, 1); (1, 0); (1, 1)] v B) as (o' & E & B' & R).
  { intros i j Hi. simpl in Hi. repeat (destruct Hi as [Hi|Hi]; [injection Hi as <- <-; do 2 eexists; split; reflexivity|]). destruct Hi. }
  exists o'. split; [exact E|]. split.
  - exists hex_family. split; [exact B'|exact hex_built].
  - eapply refreshed_iff; [exact R|]. intros q; split.
    + intros (i & j & Hi & ->); exists i, j. simpl in Hi. 
      repeat (destruct Hi as [Hi|Hi]; [injection Hi as <- <-; repeat split; lia|]). destruct Hi.
    + intros (i & j & Hi & Hj & ->); exists i, j. split; [|reflexivity].
      assert (i = 0 \/ i = 1) as [-> | ->] by lia; assert (j = 0 \/ j = 1) as [-> | ->] by lia; simpl; tauto.
Qed.

End Objects.
