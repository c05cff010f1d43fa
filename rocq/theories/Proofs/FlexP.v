(** PFlexFunction: what is accepted, and evaluation. *)
From Coq Require Import ZArith List Bool Lia Arith String.
From Verif Require Import Model.Outcome Model.PSimple Model.FuncObj Model.BasisSet Model.PFlex Spec.Funcs Spec.Flex Proofs.OutcomeP Proofs.FuncObjP.
Import ListNotations.
Local Open Scope Z_scope.

Lemma zseq_in : forall n i, In i (zseq n) <-> 0 <= i < n.
Proof.
  intros n i. unfold zseq. rewrite in_map_iff. split.
  - intros (k & <- & H). apply in_seq in H. lia.
  - intros H. exists (Z.to_nat i). split; [lia|]. apply in_seq. lia.
Qed.

Lemma get_bind : forall (S B : Type) (k : S -> M S B) s, mbind mget k s = k s s.
Proof. reflexivity. Qed.
Lemma lift_bind : forall (S X B : Type) (m : outcome X) (k : X -> M S B) s x, m = Ok x -> mbind (mlift m) k s = k x s.
Proof. intros S X B m k s x ->. reflexivity. Qed.

Lemma ret_bind : forall (S X B : Type) (m : M S X) (k : X -> M S B) s s' x, m s = RRet s' x -> mbind m k s = k x s'.
Proof. intros S X B m k s s' x E. unfold mbind. rewrite E. reflexivity. Qed.

Section Make.
Context {V A : Type}.
Implicit Types (f : flex V A) (o : fobj V A).

Lemma check_rows : forall n (h : list (list (simplef V A))),
  ((forall row, In row h -> List.length row = n) -> ofold (fun (_ : unit) row => if negb (Nat.eqb (List.length row) n) then Exit else Ok tt) h tt = Ok tt) /\
  (~ (forall row, In row h -> List.length row = n) -> ofold (fun (_ : unit) row => if negb (Nat.eqb (List.length row) n) then Exit else Ok tt) h tt = Exit).
Proof.
  intros n h. induction h as [|r h [IH1 IH2]]; cbn.
  - split; [reflexivity|]. intros H. exfalso. apply H. intros row [].
  - split; intros H; destruct (Nat.eqb_spec (List.length r) n) as [E|E]; cbn.
    + apply IH1. intros row Hr. apply H. now right.
    + exfalso. apply E. apply H. now left.
    + apply IH2. intros H'. apply H. intros row [<-|Hr]; auto.
    + reflexivity.
Qed.

Lemma check_spec : forall f,
  (consistent (fl_vars f) (fl_descr f) (fl_grad f) (fl_hess f) -> fl_check f = Ok tt) /\
  (~ consistent (fl_vars f) (fl_descr f) (fl_grad f) (fl_hess f) -> fl_check f = Exit).
Proof.
  intros f. unfold fl_check, consistent. destruct (check_rows (List.length (fl_vars f)) (fl_hess f)) as [C1 C2].
  split; intros H.
  - destruct H as (-> & -> & -> & H). rewrite !Nat.eqb_refl. cbn. apply C1. exact H.
  - destruct (Nat.eqb_spec (List.length (fl_descr f)) (List.length (fl_vars f))) as [E1|]; [|reflexivity].
    destruct (Nat.eqb_spec (List.length (fl_grad f)) (List.length (fl_vars f))) as [E2|]; [|reflexivity].
    destruct (Nat.eqb_spec (List.length (fl_hess f)) (List.length (fl_vars f))) as [E3|]; [|reflexivity].
    cbn. apply C2. intros H'. apply H. auto.
Qed.

Lemma make_spec : forall name vars descr (v : simplef V A) g h,
  (consistent vars descr g h -> fl_make name vars descr v g h = Ok (mkFlex name vars descr v g h)) /\
  (~ consistent vars descr g h -> fl_make name vars descr v g h = Exit).
Proof.
  intros name vars descr v g h. destruct (check_spec (mkFlex name vars descr v g h)) as [C1 C2]. unfold fl_make.
  split; intros H; [rewrite (C1 H)|rewrite (C2 H)]; reflexivity.
Qed.

Lemma assign_items_some : forall (l : list (simple V A)) old i, assign_items (fun _ => sf_assign) i old (map Some l) = Ok (map Some l).
Proof.
  induction l as [|s l IH]; intros [|o old] i; cbn [map assign_items]; try reflexivity. cbn. rewrite IH. reflexivity.
Qed.
Lemma vec_assign_some : forall r (l : list (simple V A)) old, vec_assign (fun _ => sf_assign) r old (map Some l) = Ok (map Some l).
Proof. intros r l old. unfold vec_assign. destruct r; [apply assign_items_some|reflexivity]. Qed.
Lemma assign_rows_some : forall rr (h : list (list (simple V A))) old i,
  assign_items (fun i => vec_assign (fun _ => sf_assign) (rr i)) i old (map (map Some) h) = Ok (map (map Some) h).
Proof.
  intros rr. induction h as [|s l IH]; intros [|o old] i; cbn [map assign_items]; try reflexivity. rewrite vec_assign_some. cbn. rewrite IH. reflexivity.
Qed.

Lemma set_spec : forall rg rh rr name vars descr (o : fobj V A) f,
  let g := map Some (fo_grad o) in let h := map (map Some) (fo_hess o) in
  (consistent vars descr (fo_grad o) (fo_hess o) ->
    fl_set rg rh rr name vars descr (Some (fo_val o)) g h f = Ok (mkFlex name vars descr (Some (fo_val o)) g h)) /\
  (~ consistent vars descr (fo_grad o) (fo_hess o) -> fl_set rg rh rr name vars descr (Some (fo_val o)) g h f = Exit).
Proof.
  intros rg rh rr name vars descr o f g h. unfold fl_set. unfold g. rewrite vec_assign_some.
  assert (E : vec_assign (fun i => vec_assign (fun _ => sf_assign) (rr i)) rh (fl_hess f) h = Ok h).
  { unfold h, vec_assign at 1. destruct rh; [apply assign_rows_some|reflexivity]. }
  cbn. rewrite E. cbn. destruct (check_spec (mkFlex name vars descr (Some (fo_val o)) (map Some (fo_grad o)) h)) as [C1 C2]. cbn in C1, C2.
  assert (Q : consistent vars descr (map Some (fo_grad o)) h <-> consistent vars descr (fo_grad o) (fo_hess o)).
  { unfold consistent, h. rewrite !map_length. split; intros (H1 & H2 & H3 & H4); repeat split; auto.
    - intros row Hr. rewrite <- (map_length (@Some (simple V A))). apply H4. apply in_map_iff. eauto.
    - intros row Hr. apply in_map_iff in Hr. destruct Hr as (r & <- & Hr). rewrite map_length. auto. }
  split; intros H; [rewrite C1; [reflexivity|now apply Q]|rewrite C2; [reflexivity|]]. intros H'. apply H, Q, H'.
Qed.

(** A missing function among those given: assigned to an element already there it is undefined behaviour. *)
Lemma set_empty_val : forall rg rh rr name vars descr g h f, fl_set (V := V) (A := A) rg rh rr name vars descr None g h f = UB UBNull.
Proof. reflexivity. Qed.

Lemma copy_spec : forall f, fl_copy f = match fl_val f with None => UB UBNull | Some _ => Ok f end.
Proof. intros [name vars descr [s|] g h]; reflexivity. Qed.
Lemma clear_bad : forall f, fl_clear f = UB UBNull.
Proof. reflexivity. Qed.
Lemma assign_items_outcome : forall (T : Type) (asg : nat -> T -> T -> outcome T), (forall i a b, (exists c, asg i a b = Ok c) \/ exists u, asg i a b = UB u) ->
  forall new old i, (exists l, assign_items asg i old new = Ok l) \/ exists u, assign_items asg i old new = UB u.
Proof.
  intros T asg H. induction new as [|n new IH]; intros [|o old] i; cbn; eauto.
  destruct (H i o n) as [[c ->]|[u ->]]; cbn; eauto. destruct (IH old (Datatypes.S i)) as [[l ->]|[u ->]]; cbn; eauto.
Qed.
Lemma vec_assign_outcome : forall (T : Type) (asg : nat -> T -> T -> outcome T) r, (forall i a b, (exists c, asg i a b = Ok c) \/ exists u, asg i a b = UB u) ->
  forall new old, (exists l, vec_assign asg r old new = Ok l) \/ exists u, vec_assign asg r old new = UB u.
Proof. intros T asg [|] H new old; cbn; eauto. apply assign_items_outcome. exact H. Qed.
Lemma sf_assign_outcome : forall a b : simplef V A, (exists c, sf_assign a b = Ok c) \/ exists u, sf_assign a b = UB u.
Proof. intros a [s|]; cbn; eauto. Qed.
Lemma assign_bad : forall rg rh rr r f, exists u, fl_assign (V := V) (A := A) rg rh rr r f = UB u.
Proof.
  intros rg rh rr r f. unfold fl_assign. destruct (sf_assign_outcome (fl_val f) (fl_val r)) as [[c ->]|[u ->]]; cbn; eauto.
  destruct (vec_assign_outcome _ (fun _ => sf_assign) rg (fun _ => sf_assign_outcome) (fl_grad r) (fl_grad f)) as [[l ->]|[u ->]]; cbn; eauto.
  assert (H : forall i (a b : list (simplef V A)), (exists c, vec_assign (fun _ => sf_assign) (rr i) a b = Ok c) \/
    exists u, vec_assign (fun _ => sf_assign) (rr i) a b = UB u).
  { intros i a b. apply vec_assign_outcome. intros _. apply sf_assign_outcome. }
  destruct (vec_assign_outcome _ (fun i => vec_assign (fun _ => sf_assign) (rr i)) rh H (fl_hess r) (fl_hess f)) as [[k ->]|[u ->]]; cbn; eauto.
Qed.
End Make.

(** ** Evaluation *)
Section Eval.
Context {V A : Type}.
Variables (name : string) (vars descr : list string).

Definition to_flex (o : fobj V A) : flex V A := mkFlex name vars descr (Some (fo_val o)) (map Some (fo_grad o)) (map (map Some) (fo_hess o)).

Definition res_st {S S' B : Type} (g : S -> S') (r : res S B) : res S' B :=
  match r with RRet s b => RRet (g s) b | RThrow s e => RThrow (g s) e | RExit => RExit | RUB u => RUB u | RNoFuel => RNoFuel end.

Lemma vget_map : forall (X Y : Type) (g : X -> Y) l i, vget (map g l) i = match vget l i with Ok a => Ok (g a) | Throw e => Throw e | Exit => Exit | UB u => UB u | NoFuel => NoFuel end.
Proof. intros X Y g l i. unfold vget. destruct (0 <=? i); [|reflexivity]. rewrite nth_error_map. destruct (nth_error l (Z.to_nat i)); reflexivity. Qed.
Lemma map_lset : forall (X Y : Type) (g : X -> Y) l n a, map g (lset l n a) = lset (map g l) n (g a).
Proof. intros X Y g. induction l as [|x l IH]; intros [|n] a; cbn; try reflexivity. f_equal. apply IH. Qed.
Lemma on_elem_map : forall (S S' B : Type) (g : S -> S') (m : M S B) (m' : M S' B), (forall s, m' (g s) = res_st g (m s)) ->
  forall l i, on_elem i m' (map g l) = res_st (map g) (on_elem i m l).
Proof.
  intros S S' B g m m' H l i. unfold on_elem. rewrite vget_map. destruct (vget l i) as [s| | | |]; cbn; try reflexivity.
  rewrite H. destruct (m s); cbn; rewrite ?map_lset; reflexivity.
Qed.
Lemma sf_do_some : forall (B : Type) (m : M (simple V A) B) s, sf_do m (Some s) = res_st Some (m s).
Proof. intros B m s. cbn. destruct (m s); reflexivity. Qed.

Lemma flex_evaluate_sim : forall q v o, flex_evaluate q v (to_flex o) = res_st to_flex (evaluate q v o).
Proof.
  intros [|i|i j] v o; cbn [flex_evaluate evaluate].
  - unfold fl_call, on_fval, fo_call, on_val. cbn [to_flex fl_val]. rewrite sf_do_some. destruct (sp_call v (fo_val o)); reflexivity.
  - unfold fl_call_grad, on_fgrad, fo_call_grad, on_grad. cbn [to_flex fl_grad].
    rewrite (on_elem_map _ _ _ _ _ _ (sf_do_some _ (sp_call v))). destruct (on_elem i (sp_call v) (fo_grad o)); reflexivity.
  - unfold fl_call_hess, on_fhess, fo_call_hess, on_hess. cbn [to_flex fl_hess].
    rewrite (on_elem_map _ _ _ (map Some) (on_elem j (sp_call v)) _ (fun l => on_elem_map _ _ _ _ _ _ (sf_do_some _ (sp_call v)) l j)).
    destruct (on_elem i (on_elem j (sp_call v)) (fo_hess o)); reflexivity.
Qed.
Lemma flex_stored_sim : forall q o, flex_stored (to_flex o) q = stored o q.
Proof.
  intros [|i|i j] o; cbn [flex_stored stored].
  - reflexivity.
  - unfold fl_get_grad, fo_get_grad. cbn [to_flex fl_grad]. rewrite vget_map. destruct (vget (fo_grad o) i); reflexivity.
  - unfold fl_get_hess, fo_get_hess. cbn [to_flex fl_hess]. rewrite vget_map. destruct (vget (fo_hess o) i) as [row| | | |]; cbn; try reflexivity.
    rewrite vget_map. destruct (vget row j); reflexivity.
Qed.

Lemma mfor_sim : forall (S S' X : Type) (g : S -> S') (m : X -> M S unit) (m' : X -> M S' unit), (forall x s, m' x (g s) = res_st g (m x s)) ->
  forall l s, mfor l m' (g s) = res_st g (mfor l m s).
Proof.
  intros S S' X g m m' H. induction l as [|x l IH]; intros s; cbn; [reflexivity|]. unfold mbind. rewrite H. destruct (m x s); cbn; auto.
Qed.
Lemma eval_grad_sim : forall v o, fl_eval_grad v (to_flex o) = res_st to_flex (fo_eval_grads (zseq (Z.of_nat (List.length (fo_grad o)))) v o).
Proof.
  intros v o. unfold fl_eval_grad. rewrite get_bind. cbn [to_flex fl_grad]. rewrite map_length. apply mfor_sim.
  intros i s. unfold mbind. assert (E := flex_evaluate_sim (QGrad i) v s). cbn [flex_evaluate evaluate] in E. rewrite E.
  destruct (fo_call_grad v i s); reflexivity.
Qed.

Lemma hess_row_sim : forall v i l o, mfor l (fun j => fl_call_hess v i j ;;; mret tt) (to_flex o) = res_st to_flex (fo_eval_hesses (map (pair i) l) v o).
Proof.
  intros v i. induction l as [|j l IH]; intros o; cbn; [reflexivity|]. unfold mbind.
  assert (E := flex_evaluate_sim (QHess i j) v o). cbn [flex_evaluate evaluate] in E. rewrite E.
  destruct (fo_call_hess v i j o); cbn; auto. apply IH.
Qed.

Lemma row_len : forall (o : fobj V A) F i n row, built_from o F -> (forall j, F (QHess i j) <> None <-> 0 <= j < n) -> vget (fo_hess o) i = Ok row ->
  0 <= n -> Z.of_nat (List.length row) = n.
Proof.
  intros o F i n row (_ & _ & HF) Hn Hr Hp. assert (Hj : forall j, F (QHess i j) <> None <-> 0 <= j < Z.of_nat (List.length row)).
  { intros j. rewrite HF, Hr. rewrite <- vget_ok_iff. destruct (vget row j); split; try congruence; eauto; intros (b & H); discriminate. }
  destruct (Z.lt_trichotomy (Z.of_nat (List.length row)) n) as [H|[H|H]]; auto; exfalso.
  - assert (0 <= Z.of_nat (List.length row) < n) by lia. apply Hn, Hj in H0. lia.
  - assert (0 <= n < Z.of_nat (List.length row)) by lia. apply Hj, Hn in H0. lia.
Qed.

Lemma hesses_app : forall l1 l2 v (o : fobj V A), fo_eval_hesses (l1 ++ l2) v o = (fo_eval_hesses l1 v ;;; fo_eval_hesses l2 v) o.
Proof.
  induction l1 as [|p l1 IH]; intros l2 v o; [reflexivity|]. cbn [app]. unfold fo_eval_hesses in *. cbn [mfor]. unfold mbind in *.
  destruct (fo_call_hess v (fst p) (snd p) o); cbn; auto.
Qed.

Lemma hess_loop_sim : forall n v F, (forall i j, F (QHess i j) <> None <-> 0 <= i < n /\ 0 <= j < n) ->
  (forall i j, 0 <= i < n -> 0 <= j < n -> exists f a, F (QHess i j) = Some f /\ f v = Ok a) ->
  forall l, (forall i, In i l -> 0 <= i < n) -> forall o, built_from o F ->
  mfor l (fun i => do* o' := mget in do* row := mlift (vget (fl_hess o') i) in
    mfor (zseq (Z.of_nat (List.length row))) (fun j => fl_call_hess v i j ;;; mret tt)) (to_flex o) =
  res_st to_flex (fo_eval_hesses (flat_map (fun i => map (pair i) (zseq n)) l) v o).
Proof.
  intros n v F Hd Hv. induction l as [|i l IH]; intros Hl o HF; [reflexivity|].
  assert (Hi : 0 <= i < n) by (apply Hl; now left). cbn [mfor flat_map]. rewrite hesses_app.
  assert (Er : exists row, vget (fo_hess o) i = Ok row).
  { assert (Hne : F (QHess i 0) <> None) by (apply Hd; lia). destruct HF as (_ & _ & H2). rewrite H2 in Hne. destruct (vget (fo_hess o) i); try congruence. eauto. }
  destruct Er as (row & Er).
  assert (L : Z.of_nat (List.length row) = n) by (eapply row_len; eauto; [|lia]; intros j; rewrite Hd; lia).
  destruct (hesses_spec (map (pair i) (zseq n)) v o F HF) as (o1 & E1 & B1 & _ & _).
  { intros i' j' Hin. apply in_map_iff in Hin. destruct Hin as (j & E & Hj). injection E as <- <-. apply zseq_in in Hj. apply Hv; lia. }
  rewrite (ret_bind _ _ _ _ _ _ _ _ E1). erewrite ret_bind; [apply IH; auto|]. 2:{
    rewrite get_bind. assert (Er' : vget (fl_hess (to_flex o)) i = Ok (map Some row)) by (cbn [to_flex fl_hess]; rewrite vget_map, Er; reflexivity).
    rewrite (lift_bind _ _ _ _ _ _ _ Er'), map_length, L. rewrite hess_row_sim, E1. reflexivity. }
  intros i' Hi'. apply Hl. now right.
Qed.
End Eval.

Section Final.
Context {V A : Type}.
Implicit Types (f : flex V A) (o : fobj V A) (F : family V A).

Lemma full_to : forall f o, full f o <-> f = to_flex (fl_name f) (fl_vars f) (fl_descr f) o.
Proof.
  intros [name vars descr v g h] o. unfold full, to_flex. cbn. split.
  - intros (-> & -> & ->). reflexivity.
  - intros E. injection E as E1 E2 E3. auto.
Qed.

Lemma flex_value : forall f o F, full f o -> built_from o F -> forall q fn v, F q = Some fn -> res_outcome (flex_evaluate q v f) = fn v.
Proof.
  intros f o F Hf HF q fn v Hq. apply full_to in Hf. rewrite Hf, flex_evaluate_sim, <- (evaluate_outcome o F q fn v HF Hq).
  destruct (evaluate q v o); reflexivity.
Qed.

Lemma flex_history : forall f o F h f', full f o -> built_from o F -> flex_evaluations F f h f' ->
  exists o', full f' o' /\ evaluations F o h o'.
Proof.
  intros f o F h f' Hf HF H. induction H as [f|f h f1 q v f2 H IH Hq Hr].
  - exists o. split; [exact Hf|constructor].
  - destruct (IH Hf) as (o1 & Hf1 & He). apply full_to in Hf1. rewrite Hf1, flex_evaluate_sim in Hr.
    destruct Hr as [[a Hr]|[e Hr]]; destruct (evaluate q v o1) as [o2 b|o2 e'| | |] eqn:E; cbn in Hr; try discriminate; injection Hr as <- <-.
    + exists o2. split; [apply full_to; reflexivity|]. econstructor; eauto.
    + exists o2. split; [apply full_to; reflexivity|]. econstructor; eauto.
Qed.

Lemma initial_agrees : forall o F, built_from o F -> agrees o F (initial o).
Proof.
  intros o F HF q Hq. unfold initial. rewrite (component_family _ _ HF) in Hq. rewrite stored_component.
  destruct (component o q) as [s| | | |]; try congruence. cbn. destruct (sp_val s); reflexivity.
Qed.

Lemma stored_history : forall F o h o', built_from o F -> evaluations F o h o' ->
  forall q, F q <> None -> stored o' q = read_member (fold_left (recall F) h (initial o) q).
Proof. intros F o h o' HF H q Hq. destruct (history_agrees _ _ _ _ H _ HF (initial_agrees _ _ HF)) as [_ Ha]. apply Ha. exact Hq. Qed.

Lemma flex_stored_full : forall f o q, full f o -> flex_stored f q = stored o q.
Proof. intros f o q Hf. apply full_to in Hf. rewrite Hf. apply flex_stored_sim. Qed.

Lemma flex_stored_history : forall F f o h f', full f o -> built_from o F -> flex_evaluations F f h f' ->
  forall q, F q <> None -> flex_stored f' q = read_member (fold_left (recall F) h (initial o) q).
Proof.
  intros F f o h f' Hf HF H q Hq. destruct (flex_history _ _ _ _ _ Hf HF H) as (o' & Hf' & He).
  rewrite (flex_stored_full _ _ _ Hf'). eapply stored_history; eauto.
Qed.

Lemma return_is_stored : forall o F q v o' a, built_from o F -> F q <> None -> evaluate q v o = RRet o' a ->
  stored o' q = Ok a /\ forall q', q' <> q -> stored o' q' = stored o q'.
Proof.
  intros o F q v o' a HF Hq E. destruct (F q) as [fn|] eqn:Eq; [|congruence].
  assert (Ho := evaluate_outcome _ _ _ _ v HF Eq). rewrite E in Ho. cbn in Ho.
  destruct (evaluate_spec _ _ _ _ _ _ HF Eq (eq_sym Ho)) as (o2 & E2 & _ & S1 & S2). rewrite E in E2. injection E2 as <-. auto.
Qed.

Lemma flex_return_is_stored : forall f o F q v f' a, full f o -> built_from o F -> F q <> None -> flex_evaluate q v f = RRet f' a ->
  flex_stored f' q = Ok a /\ forall q', q' <> q -> flex_stored f' q' = flex_stored f q'.
Proof.
  intros f o F q v f' a Hf HF Hq E. assert (Hf' := Hf). apply full_to in Hf'. rewrite Hf', flex_evaluate_sim in E.
  destruct (evaluate q v o) as [o2 b|o2 e'| | |] eqn:E2; cbn in E; try discriminate. injection E as <- <-.
  destruct (return_is_stored _ _ _ _ _ _ HF Hq E2) as [S1 S2]. split; [rewrite flex_stored_sim; exact S1|].
  intros q' Hn. rewrite flex_stored_sim, (flex_stored_full _ _ _ Hf). auto.
Qed.

Lemma flex_eval : forall f o F v fn a, full f o -> built_from o F -> F QVal = Some fn -> fn v = Ok a ->
  exists f', fl_eval v f = RRet f' tt /\ flex_stored f' QVal = Ok a /\ forall q, q <> QVal -> flex_stored f' q = flex_stored f q.
Proof.
  intros f o F v fn a Hf HF Hq Ha. pose proof (flex_value f o F Hf HF QVal fn v Hq) as E. rewrite Ha in E. cbn [flex_evaluate] in E.
  destruct (fl_call v f) as [f' b| | | |] eqn:Ec; try discriminate. injection E as ->. exists f'. split; [unfold fl_eval, mbind; rewrite Ec; reflexivity|].
  apply (flex_return_is_stored f o F QVal v f' a Hf HF); [congruence|exact Ec].
Qed.
Lemma flex_hands_out : forall f o F q fn, full f o -> built_from o F -> F q = Some fn ->
  exists s, flex_simple f q = Ok (Some s) /\ (forall v, res_outcome (sf_do (sp_call v) (Some s)) = fn v) /\ sf_get (Some s) = flex_stored f q.
Proof.
  intros f o F q fn Hf HF Hq. rewrite (component_family _ _ HF) in Hq. destruct (component o q) as [s| | | |] eqn:Ec; try discriminate. injection Hq as <-.
  exists s. split; [|split].
  - destruct Hf as (H1 & H2 & H3). destruct q as [|i|i j]; cbn [flex_simple component] in *; unfold fl_simple, fl_grad_simple, fl_hess_simple.
    + injection Ec as <-. rewrite H1. reflexivity.
    + rewrite H2, vget_map, Ec. reflexivity.
    + rewrite H3, vget_map. destruct (vget (fo_hess o) i) as [row| | | |]; try discriminate. cbn [obind] in *. rewrite vget_map, Ec. reflexivity.
  - intros v. unfold sf_do, sp_call, mget, mlift, mput, mret, mbind. destruct (sp_eval s v); reflexivity.
  - rewrite (flex_stored_full _ _ _ Hf), stored_component, Ec. reflexivity.
Qed.

Lemma flex_eval_grad : forall f o F v, full f o -> built_from o F ->
  (forall i fn, F (QGrad i) = Some fn -> exists a, fn v = Ok a) ->
  exists f', fl_eval_grad v f = RRet f' tt /\
    (forall i fn, F (QGrad i) = Some fn -> flex_stored f' (QGrad i) = fn v) /\
    (forall q, (forall i, q <> QGrad i) -> flex_stored f' q = flex_stored f q).
Proof.
  intros f o F v Hf HF Hv. assert (Hf' := Hf). apply full_to in Hf'. rewrite Hf', eval_grad_sim.
  assert (Hd : forall i, In i (zseq (Z.of_nat (List.length (fo_grad o)))) <-> F (QGrad i) <> None).
  { intros i. rewrite zseq_in. destruct HF as (_ & H1 & _). rewrite H1. rewrite <- vget_ok_iff.
    destruct (vget (fo_grad o) i); split; try congruence; eauto; intros (b & H); discriminate. }
  destruct (grads_spec (zseq (Z.of_nat (List.length (fo_grad o)))) v o F HF) as (o' & E & _ & S1 & S2).
  { intros i Hi. apply Hd in Hi. destruct (F (QGrad i)) as [fn|] eqn:Ef; [|congruence]. destruct (Hv _ _ Ef) as (a & Ha). eauto. }
  rewrite E. eexists. split; [reflexivity|]. split.
  - intros i fn Hi. rewrite flex_stored_sim. destruct (Hv _ _ Hi) as (a & Ha). rewrite Ha. eapply S1; eauto. apply Hd. congruence.
  - intros q Hq. rewrite !flex_stored_sim. apply S2. auto.
Qed.

Lemma flex_eval_hess : forall f o F v n, full f o -> built_from o F -> (forall i j, F (QHess i j) <> None <-> 0 <= i < n /\ 0 <= j < n) ->
  Z.of_nat (List.length (fl_hess f)) = n ->
  (forall i j fn, F (QHess i j) = Some fn -> exists a, fn v = Ok a) ->
  exists f', fl_eval_hess v f = RRet f' tt /\
    (forall i j fn, F (QHess i j) = Some fn -> flex_stored f' (QHess i j) = fn v) /\
    (forall q, (forall i j, q <> QHess i j) -> flex_stored f' q = flex_stored f q).
Proof.
  intros f o F v n Hf HF Hd Hn Hv. assert (Hf' := Hf). apply full_to in Hf'. rewrite Hf' in *. unfold fl_eval_hess. rewrite get_bind.
  cbn [to_flex fl_hess fl_name fl_vars fl_descr] in *. rewrite map_length in *. rewrite Hn.
  change (mkFlex (fl_name f) (fl_vars f) (fl_descr f) (Some (fo_val o)) (map Some (fo_grad o)) (map (map Some) (fo_hess o)))
    with (to_flex (fl_name f) (fl_vars f) (fl_descr f) o).
  assert (Hv' : forall i j, 0 <= i < n -> 0 <= j < n -> exists fn a, F (QHess i j) = Some fn /\ fn v = Ok a).
  { intros i j Hi Hj. assert (Hne : F (QHess i j) <> None) by (apply Hd; auto). destruct (F (QHess i j)) as [fn|] eqn:Ef; [|congruence].
    destruct (Hv _ _ _ Ef) as (a & Ha). eauto. }
  rewrite (hess_loop_sim _ _ _ n v F Hd Hv'); auto; [|intros i Hi; apply zseq_in; exact Hi].
  assert (Hin : forall i j, In (i, j) (flat_map (fun i => map (pair i) (zseq n)) (zseq n)) <-> 0 <= i < n /\ 0 <= j < n).
  { intros i j. rewrite in_flat_map. split.
    - intros (i' & Hi' & Hj). apply in_map_iff in Hj. destruct Hj as (j' & E & Hj'). injection E as <- <-. rewrite zseq_in in *. auto.
    - intros [Hi Hj]. exists i. split; [apply zseq_in; exact Hi|]. apply in_map_iff. exists j. split; [reflexivity|]. apply zseq_in. exact Hj. }
  destruct (hesses_spec (flat_map (fun i => map (pair i) (zseq n)) (zseq n)) v o F HF) as (o' & E & _ & S1 & S2).
  { intros i j Hi. apply Hin in Hi. apply Hv'; tauto. }
  rewrite E. eexists. split; [reflexivity|]. split.
  - intros i j fn Hi. rewrite flex_stored_sim. destruct (Hv _ _ _ Hi) as (a & Ha). rewrite Ha. eapply S1; eauto. apply Hin, Hd. congruence.
  - intros q Hq. rewrite !flex_stored_sim. apply S2. auto.
Qed.

Lemma consistent_hess : forall (vars descr : list string) o F, built_from o F -> consistent vars descr (fo_grad o) (fo_hess o) ->
  forall i j, F (QHess i j) <> None <-> 0 <= i < Z.of_nat (List.length vars) /\ 0 <= j < Z.of_nat (List.length vars).
Proof.
  intros vars descr o F (_ & _ & HF) (_ & _ & H3 & H4) i j. rewrite HF. split.
  - intros H. destruct (vget (fo_hess o) i) as [row| | | |] eqn:Er; try congruence.
    assert (Hi : 0 <= i < Z.of_nat (List.length (fo_hess o))) by (apply vget_ok_iff; eauto).
    destruct (vget row j) as [s| | | |] eqn:Ej; try congruence.
    assert (Hj : 0 <= j < Z.of_nat (List.length row)) by (apply vget_ok_iff; eauto).
    assert (List.length row = List.length vars). { apply H4. apply vget_some in Er. destruct Er as [_ Er]. eapply nth_error_In; eauto. }
    lia.
  - intros [Hi Hj]. rewrite <- H3 in Hi. apply vget_ok_iff in Hi. destruct Hi as (row & Er). rewrite Er.
    assert (List.length row = List.length vars). { apply H4. apply vget_some in Er. destruct Er as [_ Er]. eapply nth_error_In; eauto. }
    rewrite <- H in Hj. apply vget_ok_iff in Hj. destruct Hj as (s & ->). discriminate.
Qed.
End Final.

(** ** Example: x*y, refused for negative x. *)
Definition pos (g : Z * Z -> Z) (p : Z * Z) : outcome Z := if fst p <? 0 then Throw DomainError else Ok (g p).
Definition sx (name : string) (g : Z * Z -> Z) : simple (Z * Z) Z := mkSimple name (pos g) None.
Definition xy : fobj (Z * Z) Z :=
  mkFobj (sx "x*y" (fun p => fst p * snd p)) [sx "y" snd; sx "x" fst] [[sx "0" (fun _ => 0); sx "1" (fun _ => 1)]; [sx "1" (fun _ => 1); sx "0" (fun _ => 0)]].
Definition xyF : family (Z * Z) Z := fun q =>
  match component xy q with Ok s => Some (sp_eval s) | _ => None end.
Lemma xy_built : built_from xy xyF.
Proof. apply family_component. reflexivity. Qed.
Definition xy_flex : flex (Z * Z) Z :=
  mkFlex "xy" ["x"; "y"]%string ["first"; "second"]%string (Some (fo_val xy)) (map Some (fo_grad xy)) (map (map Some) (fo_hess xy)).
Lemma xy_full : full xy_flex xy.
Proof. repeat split. Qed.
Lemma xy_consistent : consistent ["x"; "y"]%string ["first"; "second"]%string (fo_grad xy) (fo_hess xy).
Proof. repeat split. intros row [<-|[<-|[]]]; reflexivity. Qed.
Lemma xy_short : ~ consistent ["x"; "y"]%string ["first"; "second"]%string (fo_grad xy) [[sx "0" (fun _ => 0); sx "1" (fun _ => 1)]; [sx "1" (fun _ => 1)]].
Proof. intros (_ & _ & _ & H). specialize (H _ (or_intror (or_introl eq_refl))). discriminate. Qed.
Definition xy_hist : list (quantity * (Z * Z)) := [(QVal, (2, 3)); (QGrad 1, (5, 7)); (QVal, (-1, 4)); (QHess 0 1, (0, 0))].
Definition set_memory (o : fobj (Z * Z) Z) (a b c : option Z) : fobj (Z * Z) Z :=
  mkFobj (mkSimple "x*y" (sp_eval (fo_val o)) a) [sx "y" snd; mkSimple "x" (pos fst) b]
    [[sx "0" (fun _ => 0); mkSimple "1" (pos (fun _ => 1)) c]; [sx "1" (fun _ => 1); sx "0" (fun _ => 0)]].
Lemma xy_history : exists o', evaluations xyF xy xy_hist o' /\ stored o' QVal = Ok 6 /\ stored o' (QGrad 1) = Ok 5 /\
  stored o' (QGrad 0) = UB UBUninit /\ stored o' (QHess 0 1) = Ok 1.
Proof.
  exists (set_memory xy (Some 6) (Some 5) (Some 1)). split; [|repeat split].
  change xy_hist with (((([] ++ [(QVal, (2, 3))]) ++ [(QGrad 1, (5, 7))]) ++ [(QVal, (-1, 4))]) ++ [(QHess 0 1, (0, 0))]).
  eapply EvStep; [eapply EvStep; [eapply EvStep; [eapply EvStep; [apply EvNone| |]| |]| |]| |]; try discriminate.
  - left. eexists. reflexivity.
  - left. eexists. reflexivity.
  - right. eexists. reflexivity.
  - left. eexists. reflexivity.
Qed.
Lemma xy_flex_history : exists f', flex_evaluations xyF xy_flex [(QVal, (2, 3)); (QGrad 1, (5, 7))] f' /\
  flex_stored f' QVal = Ok 6 /\ flex_stored f' (QGrad 1) = Ok 5.
Proof.
  eexists. split.
  - change [(QVal, (2, 3)); (QGrad 1, (5, 7))] with (([] ++ [(QVal, (2, 3))]) ++ [(QGrad 1, (5, 7))]).
    eapply FlStep; [eapply FlStep; [apply FlNone| |]| |]; try discriminate; left; eexists; reflexivity.
  - split; reflexivity.
Qed.
Lemma xy_defined : forall v, 0 <= fst v -> forall q fn, xyF q = Some fn -> exists a, fn v = Ok a.
Proof.
  assert (P : forall g v, 0 <= fst v -> exists a, pos g v = Ok a).
  { intros g v Hv. unfold pos. destruct (Z.ltb_spec (fst v) 0); [lia|eauto]. }
  intros v Hv q fn. unfold xyF. destruct (component xy q) as [s| | | |] eqn:E; try discriminate. intros H. injection H as <-.
  assert (Hs : exists name g, s = sx name g).
  { destruct q as [|i|i j]; cbn [component] in E.
    - injection E as <-. cbn. eauto.
    - apply vget_some in E. destruct E as [_ E]. apply nth_error_In in E. destruct E as [<-|[<-|[]]]; eauto.
    - destruct (vget (fo_hess xy) i) as [row| | | |] eqn:Er; try discriminate. cbn in E. apply vget_some in Er, E. destruct Er as [_ Er], E as [_ E].
      apply nth_error_In in Er, E. destruct Er as [<-|[<-|[]]]; destruct E as [<-|[<-|[]]]; eauto. }
  destruct Hs as (name & g & ->). cbn. apply P. exact Hv.
Qed.
Lemma xy_has_val : xyF QVal <> None.
Proof. discriminate. Qed.

Lemma base_throws : forall (V A : Type) (s : simple V A) v, sp_eval s = base_eval -> sp_call v s = RThrow s RuntimeError.
Proof. intros V A s v H. unfold sp_call, mbind, mget, mlift. rewrite H. reflexivity. Qed.
