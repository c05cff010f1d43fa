(** Copies and assignments of function objects whose class does not look after its parts. *)
From Coq Require Import ZArith List Bool Lia Permutation.
From Verif Require Import Model.Outcome Model.PSimple Model.Wrapper Model.FuncObj Model.Parts.
From Verif Require Import Spec.Funcs Spec.Parts.
From Verif Require Import Proofs.OutcomeP Proofs.WrapperP Proofs.PartsP Proofs.PartsRepP Proofs.PartsOpsP Proofs.PartsRunP.
From Verif Require Import Spec.Parts.
Import ListNotations.

Section Use.
Context {V A : Type} (c : pclass V A) (n : nat).
Implicit Types m : pmem V A.

Lemma arity_shape : class_of_arity c n -> shape n (pc_parts c).
Proof. intros (H1 & H2 & H3 & _). split; auto. Qed.

Lemma run_app {S : Type} (step : parts_op V -> S -> outcome (S * parts_answer V A)) a b s :
  run_ops step (a ++ b) s = let* r := run_ops step a s in let* q := run_ops step b (fst r) in Ok (fst q, snd r ++ snd q).
Proof.
  revert s. induction a as [|o a IH]; intros s; simpl.
  - destruct (run_ops step b s) as [[s' l]| | | |]; reflexivity.
  - destruct (step o s) as [[s1 x]| | | |]; simpl; auto. rewrite IH. destruct (run_ops step a s1) as [[s2 l]| | | |]; simpl; auto.
    destruct (run_ops step b s2) as [[s3 l3]| | | |]; reflexivity.
Qed.

(** Every program is the program with values, and nothing is lost. *)
Lemma same_answers os : class_of_arity c n -> Forall (allowed (pc_copying c)) os ->
  (let* r := parts_run c os in Ok (snd r)) = (let* r := values_run c (keeps (pc_copying c)) os in Ok (snd r)).
Proof.
  intros CA F. pose proof (run_refines c n (arity_shape CA) os F no_memory [] (start_R n)) as H. unfold parts_run, values_run.
  destruct (run_ops (parts_step c) os no_memory) as [[m a]| | | |], (run_ops (values_step c (keeps (pc_copying c))) os []) as [[vs a']| | | |]; simpl in H |- *; try contradiction; try reflexivity.
  - destruct H as [-> _]. reflexivity.
  - congruence.
Qed.

Lemma same_memory os m a : class_of_arity c n -> Forall (allowed (pc_copying c)) os -> parts_run c os = Ok (m, a) ->
  exists vs, values_run c (keeps (pc_copying c)) os = Ok (vs, a) /\ holds_objects n (alive vs) m.
Proof.
  intros CA F E. pose proof (run_refines c n (arity_shape CA) os F no_memory [] (start_R n)) as H. unfold parts_run, values_run in *. rewrite E in H.
  destruct (run_ops (values_step c (keeps (pc_copying c))) os []) as [[vs a']| | | |]; simpl in H; try contradiction. destruct H as [-> H].
  exists vs. split; [reflexivity|]. eapply R_counts. exact H.
Qed.

Lemma reach os vs a : class_of_arity c n -> Forall (allowed (pc_copying c)) os -> values_run c (keeps (pc_copying c)) os = Ok (vs, a) ->
  exists m, parts_run c os = Ok (m, a) /\ R n m vs.
Proof.
  intros CA F E. pose proof (run_refines c n (arity_shape CA) os F no_memory [] (start_R n)) as H. unfold parts_run, values_run in *. rewrite E in H.
  destruct (run_ops (parts_step c) os no_memory) as [[m a']| | | |]; simpl in H; try contradiction. destruct H as [-> H]. eauto.
Qed.

Lemma fresh_part_empty q s : class_of_arity c n -> part_of (pc_parts c) q = Ok s -> sp_val s = None.
Proof.
  intros (_ & _ & _ & H1 & H2 & H3). destruct q as [|i|i j]; simpl; intros H.
  - injection H as <-. exact H1.
  - apply vget_some in H as (_ & H). rewrite Forall_forall in H2. apply H2. exact (nth_error_In _ _ H).
  - destruct (vget (fo_hess (pc_parts c)) i) as [row| | | |] eqn:E; try discriminate H. simpl in H. apply vget_some in E as (_ & E). apply vget_some in H as (_ & H).
    rewrite Forall_forall in H3. pose proof (H3 _ (nth_error_In _ _ E)) as H4. rewrite Forall_forall in H4. apply H4. exact (nth_error_In _ _ H).
Qed.

Lemma copy_forgets os vs a x v q s : class_of_arity c n -> keeps (pc_copying c) = false -> Forall (allowed (pc_copying c)) os ->
  values_run c false os = Ok (vs, a) -> nth_error vs x = Some (Some v) -> part_of (pc_parts c) q = Ok s ->
  parts_run c (os ++ [PCopy x; PGet (length vs) q]) = UB UBUninit.
Proof.
  intros CA K F E Hx Hq. rewrite <- K in E. destruct (reach os vs a CA F E) as (m & E1 & H). unfold parts_run in *. rewrite run_app, E1. simpl.
  pose proof (step_refines c n (arity_shape CA) (PCopy x) m vs) as S. rewrite K in S. assert (AL : allowed (pc_copying c) (PCopy (V := V) x)) by (destruct (pc_copying c); exact Logic.I).
  specialize (S AL H). cbn [values_step] in S. unfold h_read in S at 1. rewrite Hx in S. simpl in S.
  destruct (answer (fun _ => Done) (pv_copy c x m)) as [[m1 a1]| | | |]; simpl in S |- *; try contradiction. destruct S as [-> H1].
  assert (AL2 : allowed (pc_copying c) (PGet (V := V) (length vs) q)) by (destruct (pc_copying c); exact Logic.I).
  pose proof (step_refines c n (arity_shape CA) (PGet (length vs) q) m1 _ AL2 H1) as S. rewrite K in S.
  assert (E2 : values_step c false (PGet (length vs) q) (h_new (pc_parts c) vs) = UB UBUninit).
  { pose proof (fresh_part_empty q s CA Hq) as N. unfold values_step, h_read, h_new. rewrite nth_error_app2, Nat.sub_diag by lia. simpl.
    destruct q as [|i|i j]; simpl in Hq |- *; unfold fo_get, fo_get_grad, fo_get_hess, sp_get, read_member.
    - injection Hq as ->. rewrite N. reflexivity.
    - rewrite Hq. simpl. rewrite N. reflexivity.
    - destruct (vget (fo_hess (pc_parts c)) i) as [row| | | |]; simpl in Hq |- *; try discriminate Hq. rewrite Hq. simpl. rewrite N. reflexivity. }
  rewrite E2 in S. destruct (parts_step c (PGet (length vs) q) m1) as [[m2 a2]| | | |] eqn:E3; simpl in S; try contradiction. rewrite S in E3.
  unfold parts_step in E3. destruct q; rewrite E3; reflexivity.
Qed.

(** ** Heaps do not shrink *)

Definition kept {B : Type} (f : M (pmem V A) B) : Prop :=
  forall m m' b, f m = RRet m' b -> (length (pm_part m) <= length (pm_part m'))%nat.
Lemma kept_bind {B C : Type} (f : M (pmem V A) B) (k : B -> M (pmem V A) C) : kept f -> (forall b, kept (k b)) -> kept (mbind f k).
Proof.
  intros H1 H2 m m' b E. unfold mbind in E. destruct (f m) as [m1 b1|m1 e1| |u1|] eqn:E1; try discriminate E.
  specialize (H1 _ _ _ E1). specialize (H2 _ _ _ _ E). lia.
Qed.
Lemma kept_for {B : Type} (l : list B) f : (forall b, kept (f b)) -> kept (mfor l f).
Proof. intros H. induction l as [|b l IH]; simpl; [intros m m' u [= <- _]; lia|]. apply kept_bind; auto. Qed.
Lemma kept_lift {B : Type} (o : outcome B) : kept (mlift o).
Proof. intros m m' b E. unfold mlift in E. destruct o; try discriminate E. injection E as <- _. lia. Qed.
Lemma kept_get : kept mget.
Proof. intros m m' b [= <- _]. lia. Qed.
Lemma kept_part p : kept (delete_part p).
Proof.
  intros m m' b E. unfold delete_part, mbind, mget, mlift, mput, h_delete in E. destruct (nth_error (pm_part m) p) as [[s|]|]; try discriminate E.
  injection E as <- _. simpl. rewrite length_lset. lia.
Qed.
Lemma kept_row p : kept (delete_row p).
Proof.
  intros m m' b E. unfold delete_row, mbind, mget, mlift, mput, h_delete in E. destruct (nth_error (pm_row m) p) as [[s|]|]; try discriminate E.
  injection E as <- _. simpl. lia.
Qed.
Lemma kept_tab p : kept (delete_tab p).
Proof.
  intros m m' b E. unfold delete_tab, mbind, mget, mlift, mput, h_delete in E. destruct (nth_error (pm_tab m) p) as [[s|]|]; try discriminate E.
  injection E as <- _. simpl. lia.
Qed.
Lemma kept_destroy o : kept (po_destroy c o).
Proof.
  unfold po_destroy, val_ptr, grad_ptr, hess_ptr, row_ptr, get_row, get_tab.
  repeat first [apply kept_part | apply kept_row | apply kept_tab | apply kept_lift | apply kept_get | apply kept_for; intros | apply kept_bind; [|intros]].
Qed.

(** ** Assignment that copies the pointers *)

Lemma assign_shares os vs an x y v w : class_of_arity c n -> pc_copying c = Fresh -> Forall (allowed Fresh) os -> values_run c false os = Ok (vs, an) ->
  nth_error vs x = Some (Some v) -> nth_error vs y = Some (Some w) -> x <> y ->
  exists m f m', parts_run c (os ++ [PAssign x y]) = Ok (m, an ++ [Done]) /\ po_read x m = RRet m (obj_of f) /\ po_read y m = RRet m (obj_of f) /\
    po_destroy c (obj_of f) m = RRet m' tt /\ pm_obj m' = pm_obj m /\
    nth_error (pm_part m') (f_val f) = Some None /\ (forall r, In r (rows_of f) -> h_read (pm_row m') r = UB UBDangling) /\ h_read (pm_tab m') (f_t f) = UB UBDangling.
Proof.
  intros CA K F E Hx Hy N. rewrite <- K in F. replace false with (keeps (pc_copying c)) in E by (rewrite K; reflexivity).
  destruct (reach os vs an CA F E) as (m & E1 & ws & I & ->). unfold parts_run in *.
  destruct (lookup_read n m ws x I) as [(fx & vx & Rx & Wx & Vx & Repx & Sx)|[_ Vx]]; [|unfold h_read in Vx; rewrite Hx in Vx; discriminate Vx].
  destruct (lookup_read n m ws y I) as [(f & vy & Ry & Wy & Vy & Repy & Sy)|[_ Vy]]; [|unfold h_read in Vy; rewrite Hy in Vy; discriminate Vy].
  set (m1 := mkPmem (pm_part m) (pm_row m) (pm_tab m) (lset (pm_obj m) x (Some (obj_of f)))).
  destruct (live_split n m ws y f vy I Wy) as (L1 & L2 & L3).
  assert (Rep1 : rep m1 f vy) by (eapply rep_frame; [exact Repy| | |]; intros a _; reflexivity).
  destruct (destroy_ok c n m1 f vy _ _ _ (arity_shape CA) Rep1 Sy L1 L2 L3) as (m' & ED & EO & (P1 & _) & (P2 & _) & (P3 & _)).
  assert (Lo : length (pm_obj m) = length ws) by exact (f2_len _ _ _ (i_obj _ _ _ I)).
  exists m1, f, m'. split; [|split; [|split; [|split; [exact ED|split; [exact EO|split; [|split]]]]]].
  - rewrite run_app, E1. simpl. unfold pv_assign. rewrite (mb _ _ _ _ _ Rx), (mb _ _ _ _ _ Ry), K. reflexivity.
  - unfold po_read, mbind, mget, mlift, m1, h_read. cbn [pm_obj]. rewrite nth_error_lset_same; [reflexivity|]. rewrite Lo. exact (nth_len _ _ _ _ Wx).
  - unfold po_read, mbind, mget, mlift, m1, h_read. cbn [pm_obj]. rewrite nth_error_lset_other by congruence.
    unfold po_read, mbind, mget, mlift, h_read in Ry. destruct (nth_error (pm_obj m) y) as [[o|]|]; try discriminate Ry. injection Ry as ->. reflexivity.
  - assert (Hl : (f_val f < length (pm_part m'))%nat).
    { pose proof (kept_destroy (obj_of f) _ _ _ ED) as H. unfold m1 in H. cbn [pm_part] in H. pose proof (nth_len _ _ _ _ (r_val _ _ _ Repy)). lia. }
    destruct (nth_error (pm_part m') (f_val f)) as [[s|]|] eqn:EN; [|reflexivity|apply nth_error_None in EN; lia]. exfalso.
    assert (In (f_val f) (live (pm_part m'))) by (apply live_in; exists s; exact EN). rewrite P1 in H.
    pose proof (live_nodup (pm_part m)) as ND. rewrite L1 in ND. apply nodup_app in ND as (_ & _ & ND). apply (ND (f_val f)); [|exact H]. left. reflexivity.
  - intros r Hr. unfold h_read. destruct (nth_error (pm_row m') r) as [[s|]|] eqn:EN; auto. exfalso.
    assert (In r (live (pm_row m'))) by (apply live_in; exists s; exact EN). rewrite P2 in H.
    pose proof (live_nodup (pm_row m)) as ND. rewrite L2 in ND. apply nodup_app in ND as (_ & _ & ND). exact (ND r Hr H).
  - unfold h_read. destruct (nth_error (pm_tab m') (f_t f)) as [[s|]|] eqn:EN; auto. exfalso.
    assert (In (f_t f) (live (pm_tab m'))) by (apply live_in; exists s; exact EN). rewrite P3 in H.
    pose proof (live_nodup (pm_tab m)) as ND. rewrite L3 in ND. inversion ND; subst. contradiction.
Qed.

Lemma after_assign os vs an x y v w a b last : class_of_arity c n -> pc_copying c = Fresh -> Forall (allowed Fresh) os -> values_run c false os = Ok (vs, an) ->
  nth_error vs x = Some (Some v) -> nth_error vs y = Some (Some w) -> x <> y -> (a = x /\ b = y \/ a = y /\ b = x) ->
  exists m f, parts_run c (os ++ [PAssign x y; PDestroy a; last]) = (let* r := parts_step c last m in Ok (fst r, an ++ [Done; Done; snd r])) /\
    po_read b m = RRet m (obj_of f) /\
    nth_error (pm_part m) (f_val f) = Some None /\ (forall r, In r (rows_of f) -> h_read (pm_row m) r = UB UBDangling) /\ h_read (pm_tab m) (f_t f) = UB UBDangling.
Proof.
  intros CA K F E Hx Hy N AB. destruct (assign_shares os vs an x y v w CA K F E Hx Hy N) as (m & f & m' & ER & Rx & Ry & ED & EO & H1 & H2 & H3).
  exists (mkPmem (pm_part m') (pm_row m') (pm_tab m') (lset (pm_obj m') a None)), f.
  assert (Ra : po_read a m = RRet m (obj_of f)) by (destruct AB as [[-> _]|[-> _]]; assumption).
  assert (Rb : po_read b m = RRet m (obj_of f)) by (destruct AB as [[_ ->]|[_ ->]]; assumption).
  assert (NE : a <> b) by (destruct AB as [[-> ->]|[-> ->]]; congruence).
  split; [|split; [|split; [exact H1|split; [exact H2|exact H3]]]].
  - replace (os ++ [PAssign x y; PDestroy a; last]) with ((os ++ [PAssign x y]) ++ [PDestroy a; last]) by (rewrite <- app_assoc; reflexivity).
    unfold parts_run in *. rewrite run_app, ER. simpl. unfold pv_destroy. rewrite (mb _ _ _ _ _ Ra), (mb _ _ _ _ _ ED). simpl.
    destruct (parts_step c last _) as [[m2 a2]| | | |]; simpl; auto. rewrite <- app_assoc. reflexivity.
  - unfold po_read, mbind, mget, mlift, h_read in *. cbn [pm_obj]. rewrite nth_error_lset_other by congruence. rewrite EO.
    destruct (nth_error (pm_obj m) b) as [[o|]|]; try discriminate Rb. injection Rb as ->. reflexivity.
Qed.

Lemma assign_double_free os vs an x y v w a b : class_of_arity c n -> pc_copying c = Fresh -> Forall (allowed Fresh) os -> values_run c false os = Ok (vs, an) ->
  nth_error vs x = Some (Some v) -> nth_error vs y = Some (Some w) -> x <> y -> (a = x /\ b = y \/ a = y /\ b = x) ->
  parts_run c (os ++ [PAssign x y; PDestroy a; PDestroy b]) = UB UBDoubleFree.
Proof.
  intros CA K F E Hx Hy N AB. destruct (after_assign os vs an x y v w a b (PDestroy b) CA K F E Hx Hy N AB) as (m & f & -> & Rb & H1 & _).
  cbn [parts_step]. unfold pv_destroy. rewrite (mb _ _ _ _ _ Rb). unfold po_destroy, delete_part, val_ptr, mbind, mget, mlift, h_delete. simpl. rewrite H1. reflexivity.
Qed.

Lemma assign_dangling os vs an x y v w a b q var : class_of_arity c n -> pc_copying c = Fresh -> Forall (allowed Fresh) os -> values_run c false os = Ok (vs, an) ->
  nth_error vs x = Some (Some v) -> nth_error vs y = Some (Some w) -> x <> y -> (a = x /\ b = y \/ a = y /\ b = x) ->
  parts_run c (os ++ [PAssign x y; PDestroy a; PCall b q var]) = UB UBDangling.
Proof.
  intros CA K F E Hx Hy N AB. destruct (after_assign os vs an x y v w a b (PCall b q var) CA K F E Hx Hy N AB) as (m & f & -> & Rb & H1 & H2 & H3).
  assert (G : (do* o := po_read b in do* p := ptr_of o q in at_part p (sp_call var)) m = RUB UBDangling).
  { rewrite (mb _ _ _ _ _ Rb). destruct q as [|i|i j]; simpl.
    - unfold mbind, at_part. simpl. unfold h_read. rewrite H1. reflexivity.
    - unfold grad_ptr, get_row, get_elem, mbind, mget, mlift. simpl. rewrite (H2 (f_g f)) by (left; reflexivity). reflexivity.
    - unfold hess_ptr, row_ptr, get_tab, get_elem, mbind, mget, mlift. simpl. rewrite H3. reflexivity. }
  destruct q; cbn [parts_step]; unfold pv_call, pv_call_grad, pv_call_hess; cbn [ptr_of] in G; rewrite G; reflexivity.
Qed.

(** ** The assignment of the pieces *)

Definition full (h : heap (list (option nat))) (r : nat) : Prop := exists ps, cell h r (map Some ps) /\ length ps = n.
Definition formed m (f : foot) : Prop :=
  full (pm_row m) (f_g f) /\ cell (pm_tab m) (f_t f) (map Some (f_rows f)) /\ length (f_rows f) = n /\ Forall (full (pm_row m)) (f_rows f).

Lemma for_inv {B : Type} (P : pmem V A -> Prop) (l : list B) f : (forall b m, In b l -> P m -> exists m', f b m = RRet m' tt /\ P m') ->
  forall m, P m -> exists m', mfor l f m = RRet m' tt /\ P m'.
Proof.
  induction l as [|b l IH]; intros H m Hm; simpl; [exists m; auto|]. destruct (H b m) as (m1 & E & H1); [simpl; auto|exact Hm|].
  rewrite (mb _ _ _ _ _ E). apply IH; [|exact H1]. intros. apply H; simpl; auto.
Qed.

Lemma set_row_full m r k p : full (pm_row m) r -> (k < n)%nat ->
  exists h, set_row r (Z.of_nat k) p m = RRet (mkPmem (pm_part m) h (pm_tab m) (pm_obj m)) tt /\ (forall s, full (pm_row m) s -> full h s).
Proof.
  intros (ps & C & L) Hk. exists (lset (pm_row m) r (Some (lset (map Some ps) k (Some p)))). split.
  - unfold set_row, mbind, mget, mlift. rewrite (set_elem_ok _ _ _ k p C) by (rewrite map_length; lia). reflexivity.
  - intros s (qs & Cq & Lq). destruct (Nat.eq_dec r s) as [<-|Ne].
    + exists (lset ps k p). split; [|rewrite length_lset; exact L]. rewrite map_lset. unfold cell. apply nth_error_lset_same. exact (nth_len _ _ _ _ C).
    + exists qs. split; [|exact Lq]. unfold cell. rewrite nth_error_lset_other by exact Ne. exact Cq.
Qed.

Lemma full_get m r k : full (pm_row m) r -> (k < n)%nat -> exists p, get_row r (Z.of_nat k) m = RRet m p.
Proof.
  intros (ps & C & L) Hk. destruct (nth_error ps k) as [p|] eqn:E; [|apply nth_error_None in E; lia]. exists p.
  unfold get_row, mbind, mget, mlift. erewrite get_elem_ok; [reflexivity|exact C|]. apply vget_map. exact E.
Qed.

Lemma share_ok m f g : class_of_arity c n -> formed m f -> formed m g -> exists m' o, po_share c (obj_of f) (obj_of g) m = RRet m' o.
Proof.
  intros CA Ff Fg. unfold po_share. destruct CA as (-> & _).
  set (P := fun m' => formed m' f /\ formed m' g).
  assert (PS : forall m' h, P m' -> (forall s, full (pm_row m') s -> full h s) -> P (mkPmem (pm_part m') h (pm_tab m') (pm_obj m'))).
  { intros m' h [(A1 & A2 & A3 & A4) (B1 & B2 & B3 & B4)] H. split; (split; [apply H; assumption|split; [assumption|split; [assumption|]]]); cbn [pm_row]; eapply Forall_impl; eauto. }
  assert (SB : forall z, In z (subscripts n) -> exists k, z = Z.of_nat k /\ (k < n)%nat).
  { intros z Hz. unfold subscripts in Hz. apply in_map_iff in Hz as (k & <- & Hk). apply in_seq in Hk. exists k. split; [reflexivity|lia]. }
  rewrite (mb (val_ptr (obj_of g)) _ m m (f_val g) eq_refl).
  destruct (for_inv P (subscripts n) (fun i => do* p := grad_ptr (obj_of g) i in do* g0 := mlift (read_member (po_grad (obj_of f))) in set_row g0 i p)) with (m := m) as (m1 & E1 & P1).
  { intros z m' Hz Pm. destruct (SB z Hz) as (k & -> & Hk). destruct (full_get m' (f_g g) k (proj1 (proj2 Pm)) Hk) as (p & Ep).
    rewrite (mb (grad_ptr (obj_of g) (Z.of_nat k)) _ m' m' p Ep). destruct (set_row_full m' (f_g f) k p (proj1 (proj1 Pm)) Hk) as (h & Eh & Hh).
    exists (mkPmem (pm_part m') h (pm_tab m') (pm_obj m')). split; [exact Eh|]. apply PS; assumption. }
  { split; assumption. }
  rewrite (mb _ _ _ _ _ E1).
  assert (ROW : forall m' f' k, formed m' f' -> (k < n)%nat -> exists r, row_ptr (obj_of f') (Z.of_nat k) m' = RRet m' r /\ full (pm_row m') r).
  { intros m' f' k (_ & Ct & Lr & Fr) Hk. destruct (nth_error (f_rows f') k) as [r|] eqn:Er; [|apply nth_error_None in Er; lia]. exists r. split.
    - unfold row_ptr, get_tab, mbind, mget, mlift. cbn [obj_of po_hess read_member]. erewrite get_elem_ok; [reflexivity|exact Ct|]. apply vget_map. exact Er.
    - rewrite Forall_forall in Fr. apply Fr. exact (nth_error_In _ _ Er). }
  destruct (for_inv P (subscripts n) (fun i => mfor (subscripts n) (fun j => do* p := hess_ptr (obj_of g) i j in do* r := row_ptr (obj_of f) i in set_row r j p))) with (m := m1) as (m2 & E2 & P2).
  { intros z m' Hz Pm. destruct (SB z Hz) as (k & -> & Hk). apply for_inv; [|exact Pm]. clear m' Pm. intros z2 m' Hz2 Pm. destruct (SB z2 Hz2) as (j & -> & Hj).
    destruct (ROW m' g k (proj2 Pm) Hk) as (rg & Erg & Frg). destruct (full_get m' rg j Frg Hj) as (p & Ep).
    assert (EH : hess_ptr (obj_of g) (Z.of_nat k) (Z.of_nat j) m' = RRet m' p) by (unfold hess_ptr; rewrite (mb _ _ _ _ _ Erg); exact Ep).
    rewrite (mb _ _ _ _ _ EH). destruct (ROW m' f k (proj1 Pm) Hk) as (rf & Erf & Frf). rewrite (mb _ _ _ _ _ Erf).
    destruct (set_row_full m' rf j p Frf Hj) as (h & Eh & Hh). exists (mkPmem (pm_part m') h (pm_tab m') (pm_obj m')). split; [exact Eh|]. apply PS; assumption. }
  { exact P1. }
  rewrite (mb _ _ _ _ _ E2). eexists _, _. reflexivity.
Qed.

Lemma rep_formed m f v : rep m f v -> shape n v -> formed m f.
Proof.
  intros Rp Sv. destruct (shape_lens m f v n Rp Sv) as (L1 & L2 & L3 & L4). split; [|split; [exact (r_t _ _ _ Rp)|split; [exact L2|]]].
  - exists (f_gs f). split; [exact (r_g _ _ _ Rp)|exact L1].
  - apply Forall_forall. intros r Hr. apply In_nth_error in Hr as (k & Hk). destruct (f2_nth _ _ _ _ _ (r_rows _ _ _ Rp) Hk) as (cs & Hc & C).
    exists cs. split; [exact C|]. rewrite Forall_forall in L4. apply L4. exact (nth_error_In _ _ Hc).
Qed.

Lemma assign_no_return os vs an x y v w : class_of_arity c n -> pc_copying c = Sharing -> Forall (allowed Sharing) os -> values_run c false os = Ok (vs, an) ->
  nth_error vs x = Some (Some v) -> nth_error vs y = Some (Some w) -> parts_run c (os ++ [PAssign x y]) = UB UBNoReturn.
Proof.
  intros CA K F E Hx Hy. rewrite <- K in F. replace false with (keeps (pc_copying c)) in E by (rewrite K; reflexivity).
  destruct (reach os vs an CA F E) as (m & E1 & ws & I & ->). unfold parts_run in *.
  destruct (lookup_read n m ws x I) as [(fx & vx & Rx & Wx & Vx & Repx & Sx)|[_ Vx]]; [|unfold h_read in Vx; rewrite Hx in Vx; discriminate Vx].
  destruct (lookup_read n m ws y I) as [(fy & vy & Ry & Wy & Vy & Repy & Sy)|[_ Vy]]; [|unfold h_read in Vy; rewrite Hy in Vy; discriminate Vy].
  destruct (share_ok m fx fy CA (rep_formed _ _ _ Repx Sx) (rep_formed _ _ _ Repy Sy)) as (m' & o & ES).
  rewrite run_app, E1. simpl. unfold pv_assign. rewrite (mb _ _ _ _ _ Rx), (mb _ _ _ _ _ Ry), K, (mb _ _ _ _ _ ES). reflexivity.
Qed.

End Use.
