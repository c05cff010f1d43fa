(** Programs with function objects behave as programs with values, and own exactly the memory of the objects alive. *)
From Coq Require Import ZArith List Bool Lia Permutation.
From Verif Require Import Model.Outcome Model.PSimple Model.Wrapper Model.FuncObj Model.Parts.
From Verif Require Import Spec.Funcs Spec.Parts.
From Verif Require Import Proofs.OutcomeP Proofs.WrapperP Proofs.PartsP Proofs.PartsRepP Proofs.PartsOpsP.
Import ListNotations.

Lemma map_lset {X Y : Type} (g : X -> Y) l k x : map g (lset l k x) = lset (map g l) k (g x).
Proof. revert k. induction l as [|a l IH]; intros [|k]; simpl; auto. rewrite IH. reflexivity. Qed.

Section Own.
Context {W : Type} (g : option W -> list nat) (g0 : g None = []).

Lemma take_out ws x w : nth_error ws x = Some w -> Permutation (concat (map g ws)) (g w ++ concat (map g (lset ws x None))).
Proof.
  revert x. induction ws as [|a ws IH]; intros [|x] H; simpl in *; try discriminate.
  - injection H as ->. rewrite g0. reflexivity.
  - rewrite (IH x H). rewrite Permutation_app_swap_app. reflexivity.
Qed.
Lemma put_back ws x w : x < length ws -> Permutation (concat (map g (lset ws x w))) (g w ++ concat (map g (lset ws x None))).
Proof.
  intros H. rewrite (take_out (lset ws x w) x w); [rewrite lset_twice; reflexivity|]. apply nth_error_lset_same. exact H.
Qed.
Lemma in_others ws x y w : nth_error ws y = Some w -> y <> x -> incl (g w) (concat (map g (lset ws x None))).
Proof.
  intros H N a Ha. apply in_concat. exists (g w). split; [|exact Ha]. apply in_map. apply (nth_error_In _ y). rewrite nth_error_lset_other by congruence. exact H.
Qed.
Lemma in_all ws y w : nth_error ws y = Some w -> incl (g w) (concat (map g ws)).
Proof. intros H a Ha. apply in_concat. exists (g w). split; [|exact Ha]. apply in_map. exact (nth_error_In _ _ H). Qed.
End Own.

Section Runs.
Context {V A : Type} (c : pclass V A) (n : nat) (SC : shape n (pc_parts c)).
Implicit Types m : pmem V A.
Implicit Types v : fobj V A.
Implicit Types ws : list (option (foot * fobj V A)).

Definition wparts (w : option (foot * fobj V A)) : list nat := match w with Some (f, _) => parts_of f | None => [] end.
Definition wrows (w : option (foot * fobj V A)) : list nat := match w with Some (f, _) => rows_of f | None => [] end.
Definition wtabs (w : option (foot * fobj V A)) : list nat := match w with Some (f, _) => [f_t f] | None => [] end.
Definition all (g : option (foot * fobj V A) -> list nat) ws : list nat := concat (map g ws).

Definition orep m (o : option pobj) (w : option (foot * fobj V A)) : Prop :=
  match o, w with
  | None, None => True
  | Some o', Some (f, v) => o' = obj_of f /\ rep m f v /\ shape n v
  | _, _ => False
  end.

Record inv m ws : Prop := mkInv {
  i_obj : Forall2 (orep m) (pm_obj m) ws;
  i_part : Permutation (live (pm_part m)) (all wparts ws);
  i_row : Permutation (live (pm_row m)) (all wrows ws);
  i_tab : Permutation (live (pm_tab m)) (all wtabs ws)
}.
Definition vals ws : heap (fobj V A) := map (option_map snd) ws.

Lemma orep_frame m m' o w : orep m o w -> same_on (wparts w) (pm_part m) (pm_part m') -> same_on (wrows w) (pm_row m) (pm_row m') ->
  same_on (wtabs w) (pm_tab m) (pm_tab m') -> orep m' o w.
Proof.
  unfold orep. destruct o as [o|], w as [[f v]|]; auto. intros (H1 & H2 & H3) SP SR ST. split; [exact H1|]. split; [|exact H3]. eapply rep_frame; eauto.
Qed.

Lemma lookup m ws x : inv m ws ->
  (exists f v, h_read (pm_obj m) x = Ok (obj_of f) /\ nth_error ws x = Some (Some (f, v)) /\ h_read (vals ws) x = Ok v /\ rep m f v /\ shape n v) \/
  (h_read (pm_obj m) x = UB UBDangling /\ h_read (vals ws) x = UB UBDangling).
Proof.
  intros I. unfold h_read, vals. rewrite nth_error_map. destruct (nth_error (pm_obj m) x) as [o|] eqn:E.
  - destruct (f2_nth _ _ _ _ _ (i_obj _ _ I) E) as (w & Hw & R). rewrite Hw. simpl. destruct o as [o|], w as [[f v]|]; simpl in R; try contradiction.
    + left. destruct R as (-> & R & S). exists f, v. auto.
    + right. auto.
  - right. assert (nth_error ws x = None) as ->; [|auto]. apply nth_error_None. rewrite <- (f2_len _ _ _ (i_obj _ _ I)). apply nth_error_None. exact E.
Qed.

Lemma lookup_read m ws x : inv m ws ->
  (exists f v, po_read x m = RRet m (obj_of f) /\ nth_error ws x = Some (Some (f, v)) /\ h_read (vals ws) x = Ok v /\ rep m f v /\ shape n v) \/
  (po_read x m = RUB UBDangling /\ h_read (vals ws) x = UB UBDangling).
Proof.
  intros I. unfold po_read, mbind, mget, mlift. destruct (lookup m ws x I) as [(f & v & H1 & H2)|[H1 H2]]; rewrite H1; [left; exists f, v; auto|right; auto].
Qed.

Lemma foot_nodup m ws x f v : inv m ws -> nth_error ws x = Some (Some (f, v)) -> NoDup (parts_of f) /\ NoDup (rows_of f).
Proof.
  intros I H. split.
  - pose proof (live_nodup (pm_part m)) as N. rewrite (i_part _ _ I) in N. unfold all in N. rewrite (take_out wparts eq_refl _ _ _ H) in N. apply nodup_app in N. tauto.
  - pose proof (live_nodup (pm_row m)) as N. rewrite (i_row _ _ I) in N. unfold all in N. rewrite (take_out wrows eq_refl _ _ _ H) in N. apply nodup_app in N. tauto.
Qed.

(** A new object. *)
Lemma inv_new m m1 ws f v : inv m ws -> built m m1 f v -> shape n v ->
  inv (mkPmem (pm_part m1) (pm_row m1) (pm_tab m1) (h_new (obj_of f) (pm_obj m1))) (ws ++ [Some (f, v)]).
Proof.
  intros [IO IP IR IT] [R EO SP SR ST LP LR LT] SV. constructor; cbn [pm_part pm_row pm_tab pm_obj]; unfold all in *; rewrite ?map_app, ?concat_app; cbn [map concat wparts wrows wtabs]; rewrite ?app_nil_r.
  - unfold h_new. rewrite EO. apply Forall2_app.
    + assert (G : forall x w, nth_error ws x = Some w -> incl (wparts w) (live (pm_part m)) /\ incl (wrows w) (live (pm_row m)) /\ incl (wtabs w) (live (pm_tab m))).
      { intros x w Hw. split; [|split]; intros a Ha; [rewrite IP|rewrite IR|rewrite IT]; eapply in_all; eauto. }
      clear - IO G SP SR ST. assert (G' : forall w, In w ws -> incl (wparts w) (live (pm_part m)) /\ incl (wrows w) (live (pm_row m)) /\ incl (wtabs w) (live (pm_tab m))).
      { intros w Hw. apply In_nth_error in Hw as (x & Hx). eauto. } clear G.
      generalize (pm_obj m ++ [Some (obj_of f)]) as ob. intros ob. induction IO as [|o w os ws H F IH]; constructor.
      * destruct (G' w) as (A1 & A2 & A3); [simpl; auto|]. eapply orep_frame; [exact H| | |]; intros a Ha; cbn [pm_part pm_row pm_tab];
          [apply SP; eapply live_lt; apply A1|apply SR; eapply live_lt; apply A2|apply ST; eapply live_lt; apply A3]; exact Ha.
      * apply IH. intros w' Hw'. apply G'. simpl. auto.
    + constructor; [|constructor]. split; [reflexivity|]. split; [|exact SV]. eapply rep_frame; [exact R| | |]; intros a _; reflexivity.
  - rewrite LP, IP. apply Permutation_app_comm.
  - rewrite LR, IR. apply Permutation_app_comm.
  - rewrite LT, IT. apply Permutation_cons_append.
Qed.

(** Object [x] replaced, or gone; the rest as before. *)
Lemma inv_put m m' ws x w f v o : inv m ws -> nth_error ws x = Some (Some (f, v)) ->
  pm_obj m' = lset (pm_obj m) x o -> orep m' o w ->
  (Permutation (live (pm_part m')) (wparts w ++ all wparts (lset ws x None)) /\ same_on (all wparts (lset ws x None)) (pm_part m) (pm_part m')) ->
  (Permutation (live (pm_row m')) (wrows w ++ all wrows (lset ws x None)) /\ same_on (all wrows (lset ws x None)) (pm_row m) (pm_row m')) ->
  (Permutation (live (pm_tab m')) (wtabs w ++ all wtabs (lset ws x None)) /\ same_on (all wtabs (lset ws x None)) (pm_tab m) (pm_tab m')) ->
  inv m' (lset ws x w).
Proof.
  intros [IO IP IR IT] Hx EO Ow (LP & SP) (LR & SR) (LT & ST). assert (Lx := nth_len _ _ _ _ Hx). constructor; unfold all in *;
    [|rewrite (put_back wparts eq_refl _ _ _ Lx); exact LP|rewrite (put_back wrows eq_refl _ _ _ Lx); exact LR|rewrite (put_back wtabs eq_refl _ _ _ Lx); exact LT].
  rewrite EO. clear EO LP LR LT.
  assert (G : forall y o' w', nth_error (pm_obj m) y = Some o' -> nth_error ws y = Some w' -> orep m o' w' -> y <> x -> orep m' o' w').
  { intros y o' w' H1 H2 H3 N. eapply orep_frame; [exact H3| | |]; eapply same_on_sub; eauto; eapply in_others; eauto. }
  clear SP SR ST IP IR IT. revert G. generalize (pm_obj m) as os, IO. clear IO. intros os IO. clear Hx. revert x Lx.
  assert (GEN : forall x, x < length ws -> (forall y o' w', nth_error os y = Some o' -> nth_error ws y = Some w' -> orep m o' w' -> y <> x -> orep m' o' w') ->
    Forall2 (orep m') (lset os x o) (lset ws x w)).
  { clear - IO Ow. induction IO as [|o1 w1 os ws H F IH]; intros [|x] Hx G; simpl in *; try lia; constructor.
    - exact Ow.
    - assert (G2 : forall y o' w', nth_error os y = Some o' -> nth_error ws y = Some w' -> orep m o' w' -> orep m' o' w') by (intros y o' w' H1 H2 H3; apply (G (S y) o' w'); auto).
      clear - F G2. induction F as [|o2 w2 os ws H F IH]; constructor; [apply (G2 0); auto|]. apply IH. intros y. apply (G2 (S y)).
    - apply (G 0); auto.
    - apply IH; [lia|]. intros y o' w' H1 H2 H3 N. apply (G (S y) o' w'); auto. }
  intros x Lx G. apply GEN; auto.
Qed.

Lemma live_split m ws x f v : inv m ws -> nth_error ws x = Some (Some (f, v)) ->
  Permutation (live (pm_part m)) (parts_of f ++ all wparts (lset ws x None)) /\
  Permutation (live (pm_row m)) (rows_of f ++ all wrows (lset ws x None)) /\
  Permutation (live (pm_tab m)) (f_t f :: all wtabs (lset ws x None)).
Proof.
  intros [_ IP IR IT] H. rewrite IP, IR, IT. unfold all.
  split; [exact (take_out wparts eq_refl _ _ _ H)|]. split; [exact (take_out wrows eq_refl _ _ _ H)|exact (take_out wtabs eq_refl _ _ _ H)].
Qed.

Lemma vals_set ws x f v v' : nth_error ws x = Some (Some (f, v)) -> lset (vals ws) x (Some v') = vals (lset ws x (Some (f, v'))).
Proof. intros _. unfold vals. rewrite map_lset. reflexivity. Qed.

(** ** Refinement *)

Definition R m (vs : heap (fobj V A)) : Prop := exists ws, inv m ws /\ vs = vals ws.
Definition Rel {B : Type} (r1 : res (pmem V A) B) (r2 : res (heap (fobj V A)) B) : Prop :=
  match r1, r2 with
  | RRet m a, RRet vs a' => a = a' /\ R m vs
  | RThrow m e, RThrow vs e' => e = e' /\ R m vs
  | RExit, RExit => True
  | RUB u, RUB u' => u = u'
  | RNoFuel, RNoFuel => True
  | _, _ => False
  end.

Lemma rel_bind {B C : Type} (f1 : M (pmem V A) B) (f2 : M (heap (fobj V A)) B) (k1 : B -> M (pmem V A) C) (k2 : B -> M (heap (fobj V A)) C) m vs :
  Rel (f1 m) (f2 vs) -> (forall b m' vs', R m' vs' -> Rel (k1 b m') (k2 b vs')) -> Rel (mbind f1 k1 m) (mbind f2 k2 vs).
Proof.
  unfold mbind. destruct (f1 m) as [m' b|m' e| |u|], (f2 vs) as [vs' b'|vs' e'| |u'|]; simpl; try contradiction; auto.
  intros [-> H] K. apply K. exact H.
Qed.
Lemma rel_for {B : Type} (l : list B) f1 f2 m vs : R m vs -> (forall b m' vs', R m' vs' -> Rel (f1 b m') (f2 b vs')) -> Rel (mfor l f1 m) (mfor l f2 vs).
Proof.
  intros H K. revert m vs H. induction l as [|b l IH]; intros m vs H; simpl; [auto|]. apply rel_bind; [apply K; exact H|]. intros _ m' vs' H'. apply IH. exact H'.
Qed.

(** A call on the part for [q]. *)
Lemma rel_part {B : Type} x q (g : M (simple V A) B) m vs : R m vs ->
  Rel ((do* o := po_read x in do* p := ptr_of o q in at_part p g) m) (on_var x (on_part q g) vs).
Proof.
  intros (ws & I & ->). unfold on_var. destruct (lookup_read m ws x I) as [(f & v & E & Hx & Hv & Rf & Sv)|[E Hv]]; rewrite Hv.
  - rewrite (mb _ _ _ _ _ E). unfold on_part. destruct (foot_nodup m ws x f v I Hx) as (ND & _).
    destruct (ptr_ok m f v q Rf) as [(p & s & E2 & AD & PO & CP & IP)|[E2 PO]]; rewrite PO.
    + rewrite (mb _ _ _ _ _ E2). unfold at_part. rewrite (cell_read _ _ _ CP).
      assert (K : forall s', R (mkPmem (lset (pm_part m) p (Some s')) (pm_row m) (pm_tab m) (pm_obj m)) (lset (vals ws) x (Some (put_part v q s')))).
      { intros s'. exists (lset ws x (Some (f, put_part v q s'))). split; [|apply (vals_set ws x f v); exact Hx].
        destruct (live_split m ws x f v I Hx) as (L1 & L2 & L3).
        eapply inv_put with (o := Some (obj_of f)); [exact I|exact Hx| | | | |]; cbn [pm_part pm_row pm_tab pm_obj wparts wrows wtabs].
        - symmetry. apply lset_same. destruct (f2_nth_r _ _ _ _ _ (i_obj _ _ I) Hx) as ([o|] & Ho & Ro); simpl in Ro; [|contradiction]. destruct Ro as (-> & _). exact Ho.
        - split; [reflexivity|]. split; [eapply put_ok; eauto|eapply put_shape; eauto].
        - split; [rewrite (live_set _ _ _ _ CP); exact L1|]. intros a Ha. apply nth_set_other. intros <-.
          pose proof (live_nodup (pm_part m)) as N. rewrite L1 in N. apply nodup_app in N as (_ & _ & N). exact (N p IP Ha).
        - split; [exact L2|apply same_refl].
        - split; [exact L3|apply same_refl]. }
      destruct (g s) as [s' b|s' e| |u|]; simpl; auto.
    + unfold mbind. rewrite E2. simpl. reflexivity.
  - unfold mbind. rewrite E. simpl. reflexivity.
Qed.

Lemma on_var_for {B : Type} x (l : list B) (f : B -> M (fobj V A) unit) vs v : h_read vs x = Ok v ->
  on_var x (mfor l f) vs = mfor l (fun b => on_var x (f b)) vs.
Proof.
  revert vs v. induction l as [|b l IH]; intros vs v H; simpl.
  - unfold on_var. rewrite H. simpl. unfold mret. f_equal. apply lset_same. unfold h_read in H. destruct (nth_error vs x) as [[y|]|]; congruence.
  - unfold mbind. unfold on_var at 1 2. rewrite H. destruct (f b v) as [v' u|v' e| |u|]; auto.
    assert (Hx : x < length vs) by (unfold h_read in H; destruct (nth_error vs x) as [[y|]|] eqn:E; try discriminate H; exact (nth_len _ _ _ _ E)).
    assert (H' : h_read (lset vs x (Some v')) x = Ok v') by (unfold h_read; rewrite nth_error_lset_same by exact Hx; reflexivity).
    rewrite <- (IH _ _ H'). unfold on_var. rewrite H'. destruct (mfor l f v') as [v2 u2|v2 e2| |u2|]; rewrite ?lset_twice; reflexivity.
Qed.

Lemma on_var_bind {B C : Type} x (f : M (fobj V A) B) (k : B -> C) vs : on_var x (do* b := f in mret (k b)) vs = (do* b := on_var x f in mret (k b)) vs.
Proof.
  unfold on_var, mbind. destruct (h_read vs x); auto. destruct (f a); auto.
Qed.

Lemma rel_new m vs : R m vs -> Rel (pv_new c m) (RRet (h_new (pc_parts c) vs) tt).
Proof.
  intros (ws & I & ->). unfold pv_new. destruct (po_construct_ok c m n SC) as (m' & E & B). rewrite (mb _ _ _ _ _ E). simpl. split; [reflexivity|].
  exists (ws ++ [Some (new_foot m n (pc_parts c), pc_parts c)]). split; [apply inv_new with (m := m); auto|]. unfold vals, h_new. rewrite map_app. reflexivity.
Qed.

Lemma copy_built m f v : rep m f v -> shape n v -> let v' := if keeps (pc_copying c) then v else pc_parts c in
  exists m', po_copy c (obj_of f) m = RRet m' (obj_of (new_foot m n v')) /\ built m m' (new_foot m n v') v' /\ shape n v'.
Proof.
  intros Rf Sv. destruct (pc_copying c) eqn:K; simpl.
  - destruct (po_copy_keeps c m n f v K SC Rf Sv) as (m' & E & B). eauto.
  - destruct (construct_all_ok c m n SC) as (m' & E & B). exists m'. unfold po_copy. rewrite K. auto.
  - destruct (construct_all_ok c m n SC) as (m' & E & B). exists m'. unfold po_copy. rewrite K. auto.
Qed.

Lemma rel_copy x m vs : R m vs ->
  Rel (pv_copy c x m) (match h_read vs x with Ok v => RRet (h_new (if keeps (pc_copying c) then v else pc_parts c) vs) tt | UB u => RUB u | _ => RNoFuel end).
Proof.
  intros (ws & I & ->). unfold pv_copy. destruct (lookup_read m ws x I) as [(f & v & E & Hx & Hv & Rf & Sv)|[E Hv]]; rewrite Hv.
  - rewrite (mb _ _ _ _ _ E). destruct (copy_built m f v Rf Sv) as (m' & E2 & B & S'). rewrite (mb _ _ _ _ _ E2). simpl. split; [reflexivity|].
    eexists (ws ++ [Some (_, _)]). split; [apply inv_new with (m := m); eauto|]. unfold vals, h_new. rewrite map_app. reflexivity.
  - unfold mbind. rewrite E. reflexivity.
Qed.

Lemma rel_destroy x m vs : R m vs ->
  Rel (pv_destroy c x m) (match h_read vs x with Ok v => RRet (lset vs x None) tt | UB u => RUB u | _ => RNoFuel end).
Proof.
  intros (ws & I & ->). unfold pv_destroy. destruct (lookup_read m ws x I) as [(f & v & E & Hx & Hv & Rf & Sv)|[E Hv]]; rewrite Hv.
  - rewrite (mb _ _ _ _ _ E). destruct (live_split m ws x f v I Hx) as (L1 & L2 & L3).
    destruct (destroy_ok c n m f v _ _ _ SC Rf Sv L1 L2 L3) as (m' & E2 & EO & Q1 & Q2 & Q3). rewrite (mb _ _ _ _ _ E2). simpl. split; [reflexivity|].
    exists (lset ws x None). split; [|unfold vals; rewrite map_lset; reflexivity].
    eapply inv_put with (o := None); [exact I|exact Hx| | | | |]; cbn [pm_part pm_row pm_tab pm_obj wparts wrows wtabs app]; auto; [rewrite EO; reflexivity|exact Logic.I].
  - unfold mbind. rewrite E. reflexivity.
Qed.

Lemma assign_keeping x y m vs : pc_copying c = Keeping -> R m vs ->
  Rel (pv_assign c x y m) (match h_read vs x with Ok _ => match h_read vs y with Ok v => RRet (lset vs x (Some v)) tt | UB u => RUB u | _ => RNoFuel end | UB u => RUB u | _ => RNoFuel end).
Proof.
  intros K (ws & I & ->). unfold pv_assign. destruct (lookup_read m ws x I) as [(f & v & E & Hx & Hv & Rf & Sv)|[E Hv]]; rewrite Hv; [|unfold mbind; rewrite E; reflexivity].
  rewrite (mb _ _ _ _ _ E). destruct (lookup_read m ws y I) as [(g & w & E' & Hy & Hw & Rg & Sw)|[E' Hw]]; rewrite Hw; [|unfold mbind; rewrite E'; reflexivity].
  rewrite (mb _ _ _ _ _ E'). rewrite K. destruct (po_copy_keeps c m n g w K SC Rg Sw) as (m1 & E1 & B1). rewrite (mb _ _ _ _ _ E1). set (t := new_foot m n w) in *.
  destruct (live_split m ws x f v I Hx) as (L1 & L2 & L3). destruct B1 as [Rt EO SP SR ST LP LR LT].
  assert (F1 : forall a, In a (live (pm_part m)) -> nth_error (pm_part m1) a = nth_error (pm_part m) a) by (intros a Ha; apply SP, live_lt, Ha).
  assert (F2 : forall a, In a (live (pm_row m)) -> nth_error (pm_row m1) a = nth_error (pm_row m) a) by (intros a Ha; apply SR, live_lt, Ha).
  assert (F3 : forall a, In a (live (pm_tab m)) -> nth_error (pm_tab m1) a = nth_error (pm_tab m) a) by (intros a Ha; apply ST, live_lt, Ha).
  assert (Rf1 : rep m1 f v).
  { eapply rep_frame; [exact Rf| | |]; intros a Ha; [apply F1; rewrite L1; apply in_or_app; auto|apply F2; rewrite L2; apply in_or_app; auto|]. apply F3. rewrite L3. destruct Ha as [<-|[]]. simpl. auto. }
  assert (ND : NoDup (rows_of f ++ rows_of t)).
  { pose proof (live_nodup (pm_row m1)) as N. rewrite LR, L2 in N. rewrite Permutation_app_swap_app in N. rewrite app_assoc in N. apply nodup_app in N. tauto. }
  destruct (swap_ok c n m1 f t v w SC Rf1 Sv Rt Sw ND) as (m2 & E2 & R1 & R2 & EP2 & ET2 & EO2 & O2). rewrite (mb _ _ _ _ _ E2). cbn [fst snd].
  set (m3 := mkPmem (pm_part m2) (pm_row m2) (pm_tab m2) (lset (pm_obj m2) x (Some (obj_of (foot_swap f t))))).
  rewrite (mb (po_write x (Some (obj_of (foot_swap f t)))) _ m2 m3 tt eq_refl).
  assert (R2' : rep m3 (foot_swap t f) v) by (eapply rep_frame; [exact R2| | |]; intros a _; reflexivity).
  assert (LR2 : Permutation (live (pm_row m2)) (live (pm_row m1))).
  { apply live_eq. intros a. destruct (in_dec Nat.eq_dec a (rows_of f ++ rows_of t)) as [Y|Y].
    - assert (A1 : In a (live (pm_row m1))).
      { rewrite LR, L2. apply in_app_or in Y as [Y|Y]; apply in_or_app; [right|left]; auto. apply in_or_app. auto. }
      assert (A2 : In a (live (pm_row m2))).
      { apply in_app_or in Y as [[<-|Y]|[<-|Y]].
        - eapply cell_live. exact (r_g _ _ _ R1).
        - apply In_nth_error in Y as (k & Hk). destruct (f2_nth _ _ _ _ _ (r_rows _ _ _ R1) Hk) as (cs & _ & C). eapply cell_live. exact C.
        - eapply cell_live. exact (r_g _ _ _ R2).
        - apply In_nth_error in Y as (k & Hk). destruct (f2_nth _ _ _ _ _ (r_rows _ _ _ R2) Hk) as (cs & _ & C). eapply cell_live. exact C. }
      apply live_in in A1. apply live_in in A2. tauto.
    - unfold cell. rewrite O2; [reflexivity| |]; intros X; apply Y; apply in_or_app; auto. }
  assert (P3 : Permutation (live (pm_part m3)) (parts_of (foot_swap t f) ++ (parts_of t ++ all wparts (lset ws x None)))).
  { unfold m3. cbn [pm_part]. rewrite EP2, LP, L1. change (parts_of (foot_swap t f)) with (parts_of f). rewrite Permutation_app_swap_app. reflexivity. }
  assert (Q3 : Permutation (live (pm_row m3)) (rows_of (foot_swap t f) ++ (rows_of f ++ all wrows (lset ws x None)))).
  { unfold m3. cbn [pm_row]. rewrite LR2, LR, L2. reflexivity. }
  assert (T3 : Permutation (live (pm_tab m3)) (f_t (foot_swap t f) :: (f_t f :: all wtabs (lset ws x None)))).
  { unfold m3. cbn [pm_tab]. rewrite ET2, LT, L3. reflexivity. }
  destruct (destroy_ok c n m3 (foot_swap t f) v _ _ _ SC R2' Sv P3 Q3 T3) as (m4 & E4 & EO4 & (P4 & SP4) & (Q4 & SQ4) & (T4 & ST4)). rewrite E4. simpl. split; [reflexivity|].
  exists (lset ws x (Some (foot_swap f t, w))). split; [|unfold vals; rewrite map_lset; reflexivity].
  eapply inv_put with (o := Some (obj_of (foot_swap f t))); [exact I|exact Hx| | | | |]; cbn [wparts wrows wtabs].
  - rewrite EO4. unfold m3. cbn [pm_obj]. rewrite EO2, EO. reflexivity.
  - split; [reflexivity|]. split; [|exact Sw]. eapply rep_frame; [exact R1| | |].
    + change (same_on (parts_of t) (pm_part m3) (pm_part m4)). eapply same_on_sub; [|exact SP4]. intros a Ha. apply in_or_app. auto.
    + change (same_on (rows_of f) (pm_row m3) (pm_row m4)). eapply same_on_sub; [|exact SQ4]. intros a Ha. apply in_or_app. auto.
    + change (same_on [f_t f] (pm_tab m3) (pm_tab m4)). eapply same_on_sub; [|exact ST4]. intros a [<-|[]]. simpl. auto.
  - split; [exact P4|]. eapply same_on_trans; [|eapply same_on_sub; [|exact SP4]; intros a Ha; apply in_or_app; auto]. intros a Ha. unfold m3. cbn [pm_part]. rewrite EP2.
    apply F1. rewrite L1. apply in_or_app. auto.
  - split; [exact Q4|]. eapply same_on_trans; [|eapply same_on_sub; [|exact SQ4]; intros a Ha; apply in_or_app; auto]. intros a Ha. unfold m3. cbn [pm_row].
    assert (Al : In a (live (pm_row m))) by (rewrite L2; apply in_or_app; auto).
    rewrite O2; [apply F2; exact Al| |].
    + intros X. pose proof (live_nodup (pm_row m)) as N. rewrite L2 in N. apply nodup_app in N as (_ & _ & N). exact (N a X Ha).
    + intros X. pose proof (live_nodup (pm_row m1)) as N. rewrite LR in N. apply nodup_app in N as (_ & _ & N). exact (N a X Al).
  - split; [exact T4|]. eapply same_on_trans; [|eapply same_on_sub; [|exact ST4]; intros a Ha; simpl; auto]. intros a Ha. unfold m3. cbn [pm_tab]. rewrite ET2.
    apply F3. rewrite L3. simpl. auto.
Qed.

Lemma assign_self x m vs : pc_copying c = Fresh -> R m vs ->
  Rel (pv_assign c x x m) (match h_read vs x with Ok v => RRet (lset vs x (Some v)) tt | UB u => RUB u | _ => RNoFuel end).
Proof.
  intros K (ws & I & ->). unfold pv_assign. destruct (lookup_read m ws x I) as [(f & v & E & Hx & Hv & Rf & Sv)|[E Hv]]; rewrite Hv; [|unfold mbind; rewrite E; reflexivity].
  rewrite (mb _ _ _ _ _ E), (mb _ _ _ _ _ E), K. unfold po_write, mmod. simpl. split; [reflexivity|]. exists ws.
  assert (Ho : nth_error (pm_obj m) x = Some (Some (obj_of f))).
  { destruct (f2_nth_r _ _ _ _ _ (i_obj _ _ I) Hx) as ([o|] & Ho & Ro); simpl in Ro; [|contradiction]. destruct Ro as (-> & _). exact Ho. }
  rewrite (lset_same _ _ _ Ho). destruct m. simpl. split; [exact I|]. apply lset_same. unfold vals. rewrite nth_error_map, Hx. reflexivity.
Qed.

(** ** One step *)

Definition step_rel (r1 : outcome (pmem V A * parts_answer V A)) (r2 : outcome (heap (fobj V A) * parts_answer V A)) : Prop :=
  match r1, r2 with
  | Ok (m, a), Ok (vs, a') => a = a' /\ R m vs
  | Exit, Exit => True
  | UB u, UB u' => u = u'
  | NoFuel, NoFuel => True
  | _, _ => False
  end.

Lemma rel_answer {B : Type} (f : B -> parts_answer V A) r1 r2 : Rel r1 r2 -> step_rel (answer f r1) (answer f r2).
Proof. destruct r1 as [m b|m e| |u|], r2 as [vs b'|vs e'| |u'|]; simpl; try contradiction; auto; intros [-> H]; auto. Qed.

Lemma on_var_ext {B : Type} x (f g : M (fobj V A) B) vs : (forall v, f v = g v) -> on_var x f vs = on_var x g vs.
Proof. intros H. unfold on_var. destruct (h_read vs x); auto. rewrite H. reflexivity. Qed.

Lemma part_call x q var m vs : R m vs ->
  step_rel (parts_step c (PCall x q var) m) (values_step c (keeps (pc_copying c)) (PCall x q var) vs).
Proof.
  intros H. destruct q as [|i|i j]; cbn [parts_step values_step]; apply rel_answer.
  - exact (rel_part x QVal (sp_call var) m vs H).
  - rewrite (on_var_ext x _ (on_part (QGrad i) (sp_call var))) by (intros; apply call_grad_on_part). exact (rel_part x (QGrad i) (sp_call var) m vs H).
  - rewrite (on_var_ext x _ (on_part (QHess i j) (sp_call var))) by (intros; apply call_hess_on_part). exact (rel_part x (QHess i j) (sp_call var) m vs H).
Qed.

Lemma put_same (v : fobj V A) q s : part_of v q = Ok s -> put_part v q s = v.
Proof.
  destruct v as [a b d]. destruct q as [|i|i j]; simpl; intros H.
  - congruence.
  - apply vget_some in H as (_ & H). rewrite lset_same by exact H. reflexivity.
  - destruct (vget d i) as [row| | | |] eqn:E; try discriminate H. simpl in H. apply vget_some in E as (_ & E). apply vget_some in H as (_ & H).
    rewrite E. rewrite (lset_same row) by exact H. rewrite lset_same by exact E. reflexivity.
Qed.

Lemma on_var_get x q (vs : heap (fobj V A)) : on_var x (on_part q mget) vs = match h_read vs x with
   | Ok v => match part_of v q with Ok s => RRet vs s | Throw e => RThrow vs e | Exit => RExit | UB u => RUB u | NoFuel => RNoFuel end
   | Throw e => RThrow vs e | Exit => RExit | UB u => RUB u | NoFuel => RNoFuel end.
Proof.
  unfold on_var, on_part. destruct (h_read vs x) as [v| | | |] eqn:E; auto.
  assert (L : lset vs x (Some v) = vs) by (apply lset_same; unfold h_read in E; destruct (nth_error vs x) as [[y|]|]; congruence).
  destruct (part_of v q) as [s| | | |] eqn:P; unfold mget; auto; rewrite ?(put_same v q s P), L; reflexivity.
Qed.

Lemma part_not_throw v q e : part_of v q <> Throw e /\ part_of v q <> Exit.
Proof.
  destruct q as [|i|i j]; simpl; try (split; discriminate); unfold vget.
  - destruct (0 <=? i)%Z; [destruct (nth_error _ _)|]; split; discriminate.
  - destruct (0 <=? i)%Z; [destruct (nth_error _ _) as [row|]|]; simpl; try (split; discriminate). destruct (0 <=? j)%Z; [destruct (nth_error row _)|]; split; discriminate.
Qed.
Lemma read_not_throw {T : Type} (h : heap T) x e : h_read h x <> Throw e /\ h_read h x <> Exit.
Proof. unfold h_read. destruct (nth_error h x) as [[y|]|]; split; discriminate. Qed.

Lemma part_part x q m vs : R m vs ->
  step_rel (parts_step c (PPart x q) m) (values_step c (keeps (pc_copying c)) (PPart x q) vs).
Proof.
  intros H. assert (E : step_rel (answer Part ((do* o := po_read x in do* p := ptr_of o q in at_part p mget) m)) (answer Part (on_var x (on_part q mget) vs)))
    by (apply rel_answer, rel_part; exact H).
  rewrite on_var_get in E. cbn [values_step]. replace (parts_step c (PPart x q) m) with (answer Part ((do* o := po_read x in do* p := ptr_of o q in at_part p mget) m)) by (destruct q; reflexivity).
  assert (G : (let* v := h_read vs x in let* s := part_of v q in Ok (vs, Part s)) = answer Part match h_read vs x with
   | Ok v => match part_of v q with Ok s => RRet vs s | Throw e => RThrow vs e | Exit => RExit | UB u => RUB u | NoFuel => RNoFuel end
   | Throw e => RThrow vs e | Exit => RExit | UB u => RUB u | NoFuel => RNoFuel end); [|rewrite G; exact E].
  destruct (h_read vs x) as [v|e| | |] eqn:E1; simpl; auto; try (destruct (read_not_throw vs x e); congruence).
  destruct (part_of v q) as [s|e| | |] eqn:E2; simpl; auto. destruct (part_not_throw v q e); congruence.
Qed.

Lemma part_get x q m vs : R m vs ->
  step_rel (parts_step c (PGet x q) m) (values_step c (keeps (pc_copying c)) (PGet x q) vs).
Proof.
  intros H. assert (E : Rel ((do* s := (do* o := po_read x in do* p := ptr_of o q in at_part p mget) in mlift (sp_get s)) m)
     ((do* s := on_var x (on_part q mget) in mlift (sp_get s)) vs)).
  { apply rel_bind; [apply rel_part; exact H|]. intros s m' vs' H'. unfold mlift, sp_get, read_member. destruct (sp_val s); simpl; auto. }
  apply (rel_answer (@Number V A)) in E. unfold mbind at 4 in E. rewrite on_var_get in E.
  replace (parts_step c (PGet x q) m) with (answer (@Number V A) ((do* s := (do* o := po_read x in do* p := ptr_of o q in at_part p mget) in mlift (sp_get s)) m)) by (destruct q; reflexivity).
  assert (G : values_step c (keeps (pc_copying c)) (PGet x q) vs = let* v := h_read vs x in let* s := part_of v q in let* a := sp_get s in Ok (vs, @Number V A a)).
  { destruct q as [|i|i j]; cbn [values_step part_of]; destruct (h_read vs x) as [v| | | |]; simpl; auto; unfold fo_get_grad, fo_get_hess.
    - destruct (vget (fo_grad v) i); reflexivity.
    - destruct (vget (fo_hess v) i) as [row| | | |]; simpl; auto. destruct (vget row j); reflexivity. }
  rewrite G. clear G. revert E. match goal with |- step_rel ?a ?b -> step_rel ?a ?d => assert (G : d = b); [|rewrite G; auto] end.
  destruct (h_read vs x) as [v|e| | |] eqn:E1; simpl; auto; try (destruct (read_not_throw vs x e); congruence).
  destruct (part_of v q) as [s|e| | |] eqn:E2; simpl; auto; [|destruct (part_not_throw v q e); congruence].
  unfold mlift, sp_get, read_member. destruct (sp_val s); reflexivity.
Qed.

Lemma part_eval {B : Type} x (l : list B) (qq : B -> quantity) var m vs (f1 : B -> M (pmem V A) A) (f2 : B -> M (fobj V A) A) :
  (forall b m', f1 b m' = (do* o := po_read x in do* p := ptr_of o (qq b) in at_part p (sp_call var)) m') -> (forall b v, f2 b v = on_part (qq b) (sp_call var) v) ->
  R m vs -> Rel ((po_read x ;;; mfor l (fun b => f1 b ;;; mret tt)) m) (on_var x (mfor l (fun b => f2 b ;;; mret tt)) vs).
Proof.
  intros H1 H2 (ws & I & ->). destruct (lookup_read m ws x I) as [(f & v & E & Hx & Hv & Rf & Sv)|[E Hv]].
  - rewrite (mb _ _ _ _ _ E). rewrite (on_var_for x l _ _ v Hv). apply rel_for; [exists ws; auto|]. intros b m' vs' H'.
    rewrite (on_var_bind x (f2 b) (fun _ => tt)). apply rel_bind; [|intros; simpl; auto]. rewrite H1.
    rewrite (on_var_ext x _ (on_part (qq b) (sp_call var))) by (intros; apply H2). apply rel_part. exact H'.
  - unfold mbind, on_var. rewrite E, Hv. reflexivity.
Qed.

Lemma read_cases {T : Type} (h : heap T) x : (exists u, h_read h x = Ok u) \/ h_read h x = UB UBDangling.
Proof. unfold h_read. destruct (nth_error h x) as [[y|]|]; eauto. Qed.

Lemma step_refines o m vs : allowed (pc_copying c) o -> R m vs -> step_rel (parts_step c o m) (values_step c (keeps (pc_copying c)) o vs).
Proof.
  intros AL H. destruct o as [|x|x y|x|x q var|x var|x var|x q|x q].
  - cbn [parts_step values_step]. exact (rel_answer (fun _ => Done) _ _ (rel_new m vs H)).
  - cbn [parts_step values_step]. pose proof (rel_answer (fun _ => Done) _ _ (rel_copy x m vs H)) as E.
    destruct (read_cases vs x) as [(v & E1)|E1]; rewrite E1 in E |- *; exact E.
  - cbn [parts_step values_step]. destruct (pc_copying c) eqn:K; simpl in AL.
    + pose proof (rel_answer (fun _ => Done) _ _ (assign_keeping x y m vs K H)) as E.
      destruct (read_cases vs x) as [(v & E1)|E1]; rewrite E1 in E |- *; [|exact E].
      destruct (read_cases vs y) as [(w & E2)|E2]; rewrite E2 in E |- *; exact E.
    + subst y. pose proof (rel_answer (fun _ => Done) _ _ (assign_self x m vs K H)) as E.
      destruct (read_cases vs x) as [(v & E1)|E1]; rewrite E1 in E |- *; exact E.
    + destruct AL.
  - cbn [parts_step values_step]. pose proof (rel_answer (fun _ => Done) _ _ (rel_destroy x m vs H)) as E.
    destruct (read_cases vs x) as [(v & E1)|E1]; rewrite E1 in E |- *; exact E.
  - apply part_call. exact H.
  - cbn [parts_step values_step]. apply rel_answer. apply (part_eval x (pc_eval_grad c) QGrad var); auto. intros; apply call_grad_on_part.
  - cbn [parts_step values_step]. apply rel_answer. apply (part_eval x (pc_eval_hess c) (fun ij => QHess (fst ij) (snd ij)) var); auto. intros; apply call_hess_on_part.
  - apply part_get. exact H.
  - apply part_part. exact H.
Qed.

(** ** Whole programs *)

Definition run_rel (r1 : outcome (pmem V A * list (parts_answer V A))) (r2 : outcome (heap (fobj V A) * list (parts_answer V A))) : Prop :=
  match r1, r2 with
  | Ok (m, a), Ok (vs, a') => a = a' /\ R m vs
  | Exit, Exit => True
  | UB u, UB u' => u = u'
  | NoFuel, NoFuel => True
  | _, _ => False
  end.

Lemma run_refines os : Forall (allowed (pc_copying c)) os -> forall m vs, R m vs ->
  run_rel (run_ops (parts_step c) os m) (run_ops (values_step c (keeps (pc_copying c))) os vs).
Proof.
  induction 1 as [|o os AL F IH]; intros m vs H; simpl; [auto|]. pose proof (step_refines o m vs AL H) as S.
  destruct (parts_step c o m) as [[m' a]| | | |], (values_step c (keeps (pc_copying c)) o vs) as [[vs' a']| | | |]; simpl in S |- *; try contradiction; auto.
  destruct S as [<- H']. specialize (IH m' vs' H').
  destruct (run_ops (parts_step c) os m') as [[m2 a2]| | | |], (run_ops (values_step c (keeps (pc_copying c))) os vs') as [[vs2 a2']| | | |]; simpl in IH |- *; try contradiction; auto.
  destruct IH as [-> ?]. auto.
Qed.

Lemma start_R : R no_memory [].
Proof. exists []. split; [|reflexivity]. constructor; simpl; auto; constructor. Qed.

(** What the objects alive hold. *)
Lemma R_counts m vs : R m vs -> holds_objects n (alive vs) m.
Proof.
  intros (ws & I & ->). destruct I as [IO IP IR IT].
  assert (G : forall g k, (forall m f v, rep m f v -> shape n v -> length (g (Some (f, v))) = k) -> g None = [] -> length (all g ws) = alive (vals ws) * k).
  { intros g k Hg H0. clear IP IR IT. unfold all, vals, alive. induction IO as [|o w os ws H F IH]; [reflexivity|]. simpl. rewrite app_length, IH.
    destruct o as [o|], w as [[f v]|]; simpl in H; try contradiction; simpl.
    - destruct H as (_ & Rf & Sv). rewrite (Hg m f v Rf Sv). reflexivity.
    - rewrite H0. reflexivity. }
  unfold holds_objects. rewrite (alive_live (pm_part m)), (alive_live (pm_row m)), (alive_live (pm_tab m)). rewrite (Permutation_length IP), (Permutation_length IR), (Permutation_length IT).
  split; [|split; [|split]].
  - apply G; [|reflexivity]. intros m' f v Rf Sv. simpl. destruct (shape_lens m' f v n Rf Sv) as (L1 & L2 & L3 & L4). unfold parts_of. simpl. rewrite app_length, L1. f_equal. f_equal.
    rewrite <- L3 at 1. clear - L4. induction L4 as [|cs l H F IH]; simpl; [reflexivity|]. rewrite app_length, IH, H. lia.
  - apply G; [|reflexivity]. intros m' f v Rf Sv. simpl. destruct (shape_lens m' f v n Rf Sv) as (L1 & L2 & L3 & L4). rewrite L2. reflexivity.
  - rewrite (G wtabs 1); [lia| |reflexivity]. intros; reflexivity.
  - unfold alive, vals. clear - IO. induction IO as [|o w os ws H F IH]; [reflexivity|]. simpl. destruct o as [o|], w as [[f v]|]; simpl in H; try contradiction; simpl; auto.
Qed.

End Runs.
