(** Ownership of parts: what construction, copying, swapping, evaluation and destruction do to the footprint of one object. *)
From Coq Require Import ZArith List Bool Lia Permutation.
From Verif Require Import Model.Outcome Model.PSimple Model.Wrapper Model.FuncObj Model.Parts.
From Verif Require Import Spec.Funcs Spec.Parts.
From Verif Require Import Proofs.OutcomeP Proofs.WrapperP Proofs.PartsP.
Import ListNotations.

(** The addresses of one object's parts, of its arrays of pointers and of its table. *)
Record foot : Type := mkFoot { f_val : nat; f_g : nat; f_gs : list nat; f_t : nat; f_rows : list nat; f_cells : list (list nat) }.
Definition parts_of (f : foot) : list nat := f_val f :: f_gs f ++ concat (f_cells f).
Definition rows_of (f : foot) : list nat := f_g f :: f_rows f.
Definition obj_of (f : foot) : pobj := mkPobj (Some (f_val f)) (Some (f_g f)) (Some (f_t f)).

Section Rep.
Context {V A : Type}.
Implicit Types m : pmem V A.
Implicit Types v : fobj V A.

Record rep m (f : foot) v : Prop := mkRep {
  r_val : cell (pm_part m) (f_val f) (fo_val v);
  r_g : cell (pm_row m) (f_g f) (map Some (f_gs f));
  r_gs : Forall2 (cell (pm_part m)) (f_gs f) (fo_grad v);
  r_t : cell (pm_tab m) (f_t f) (map Some (f_rows f));
  r_rows : Forall2 (fun r cs => cell (pm_row m) r (map Some cs)) (f_rows f) (f_cells f);
  r_cells : Forall2 (Forall2 (cell (pm_part m))) (f_cells f) (fo_hess v)
}.

Definition shape (n : nat) v : Prop := length (fo_grad v) = n /\ length (fo_hess v) = n /\ Forall (fun row => length row = n) (fo_hess v).

Lemma f2_imp {X Y : Type} (R R' : X -> Y -> Prop) l l' : Forall2 R l l' -> (forall x y, In x l -> R x y -> R' x y) -> Forall2 R' l l'.
Proof. induction 1; intros H1; constructor; [apply H1; simpl; auto|apply IHForall2; intros; apply H1; simpl; auto]. Qed.

Lemma cell_same {T : Type} (L : list nat) (h h' : heap T) a x : same_on L h h' -> In a L -> cell h a x -> cell h' a x.
Proof. intros H Ha. unfold cell. rewrite (H a Ha). auto. Qed.

Lemma rep_frame m m' f v : rep m f v -> same_on (parts_of f) (pm_part m) (pm_part m') -> same_on (rows_of f) (pm_row m) (pm_row m') ->
  same_on [f_t f] (pm_tab m) (pm_tab m') -> rep m' f v.
Proof.
  intros [] SP SR ST. constructor.
  - eapply cell_same; [exact SP|simpl; auto|assumption].
  - eapply cell_same; [exact SR|simpl; auto|assumption].
  - eapply f2_imp; [eassumption|]. intros. eapply cell_same; [exact SP| |assumption]. simpl. right. apply in_or_app. auto.
  - eapply cell_same; [exact ST|simpl; auto|assumption].
  - eapply f2_imp; [eassumption|]. intros. eapply cell_same; [exact SR| |assumption]. simpl. auto.
  - eapply f2_imp; [eassumption|]. intros cs ss Hc H. eapply f2_imp; [exact H|]. intros a s Ha Hs. eapply cell_same; [exact SP| |exact Hs].
    simpl. right. apply in_or_app. right. apply in_concat. eauto.
Qed.

(** ** Building *)

Record built m m' (f : foot) v : Prop := mkBuilt {
  b_rep : rep m' f v;
  b_obj : pm_obj m' = pm_obj m;
  b_part : forall a, a < length (pm_part m) -> nth_error (pm_part m') a = nth_error (pm_part m) a;
  b_row : forall a, a < length (pm_row m) -> nth_error (pm_row m') a = nth_error (pm_row m) a;
  b_tab : forall a, a < length (pm_tab m) -> nth_error (pm_tab m') a = nth_error (pm_tab m) a;
  b_lp : Permutation (live (pm_part m')) (parts_of f ++ live (pm_part m));
  b_lr : Permutation (live (pm_row m')) (rows_of f ++ live (pm_row m));
  b_lt : Permutation (live (pm_tab m')) (f_t f :: live (pm_tab m))
}.

Lemma cells_seq {T : Type} (l : list T) : forall pre post, Forall2 (cell (pre ++ map Some l ++ post)) (seq (length pre) (length l)) l.
Proof.
  induction l as [|x l IH]; intros pre post; simpl; constructor.
  - unfold cell. rewrite nth_error_app2, Nat.sub_diag by lia. reflexivity.
  - replace (pre ++ Some x :: map Some l ++ post) with ((pre ++ [Some x]) ++ map Some l ++ post) by (rewrite <- app_assoc; reflexivity).
    replace (S (length pre)) with (length (pre ++ [Some x])) by (rewrite app_length; simpl; lia). apply IH.
Qed.
Lemma cells_segs {T : Type} (ss : list (list T)) : forall pre, Forall2 (Forall2 (cell (pre ++ map Some (concat ss)))) (segs (length pre) ss) ss.
Proof.
  induction ss as [|s ss IH]; intros pre; simpl; constructor.
  - rewrite map_app. apply cells_seq.
  - rewrite map_app, app_assoc. replace (length pre + length s) with (length (pre ++ map Some s)) by (rewrite app_length, map_length; reflexivity). apply IH.
Qed.

Lemma live_add {T : Type} (h h' : heap T) L : NoDup L -> (forall a, In a L -> ~ In a (live h)) -> (forall a, In a L -> In a (live h')) ->
  (forall a, ~ In a L -> nth_error h' a = nth_error h a) -> Permutation (live h') (L ++ live h).
Proof.
  intros N D I O. apply NoDup_Permutation; [apply live_nodup| |].
  - clear I O. induction N as [|b s Hb N IH]; simpl; [apply live_nodup|]. constructor.
    + rewrite in_app_iff. intros [H|H]; [auto|]. apply (D b); simpl; auto.
    + apply IH. intros a Ha. apply D. simpl. auto.
  - intros a. rewrite in_app_iff. destruct (in_dec Nat.eq_dec a L) as [Y|Y]; [split; auto|].
    rewrite !live_in. unfold cell. rewrite (O a Y). split; [auto|]. intros [X|X]; [contradiction|exact X].
Qed.

Definition all_parts v : list (simple V A) := fo_val v :: fo_grad v ++ concat (fo_hess v).
Definition new_foot m n v : foot :=
  mkFoot (length (pm_part m)) (length (pm_row m)) (seq (S (length (pm_part m))) n) (length (pm_tab m)) (seq (S (length (pm_row m))) n)
    (segs (S (length (pm_part m)) + n) (fo_hess v)).

Lemma assemble m m' v n : shape n v -> pm_obj m' = pm_obj m -> pm_part m' = pm_part m ++ map Some (all_parts v) ->
  pm_tab m' = pm_tab m ++ [Some (map Some (seq (S (length (pm_row m))) n))] ->
  cell (pm_row m') (length (pm_row m)) (map Some (seq (S (length (pm_part m))) n)) ->
  Forall2 (fun r cs => cell (pm_row m') r (map Some cs)) (seq (S (length (pm_row m))) n) (segs (S (length (pm_part m)) + n) (fo_hess v)) ->
  (forall a, ~ In a (seq (length (pm_row m)) (S n)) -> nth_error (pm_row m') a = nth_error (pm_row m) a) ->
  built m m' (new_foot m n v) v.
Proof.
  intros (Hg & Hh & Hr) EO EP ET CG CR OR. constructor; try exact EO.
  - constructor; simpl.
    + rewrite EP. unfold cell. rewrite nth_error_app2, Nat.sub_diag by lia. reflexivity.
    + exact CG.
    + rewrite EP. unfold all_parts. cbn [map]. rewrite map_app. rewrite <- Hg.
      replace (pm_part m ++ Some (fo_val v) :: map Some (fo_grad v) ++ map Some (concat (fo_hess v)))
        with ((pm_part m ++ [Some (fo_val v)]) ++ map Some (fo_grad v) ++ map Some (concat (fo_hess v))) by (rewrite <- app_assoc; reflexivity).
      replace (S (length (pm_part m))) with (length (pm_part m ++ [Some (fo_val v)])) by (rewrite app_length; simpl; lia). apply cells_seq.
    + rewrite ET. unfold cell. rewrite nth_error_app2, Nat.sub_diag by lia. reflexivity.
    + exact CR.
    + rewrite EP. unfold all_parts. cbn [map]. rewrite map_app. rewrite <- Hg.
      replace (pm_part m ++ Some (fo_val v) :: map Some (fo_grad v) ++ map Some (concat (fo_hess v)))
        with ((pm_part m ++ Some (fo_val v) :: map Some (fo_grad v)) ++ map Some (concat (fo_hess v))) by (rewrite <- app_assoc; reflexivity).
      change (S (length (pm_part m) + length (fo_grad v))) with (S (length (pm_part m)) + length (fo_grad v)).
      replace (S (length (pm_part m)) + length (fo_grad v)) with (length (pm_part m ++ Some (fo_val v) :: map Some (fo_grad v)))
        by (rewrite app_length; simpl; rewrite map_length; lia). apply cells_segs.
  - intros a Ha. rewrite EP. apply nth_app_old. exact Ha.
  - intros a Ha. apply OR. rewrite in_seq. lia.
  - intros a Ha. rewrite ET. apply nth_app_old. exact Ha.
  - rewrite EP, live_app. apply Permutation_app_tail. unfold parts_of, new_foot, all_parts. cbn [f_val f_gs f_cells length].
    rewrite concat_segs, app_length. simpl seq. apply perm_skip. rewrite seq_app, Hg. simpl. reflexivity.
  - unfold rows_of, new_foot. cbn [f_g f_rows]. apply live_add.
    + exact (seq_NoDup (S n) _).
    + intros a H1 H2. change (In a (seq (length (pm_row m)) (S n))) in H1. apply in_seq in H1. apply live_lt in H2. lia.
    + intros a [<-|Ha]; [eapply cell_live; exact CG|]. clear - CR Ha. induction CR as [|r cs l l' H F IH]; [destruct Ha|].
      destruct Ha as [<-|Ha]; [eapply cell_live; exact H|auto].
    + exact OR.
  - rewrite ET. exact (live_app (pm_tab m) [_]).
Qed.

Lemma seq_cells {T : Type} (x : T) n : forall h, Forall2 (fun r (_ : unit) => cell (h ++ repeat (Some x) n) r x) (seq (length h) n) (repeat tt n).
Proof.
  induction n as [|n IH]; intros h; simpl; constructor.
  - unfold cell. rewrite nth_error_app2, Nat.sub_diag by lia. reflexivity.
  - replace (h ++ Some x :: repeat (Some x) n) with ((h ++ [Some x]) ++ repeat (Some x) n) by (rewrite <- app_assoc; reflexivity).
    replace (S (length h)) with (length (h ++ [Some x])) by (rewrite app_length; simpl; lia). apply IH.
Qed.

(** The part of building that both orders share: the arrays of [m1] are in place, the parts before the Hessian too. *)
Lemma rows_ready {X : Type} (h h' : heap (list (option nat))) n (acts : list (list X)) :
  length acts = n -> Forall (fun row => length row = n) acts ->
  (forall a, In a (seq (length h) n) -> nth_error h' a = nth_error (h ++ repeat (Some (repeat None n)) n) a) ->
  Forall2 (fun r row => cell h' r (repeat None (length row))) (seq (length h) n) acts.
Proof.
  intros L F H. pose proof (seq_cells (@repeat (option nat) None n) n h) as S0.
  assert (S1 : Forall2 (fun r (_ : unit) => cell h' r (repeat None n)) (seq (length h) n) (repeat tt n)).
  { eapply f2_imp; [exact S0|]. intros a u Ha C. unfold cell in *. rewrite H by exact Ha. exact C. }
  clear S0 H. revert S1 L F. generalize (seq (length h) n). generalize n at 2 3. intros k l S1 L. revert k l S1 L.
  induction acts as [|row acts IH]; intros k l S1 L F; simpl in L; subst k; simpl in S1; inversion S1; subst; constructor; inversion F; subst; auto.
  eapply IH; eauto.
Qed.

Lemma acts_shape {X : Type} (acts : list (list X)) (ss : list (list (simple V A))) n (R : X -> simple V A -> Prop) :
  Forall2 (Forall2 R) acts ss -> length ss = n -> Forall (fun row => length row = n) ss -> length acts = n /\ Forall (fun row => length row = n) acts.
Proof.
  intros F L H. split; [rewrite (f2_len _ _ _ F); exact L|]. clear L. induction F as [|a s acts ss Ha F IH]; constructor; inversion H; subst.
  - apply f2_len in Ha. rewrite Ha. reflexivity.
  - auto.
Qed.

Lemma nth_app_repeat {T : Type} (h : heap T) x n a : a < length h -> nth_error (h ++ repeat x n) a = nth_error h a.
Proof. apply nth_app_old. Qed.

(** construct(): all arrays and all parts. *)
Lemma construct_all_ok (c : pclass V A) m n : shape n (pc_parts c) ->
  exists m', construct_all c m = RRet m' (obj_of (new_foot m n (pc_parts c))) /\ built m m' (new_foot m n (pc_parts c)) (pc_parts c).
Proof.
  intros SH. destruct SH as (Hg & Hh & Hr). unfold construct_all. set (v := pc_parts c) in *. rewrite Hg.
  set (m1 := mkPmem (pm_part m ++ [Some (fo_val v)]) (pm_row m) (pm_tab m) (pm_obj m)).
  rewrite (mb (new_part (fo_val v)) _ m m1 (length (pm_part m)) eq_refl).
  set (m2 := mkPmem (pm_part m1) (pm_row m ++ [Some (repeat None n)]) (pm_tab m) (pm_obj m)).
  rewrite (mb (new_row n) _ m1 m2 (length (pm_row m)) eq_refl).
  destruct (fill_row_ok (fun _ => True) (length (pm_row m)) (map new_part (fo_grad v)) (fo_grad v) m2) as [E3 _]; auto.
  { clear. induction (fo_grad v); constructor; auto. }
  { rewrite map_length, Hg. unfold m2, cell. simpl. rewrite nth_error_app2, Nat.sub_diag by lia. reflexivity. }
  rewrite (mb _ _ _ _ _ E3). clear E3. set (m3 := mkPmem _ _ _ _).
  set (m4 := mkPmem (pm_part m3) (pm_row m3) (pm_tab m3 ++ [Some (repeat None n)]) (pm_obj m3)).
  rewrite (mb (new_tab n) _ m3 m4 (length (pm_tab m3)) eq_refl).
  assert (C4 : cell (pm_tab m4) (length (pm_tab m3)) (repeat None n)).
  { unfold m4, cell. simpl. rewrite nth_error_app2, Nat.sub_diag by lia. reflexivity. }
  pose proof (new_rows_ok (length (pm_tab m3)) n m4 C4) as E5.
  rewrite (mb _ _ _ _ _ E5). clear E5. set (m5 := mkPmem _ _ _ _).
  assert (LR : length (pm_row m4) = S (length (pm_row m))).
  { unfold m4, m3, m2. simpl. rewrite length_lset, app_length. simpl. lia. }
  assert (HF : Forall2 (Forall2 (fun act s => forall m : pmem V A, True -> act m = new_part s m)) (map (map new_part) (fo_hess v)) (fo_hess v)).
  { clear. induction (fo_hess v) as [|row l IH]; constructor; auto. clear. induction row; constructor; auto. }
  destruct (acts_shape _ _ n _ HF Hh Hr) as [La Fa].
  destruct (fill_tab_ok (fun _ => True) (length (pm_tab m3)) (seq (length (pm_row m4)) n) (map (map new_part) (fo_hess v)) (fo_hess v) m5)
    as (rows' & E6 & _ & F6 & O6); auto.
  { unfold m5. simpl. eapply cell_set. exact C4. }
  { apply seq_NoDup. }
  { apply rows_ready; auto. }
  rewrite (mb _ _ _ _ _ E6). clear E6. set (m6 := mkPmem _ _ _ _). exists m6. split; [reflexivity|].
  assert (LP : length (pm_part m5) = S (length (pm_part m)) + n).
  { unfold m5, m4, m3, m2, m1. simpl. rewrite !app_length, map_length. simpl. lia. }
  apply assemble.
  - split; [exact Hg|split; assumption].
  - reflexivity.
  - unfold m6, m5, m4, m3, m2, m1. simpl. unfold all_parts. rewrite ?map_cons, map_app, <- !app_assoc. reflexivity.
  - unfold m6, m5, m4, m3, m2. cbn [pm_tab]. rewrite lset_snoc. rewrite <- LR. reflexivity.
  - unfold m6. cbn [pm_row]. unfold cell. rewrite O6 by (rewrite in_seq; lia). unfold m5. cbn [pm_row]. rewrite nth_app_old by lia.
    unfold m4, m3. cbn [pm_row]. rewrite nth_error_lset_same by (unfold m2; simpl; rewrite app_length; simpl; lia). unfold m2, m1. cbn [pm_part].
    rewrite app_length, Hg. simpl. rewrite Nat.add_1_r. reflexivity.
  - unfold m6. cbn [pm_row]. rewrite LR, LP in F6. exact F6.
  - intros a Na. assert (Na' := Na). rewrite in_seq in Na. unfold m6. cbn [pm_row]. rewrite O6 by (rewrite in_seq; lia).
    unfold m5. cbn [pm_row]. destruct (lt_dec a (length (pm_row m))) as [L|L].
    + rewrite nth_app_old by lia. unfold m4, m3. cbn [pm_row]. rewrite nth_set_other by lia. unfold m2. cbn [pm_row]. apply nth_app_old. exact L.
    + transitivity (@None (option (list (option nat)))); [|symmetry]; apply nth_error_None; [|lia]. rewrite app_length, repeat_length, LR. lia.
Qed.

(** construct(false). *)
Lemma construct_arrays_ok m n :
  construct_arrays n m = RRet (mkPmem (pm_part m) (pm_row m ++ [Some (repeat None n)] ++ repeat (Some (repeat None n)) n)
      (pm_tab m ++ [Some (map Some (seq (S (length (pm_row m))) n))]) (pm_obj m)) (mkPobj None (Some (length (pm_row m))) (Some (length (pm_tab m)))).
Proof.
  unfold construct_arrays.
  set (m1 := mkPmem (pm_part m) (pm_row m ++ [Some (repeat None n)]) (pm_tab m) (pm_obj m)).
  rewrite (mb (new_row n) _ m m1 (length (pm_row m)) eq_refl).
  set (m2 := mkPmem (pm_part m) (pm_row m1) (pm_tab m ++ [Some (repeat None n)]) (pm_obj m)).
  rewrite (mb (new_tab n) _ m1 m2 (length (pm_tab m)) eq_refl).
  assert (C : cell (pm_tab m2) (length (pm_tab m)) (repeat None n)).
  { unfold m2, cell. simpl. rewrite nth_error_app2, Nat.sub_diag by lia. reflexivity. }
  pose proof (new_rows_ok (length (pm_tab m)) n m2 C) as E. rewrite (mb _ _ _ _ _ E). unfold mret. f_equal.
  unfold m2, m1. cbn [pm_part pm_row pm_tab pm_obj]. rewrite lset_snoc, <- app_assoc, app_length. simpl. rewrite Nat.add_1_r. reflexivity.
Qed.

(** The copy constructor that clones, and the constructor of such a class. *)
Lemma fill_parts_ok (P : pmem V A -> Prop) m n v av ag ah :
  shape n v ->
  (forall r, length (pm_row m) <= r -> forall p rr t o s l, P (mkPmem p rr t o) -> P (mkPmem (p ++ [Some s]) (lset rr r (Some l)) t o)) ->
  (forall p rr t o s, P (mkPmem p rr t o) -> P (mkPmem (p ++ [Some s]) rr t o)) ->
  P (mkPmem (pm_part m) (pm_row m ++ [Some (repeat None n)] ++ repeat (Some (repeat None n)) n)
      (pm_tab m ++ [Some (map Some (seq (S (length (pm_row m))) n))]) (pm_obj m)) ->
  (forall m, P m -> av m = new_part (fo_val v) m) ->
  Forall2 (fun act s => forall m, P m -> act m = new_part s m) ag (fo_grad v) ->
  Forall2 (Forall2 (fun act s => forall m, P m -> act m = new_part s m)) ah (fo_hess v) ->
  exists m', (do* o := construct_arrays n in fill_parts o av ag ah) m = RRet m' (obj_of (new_foot m n v)) /\ built m m' (new_foot m n v) v.
Proof.
  intros SH HP HN H0 Hv HG HH. rewrite (mb _ _ _ _ _ (construct_arrays_ok m n)). set (m1 := mkPmem _ _ _ _) in *. unfold fill_parts.
  destruct SH as (Hg & Hh & Hr).
  set (m2 := mkPmem (pm_part m ++ [Some (fo_val v)]) (pm_row m1) (pm_tab m1) (pm_obj m)).
  assert (E2 : av m1 = RRet m2 (length (pm_part m))) by (rewrite Hv by exact H0; reflexivity).
  rewrite (mb _ _ _ _ _ E2). clear E2. assert (P2 : P m2) by (apply HN; exact H0).
  cbn [po_grad po_hess read_member]. rewrite (mb (mlift (Ok (length (pm_row m)))) _ m2 m2 (length (pm_row m)) eq_refl).
  destruct (fill_row_ok P (length (pm_row m)) ag (fo_grad v) m2) as [E3 P3]; auto.
  { rewrite (f2_len _ _ _ HG), Hg. unfold m2, m1, cell. cbn [pm_row]. rewrite nth_error_app2, Nat.sub_diag by lia. reflexivity. }
  set (m3 := mkPmem (pm_part m2 ++ map Some (fo_grad v)) _ _ _) in *. rewrite (mb _ _ _ _ _ E3). clear E3.
  rewrite (mb (mlift (Ok (length (pm_tab m)))) _ m3 m3 (length (pm_tab m)) eq_refl).
  destruct (acts_shape _ _ n _ HH Hh Hr) as [La Fa].
  set (h1 := pm_row m ++ [Some (repeat None n)]).
  assert (L1 : length h1 = S (length (pm_row m))) by (unfold h1; rewrite app_length; simpl; lia).
  destruct (fill_tab_ok P (length (pm_tab m)) (seq (S (length (pm_row m))) n) ah (fo_hess v) m3) as (rows' & E6 & _ & F6 & O6); auto.
  { intros r Hin. apply in_seq in Hin. apply HP. lia. }
  { unfold m3, m2, m1, cell. cbn [pm_tab]. rewrite nth_error_app2, Nat.sub_diag by lia. reflexivity. }
  { apply seq_NoDup. }
  { rewrite <- L1. apply rows_ready; auto. intros a Ha. apply in_seq in Ha. unfold m3, m2, m1. cbn [pm_row]. rewrite nth_set_other by lia.
    unfold h1. rewrite <- app_assoc. reflexivity. }
  rewrite (mb _ _ _ _ _ E6). clear E6. set (m6 := mkPmem _ _ _ _). exists m6. split; [reflexivity|].
  assert (LP : length (pm_part m3) = S (length (pm_part m)) + n).
  { unfold m3, m2. simpl. rewrite !app_length, map_length. simpl. lia. }
  apply assemble.
  - split; [exact Hg|split; assumption].
  - reflexivity.
  - unfold m6, m3, m2. simpl. unfold all_parts. rewrite ?map_cons, map_app, <- !app_assoc. reflexivity.
  - reflexivity.
  - unfold m6. cbn [pm_row]. unfold cell. rewrite O6 by (rewrite in_seq; lia). unfold m3. cbn [pm_row].
    rewrite nth_error_lset_same by (unfold m2, m1; cbn [pm_row]; rewrite !app_length; simpl; lia). unfold m2. cbn [pm_part].
    rewrite app_length, Hg. simpl. rewrite Nat.add_1_r. reflexivity.
  - unfold m6. cbn [pm_row]. rewrite LP in F6. exact F6.
  - intros a Na. rewrite in_seq in Na. unfold m6. cbn [pm_row]. rewrite O6 by (rewrite in_seq; lia).
    unfold m3. cbn [pm_row]. rewrite nth_set_other by lia. unfold m2, m1. cbn [pm_row]. destruct (lt_dec a (length (pm_row m))) as [L|L].
    + apply nth_app_old. exact L.
    + transitivity (@None (option (list (option nat)))); [|symmetry]; apply nth_error_None; [|lia]. rewrite !app_length, repeat_length. simpl. lia.
Qed.

Lemma po_construct_ok (c : pclass V A) m n : shape n (pc_parts c) ->
  exists m', po_construct c m = RRet m' (obj_of (new_foot m n (pc_parts c))) /\ built m m' (new_foot m n (pc_parts c)) (pc_parts c).
Proof.
  intros SH. unfold po_construct. destruct (pc_copying c); try (apply construct_all_ok; exact SH).
  assert (Hg := proj1 SH). rewrite Hg. apply (fill_parts_ok (fun _ => True)); auto.
  - clear. induction (fo_grad (pc_parts c)); constructor; auto.
  - clear. induction (fo_hess (pc_parts c)) as [|row l IH]; constructor; auto. clear. induction row; constructor; auto.
Qed.

(** ** Reading pointers *)

Lemma val_ptr_ok m f : val_ptr (obj_of f) m = RRet m (f_val f).
Proof. reflexivity. Qed.
Lemma grad_ptr_ok m f v k p : rep m f v -> nth_error (f_gs f) k = Some p -> grad_ptr (obj_of f) (Z.of_nat k) m = RRet m p.
Proof.
  intros R H. unfold grad_ptr, get_row, mbind, mget, mlift. cbn [obj_of po_grad po_hess read_member]. erewrite get_elem_ok; [reflexivity|exact (r_g _ _ _ R)|]. apply vget_map. exact H.
Qed.
Lemma row_ptr_ok m f v k r : rep m f v -> nth_error (f_rows f) k = Some r -> row_ptr (obj_of f) (Z.of_nat k) m = RRet m r.
Proof.
  intros R H. unfold row_ptr, get_tab, mbind, mget, mlift. cbn [obj_of po_grad po_hess read_member]. erewrite get_elem_ok; [reflexivity|exact (r_t _ _ _ R)|]. apply vget_map. exact H.
Qed.

Lemma f2_nth {X Y : Type} (R : X -> Y -> Prop) l l' k x : Forall2 R l l' -> nth_error l k = Some x -> exists y, nth_error l' k = Some y /\ R x y.
Proof. intros F. revert k. induction F; intros [|k] H1; simpl in *; try discriminate; [injection H1 as <-; eauto|eauto]. Qed.
Lemma f2_nth_r {X Y : Type} (R : X -> Y -> Prop) l l' k y : Forall2 R l l' -> nth_error l' k = Some y -> exists x, nth_error l k = Some x /\ R x y.
Proof. intros F. revert k. induction F; intros [|k] H1; simpl in *; try discriminate; [injection H1 as <-; eauto|eauto]. Qed.

Lemma hess_ptr_ok m f v k j cs p : rep m f v -> nth_error (f_cells f) k = Some cs -> nth_error cs j = Some p ->
  hess_ptr (obj_of f) (Z.of_nat k) (Z.of_nat j) m = RRet m p.
Proof.
  intros R H1 H2. destruct (f2_nth_r _ _ _ _ _ (r_rows _ _ _ R) H1) as (r & Hr & Cr). unfold hess_ptr. rewrite (mb _ _ _ _ _ (row_ptr_ok m f v k r R Hr)).
  unfold get_row, mbind, mget, mlift. erewrite get_elem_ok; [reflexivity|exact Cr|]. apply vget_map. exact H2.
Qed.

Lemma clone_ok m p s : cell (pm_part m) p s -> clone_part p m = new_part s m.
Proof. intros H. unfold clone_part, mbind, mget, mlift. rewrite (cell_read _ _ _ H). reflexivity. Qed.

Lemma shape_lens m f v n : rep m f v -> shape n v ->
  length (f_gs f) = n /\ length (f_rows f) = n /\ length (f_cells f) = n /\ Forall (fun cs => length cs = n) (f_cells f).
Proof.
  intros R (Hg & Hh & Hr). destruct R as [_ _ G _ RW C]. rewrite (f2_len _ _ _ G), (f2_len _ _ _ RW), (f2_len _ _ _ C). repeat (split; [assumption|]).
  clear - C Hr. induction C as [|cs s l l' H F IH]; constructor; inversion Hr; subst; auto. rewrite (f2_len _ _ _ H). reflexivity.
Qed.

Lemma f2_subscripts {X Y : Type} (g : Z -> X) (R : X -> Y -> Prop) (l : list Y) :
  (forall k y, nth_error l k = Some y -> R (g (Z.of_nat k)) y) -> Forall2 R (map g (subscripts (length l))) l.
Proof.
  unfold subscripts. rewrite map_map. assert (G : forall b, (forall k y, nth_error l k = Some y -> R (g (Z.of_nat (b + k))) y) ->
    Forall2 R (map (fun x => g (Z.of_nat x)) (seq b (length l))) l).
  { induction l as [|y l IH]; intros b H; simpl; constructor.
    - specialize (H 0 y eq_refl). rewrite Nat.add_0_r in H. exact H.
    - apply IH. intros k z Hk. specialize (H (S k) z Hk). rewrite Nat.add_succ_r in H. exact H. }
  exact (G 0).
Qed.

Lemma po_copy_keeps (c : pclass V A) m n f v : pc_copying c = Keeping -> shape n (pc_parts c) -> rep m f v -> shape n v ->
  exists m', po_copy c (obj_of f) m = RRet m' (obj_of (new_foot m n v)) /\ built m m' (new_foot m n v) v.
Proof.
  intros K SC R SV. unfold po_copy. rewrite K, (proj1 SC). destruct SV as (Hg & Hh & Hr).
  set (P := fun m' : pmem V A => rep m' f v).
  assert (LR : forall r, In r (rows_of f) -> r < length (pm_row m)).
  { intros r [<-|Hin]; [exact (nth_len _ _ _ _ (r_g _ _ _ R))|]. apply In_nth_error in Hin as (k & Hk).
    destruct (f2_nth _ _ _ _ _ (r_rows _ _ _ R) Hk) as (cs & _ & C). exact (nth_len _ _ _ _ C). }
  assert (PN : forall p rr t o s, P (mkPmem p rr t o) -> P (mkPmem (p ++ [Some s]) rr t o)).
  { intros p rr t o s H. unfold P in *. eapply rep_frame; [exact H| |intros a _; reflexivity|intros a _; reflexivity]. simpl. intros a Ha. apply nth_app_old.
    assert (IN : In a (live p)); [|exact (live_lt _ _ IN)]. destruct H as [Cv _ Cg _ _ Cc]. simpl in Cv, Cg, Cc. destruct Ha as [<-|Ha]; [eapply cell_live; exact Cv|].
    apply in_app_or in Ha as [Ha|Ha].
    - apply In_nth_error in Ha as (k & Hk). destruct (f2_nth _ _ _ _ _ Cg Hk) as (s' & _ & C). eapply cell_live; exact C.
    - apply in_concat in Ha as (cs & H1 & H2). apply In_nth_error in H1 as (k & Hk). destruct (f2_nth _ _ _ _ _ Cc Hk) as (ss & _ & C).
      apply In_nth_error in H2 as (j & Hj). destruct (f2_nth _ _ _ _ _ C Hj) as (s' & _ & C'). eapply cell_live; exact C'. }
  apply (fill_parts_ok P).
  - split; [exact Hg|split; assumption].
  - intros r Hr' p rr t o s l H. unfold P in *. apply (PN p rr t o s) in H. unfold P in H.
    eapply rep_frame; [exact H|intros a _; reflexivity| |intros a _; reflexivity]. simpl. intros a Ha. apply nth_set_other. intros ->.
    apply LR in Ha. lia.
  - exact PN.
  - unfold P. eapply rep_frame; [exact R|intros a _; reflexivity| |]; simpl.
    + intros a Ha. apply nth_app_old. apply LR. exact Ha.
    + intros a [<-|[]]. apply nth_app_old. exact (nth_len _ _ _ _ (r_t _ _ _ R)).
  - intros m' H. rewrite (mb _ _ _ _ _ (val_ptr_ok m' f)). apply clone_ok. exact (r_val _ _ _ H).
  - rewrite <- Hg at 1. apply f2_subscripts. intros k s Hk m' H. destruct (f2_nth_r _ _ _ _ _ (r_gs _ _ _ H) Hk) as (p & Hp & C).
    rewrite (mb _ _ _ _ _ (grad_ptr_ok m' f v k p H Hp)). apply clone_ok. exact C.
  - match goal with |- Forall2 _ (map ?g _) _ => set (gg := g) end. rewrite <- Hh. apply f2_subscripts. intros k row Hk. unfold gg.
    assert (Lrow : length row = n) by (rewrite Forall_forall in Hr; apply Hr; exact (nth_error_In _ _ Hk)).
    replace (subscripts n) with (subscripts (length row)) by (rewrite Lrow; reflexivity). apply f2_subscripts. intros j s Hj m' H.
    destruct (f2_nth_r _ _ _ _ _ (r_cells _ _ _ H) Hk) as (cs & Hcs & Ccs). destruct (f2_nth_r _ _ _ _ _ Ccs Hj) as (p & Hp & C).
    rewrite (mb _ _ _ _ _ (hess_ptr_ok m' f v k j cs p H Hcs Hp)). apply clone_ok. exact C.
Qed.

End Rep.
