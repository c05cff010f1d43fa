(** Ownership of parts: heaps, arrays of pointers, and the footprint of one object. *)
From Coq Require Import ZArith List Bool Lia Permutation.
From Verif Require Import Model.Outcome Model.PSimple Model.Wrapper Model.FuncObj Model.Parts.
From Verif Require Import Spec.Funcs Spec.Parts.
From Verif Require Import Proofs.OutcomeP Proofs.WrapperP.
Import ListNotations.

(** ** Heaps *)

Section Heaps.
Context {T : Type}.
Implicit Types h : heap T.

Definition cell h (a : nat) (x : T) : Prop := nth_error h a = Some (Some x).
Definition live h : list nat := filter (fun a => match nth_error h a with Some (Some _) => true | _ => false end) (seq 0 (length h)).
Definition same_on (l : list nat) h h' : Prop := forall a, In a l -> nth_error h' a = nth_error h a.

Lemma live_in h a : In a (live h) <-> exists x, cell h a x.
Proof.
  unfold live, cell. rewrite filter_In, in_seq. split.
  - intros [_ H]. destruct (nth_error h a) as [[x|]|]; try discriminate. eauto.
  - intros [x H]. rewrite H. split; [|reflexivity]. split; [lia|]. apply nth_len in H. lia.
Qed.
Lemma live_nodup h : NoDup (live h).
Proof. apply NoDup_filter, seq_NoDup. Qed.
Lemma cell_live h a x : cell h a x -> In a (live h).
Proof. rewrite live_in. eauto. Qed.
Lemma live_lt h a : In a (live h) -> a < length h.
Proof. rewrite live_in. intros [x H]. exact (nth_len _ _ _ _ H). Qed.
Lemma cell_read h a x : cell h a x -> h_read h a = Ok x.
Proof. unfold cell, h_read. intros ->. reflexivity. Qed.

Lemma cell_set h a x y : cell h a x -> cell (lset h a (Some y)) a y.
Proof. intros H. unfold cell. rewrite nth_error_lset_same; [reflexivity|]. exact (nth_len _ _ _ _ H). Qed.
Lemma nth_set_other h a b y : a <> b -> nth_error (lset h a y) b = nth_error h b.
Proof. intros H. apply nth_error_lset_other. congruence. Qed.

Lemma live_eq h h' : (forall a, (exists x, cell h a x) <-> (exists x, cell h' a x)) -> Permutation (live h') (live h).
Proof. intros H. apply NoDup_Permutation; try apply live_nodup. intros a. rewrite !live_in. symmetry. apply H. Qed.

Lemma live_set h a x y : cell h a x -> Permutation (live (lset h a (Some y))) (live h).
Proof.
  intros H. apply live_eq. intros b. destruct (Nat.eq_dec a b) as [<-|N].
  - split; intros _; [exists y; eapply cell_set; eauto|eauto].
  - unfold cell. rewrite nth_set_other by auto. reflexivity.
Qed.

Lemma live_del h a x : cell h a x -> Permutation (live h) (a :: live (lset h a None)).
Proof.
  intros H. apply NoDup_Permutation; [apply live_nodup| |].
  - constructor; [|apply live_nodup]. rewrite live_in. unfold cell. intros [y E]. rewrite nth_error_lset_same in E by exact (nth_len _ _ _ _ H). discriminate.
  - intros b. simpl. rewrite !live_in. unfold cell in *. destruct (Nat.eq_dec a b) as [<-|N].
    + split; [auto|eauto].
    + rewrite nth_set_other by auto. split; [auto|]. intros [E|E]; [congruence|exact E].
Qed.

Lemma del_ok h a L : Permutation (live h) (a :: L) ->
  h_delete h a = Ok (lset h a None) /\ Permutation (live (lset h a None)) L /\ same_on L h (lset h a None).
Proof.
  intros HP. assert (Ha : In a (live h)) by (rewrite HP; left; reflexivity). apply live_in in Ha as [x Hx].
  split; [unfold h_delete; rewrite Hx; reflexivity|]. split.
  - apply (Permutation_cons_inv (a := a)). rewrite <- (live_del h a x Hx). exact HP.
  - intros b Hb. apply nth_set_other. intros <-. pose proof (live_nodup h) as N. rewrite HP in N. inversion N; auto.
Qed.

Lemma cell_app h l a x : cell h a x -> cell (h ++ l) a x.
Proof. intros H. unfold cell. rewrite nth_error_app1; [exact H|exact (nth_len _ _ _ _ H)]. Qed.
Lemma nth_app_old h l a : a < length h -> nth_error (h ++ l) a = nth_error h a.
Proof. intros H. apply nth_error_app1. exact H. Qed.

Lemma live_app h (l : list T) : Permutation (live (h ++ map Some l)) (seq (length h) (length l) ++ live h).
Proof.
  apply NoDup_Permutation; [apply live_nodup| |].
  - assert (D : forall a, In a (seq (length h) (length l)) -> ~ In a (live h)).
    { intros a H1 H2. apply in_seq in H1. apply live_lt in H2. lia. }
    revert D. generalize (seq_NoDup (length l) (length h)). generalize (seq (length h) (length l)). intros s N.
    induction N as [|b s Hb N IH]; intros D; simpl; [apply live_nodup|]. constructor.
    + rewrite in_app_iff. intros [H|H]; [auto|]. apply (D b); simpl; auto.
    + apply IH. intros a Ha. apply D. simpl. auto.
  - intros a. rewrite in_app_iff, in_seq, !live_in. unfold cell. destruct (lt_dec a (length h)) as [L|L].
    + rewrite nth_error_app1 by auto. split; [auto|]. intros [H|H]; [lia|exact H].
    + rewrite nth_error_app2 by lia. rewrite nth_error_map. split.
      * intros [x H]. left. destruct (nth_error l (a - length h)) eqn:E; [|discriminate]. apply nth_len in E. lia.
      * intros [H|[x H]].
        -- destruct (nth_error l (a - length h)) as [y|] eqn:E; [exists y; reflexivity|]. apply nth_error_None in E. lia.
        -- apply nth_len in H. lia.
Qed.

Lemma alive_live h : alive h = length (live h).
Proof.
  unfold alive, live. induction h as [|x h IH] using rev_ind; [reflexivity|].
  rewrite filter_app, !app_length. simpl. rewrite seq_app, filter_app, app_length. simpl.
  rewrite IH. f_equal.
  - f_equal. apply filter_ext_in. intros a Ha. apply in_seq in Ha. rewrite nth_error_app1 by lia. reflexivity.
  - rewrite nth_error_app2, Nat.sub_diag by lia. destruct x; reflexivity.
Qed.

End Heaps.

Lemma lset_same {X : Type} (l : list X) n a : nth_error l n = Some a -> lset l n a = l.
Proof. revert n. induction l as [|x l IH]; intros [|n] H; simpl in *; try discriminate; [congruence|f_equal; auto]. Qed.

Lemma same_on_sub {T : Type} (L L' : list nat) (h h' : heap T) : incl L' L -> same_on L h h' -> same_on L' h h'.
Proof. intros I H a Ha. apply H, I, Ha. Qed.
Lemma same_on_trans {T : Type} (L : list nat) (h1 h2 h3 : heap T) : same_on L h1 h2 -> same_on L h2 h3 -> same_on L h1 h3.
Proof. intros A B a Ha. rewrite B, A by exact Ha. reflexivity. Qed.

(** ** Monad *)

Lemma mb {S A B : Type} (m : M S A) (k : A -> M S B) s s' a : m s = RRet s' a -> mbind m k s = k a s'.
Proof. unfold mbind. intros ->. reflexivity. Qed.

Lemma mfor_ext {S B : Type} (l : list B) (f g : B -> M S unit) : (forall b s, In b l -> f b s = g b s) -> forall s, mfor l f s = mfor l g s.
Proof.
  induction l as [|b l IH]; intros H s; [reflexivity|]. simpl. unfold mbind. rewrite H by (simpl; auto).
  destruct (g b s); auto. apply IH. intros; apply H; simpl; auto.
Qed.
Lemma mfor_app {S B : Type} (l l' : list B) (f : B -> M S unit) s : mfor (l ++ l') f s = (mfor l f ;;; mfor l' f) s.
Proof. revert s. induction l as [|b l IH]; intros s; [reflexivity|]. simpl. unfold mbind in *. destruct (f b s); auto. Qed.
Lemma mfor_map {S B C : Type} (g : C -> B) (l : list C) (f : B -> M S unit) s : mfor (map g l) f s = mfor l (fun c => f (g c)) s.
Proof. revert s. induction l as [|b l IH]; intros s; [reflexivity|]. simpl. unfold mbind. destruct (f (g b) s); auto. Qed.
Lemma mfor_nested {S B C : Type} (l : list B) (g : list C) (f : B -> C -> M S unit) s :
  mfor l (fun i => mfor g (f i)) s = mfor (list_prod l g) (fun ij => f (fst ij) (snd ij)) s.
Proof.
  revert s. induction l as [|b l IH]; intros s; [reflexivity|]. simpl. rewrite mfor_app. unfold mbind. rewrite mfor_map. simpl.
  destruct (mfor g (f b) s); auto.
Qed.

(** ** Arrays of pointers *)

Section Footprints.
Context {V A : Type}.
Implicit Types m : pmem V A.
Local Open Scope Z_scope.

Lemma get_elem_ok h r l i p : cell h r l -> vget l i = Ok (Some p) -> get_elem h r i = Ok p.
Proof. intros H1 H2. unfold get_elem. rewrite (cell_read _ _ _ H1). simpl. rewrite H2. reflexivity. Qed.
Lemma set_elem_ok h r l k p : cell h r l -> (k < length l)%nat -> set_elem h r (Z.of_nat k) p = Ok (lset h r (Some (lset l k (Some p)))).
Proof.
  intros H1 H2. unfold set_elem. rewrite (cell_read _ _ _ H1). simpl. rewrite vset_ok by lia. simpl. rewrite Nat2Z.id. reflexivity.
Qed.

Lemma vget_map {X Y : Type} (f : X -> Y) l k x : nth_error l k = Some x -> vget (map f l) (Z.of_nat k) = Ok (f x).
Proof. intros H. apply vget_some. split; [lia|]. rewrite Nat2Z.id, nth_error_map, H. reflexivity. Qed.

Lemma f2_len {X Y : Type} (R : X -> Y -> Prop) l l' : Forall2 R l l' -> length l = length l'.
Proof. induction 1; simpl; auto. Qed.

Lemma lset_app_mid {X : Type} (l1 l2 : list X) x y : lset (l1 ++ x :: l2) (length l1) y = l1 ++ y :: l2.
Proof. induction l1 as [|z l1 IH]; simpl; [reflexivity|f_equal; exact IH]. Qed.

Lemma subscripts_seq n : subscripts n = map Z.of_nat (seq 0 n).
Proof. reflexivity. Qed.

(** Filling a row with pointers to new parts. *)
Lemma fill_from (P : pmem V A -> Prop) r :
  (forall p rr t o s l, P (mkPmem p rr t o) -> P (mkPmem (p ++ [Some s]) (lset rr r (Some l)) t o)) ->
  forall acts ss done m k, P m -> Forall2 (fun act s => forall m, P m -> act m = new_part s m) acts ss -> k = Z.of_nat (length done) ->
  cell (pm_row m) r (map Some done ++ repeat None (length acts)) ->
  let m' := mkPmem (pm_part m ++ map Some ss) (lset (pm_row m) r (Some (map Some (done ++ seq (length (pm_part m)) (length acts))))) (pm_tab m) (pm_obj m) in
  mfori k acts (fun i act => do* p := act in set_row r i p) m = RRet m' tt /\ P m'.
Proof.
  intros HP acts. induction acts as [|act acts IH]; intros ss done m k Hm HF -> Hc; inversion HF as [|? s ? ss' Ha HF']; subst.
  - simpl in *. rewrite !app_nil_r in *. rewrite lset_same by exact Hc. destruct m; split; [reflexivity|exact Hm].
  - cbn [mfori length repeat] in *.
    assert (E : (do* p := act in set_row r (Z.of_nat (length done)) p) m =
      RRet (mkPmem (pm_part m ++ [Some s]) (lset (pm_row m) r (Some (map Some (done ++ [length (pm_part m)]) ++ repeat None (length acts)))) (pm_tab m) (pm_obj m)) tt).
    { rewrite (mb act _ m _ _ (Ha m Hm)). unfold set_row, mbind, mget, mlift. cbn [pm_row pm_part pm_tab pm_obj].
      rewrite (set_elem_ok _ _ _ _ _ Hc) by (rewrite app_length, map_length; simpl; lia). unfold mput, h_new.
      do 4 f_equal. rewrite <- (map_length (@Some nat) done). rewrite lset_app_mid, map_app, <- app_assoc. reflexivity. }
    rewrite (mb _ _ _ _ _ E).
    destruct (IH ss' (done ++ [length (pm_part m)]) (mkPmem (pm_part m ++ [Some s]) (lset (pm_row m) r (Some (map Some (done ++ [length (pm_part m)]) ++ repeat None (length acts)))) (pm_tab m) (pm_obj m)) (Z.of_nat (length done) + 1))%Z as [E2 P2].
    + destruct m. apply HP. exact Hm.
    + exact HF'.
    + rewrite app_length. simpl. lia.
    + simpl. eapply cell_set. exact Hc.
    + cbn [pm_part pm_row pm_tab pm_obj] in *. rewrite E2. clear E2.
      assert (EQ : mkPmem ((pm_part m ++ [Some s]) ++ map Some ss') (lset (lset (pm_row m) r (Some (map Some (done ++ [length (pm_part m)]) ++ repeat None (length acts)))) r
         (Some (map Some ((done ++ [length (pm_part m)]) ++ seq (length (pm_part m ++ [Some s])) (length acts))))) (pm_tab m) (pm_obj m) =
         mkPmem (pm_part m ++ map Some (s :: ss')) (lset (pm_row m) r (Some (map Some (done ++ seq (length (pm_part m)) (S (length acts)))))) (pm_tab m) (pm_obj m)).
      { rewrite lset_twice. cbn [map seq]. rewrite <- !app_assoc. rewrite app_length. cbn [length app]. rewrite Nat.add_1_r. reflexivity. }
      rewrite EQ in *. split; [reflexivity|exact P2].
Qed.

Lemma fill_row_ok (P : pmem V A -> Prop) r acts ss m :
  (forall p rr t o s l, P (mkPmem p rr t o) -> P (mkPmem (p ++ [Some s]) (lset rr r (Some l)) t o)) ->
  P m -> Forall2 (fun act s => forall m, P m -> act m = new_part s m) acts ss ->
  cell (pm_row m) r (repeat None (length acts)) ->
  let m' := mkPmem (pm_part m ++ map Some ss) (lset (pm_row m) r (Some (map Some (seq (length (pm_part m)) (length ss))))) (pm_tab m) (pm_obj m) in
  fill_row r acts m = RRet m' tt /\ P m'.
Proof.
  intros HP Hm HF Hc. pose proof (f2_len _ _ _ HF) as HL. rewrite <- HL.
  exact (fill_from P r HP acts ss [] m 0%Z Hm HF eq_refl Hc).
Qed.

(** The addresses of consecutive rows of new parts. *)
Fixpoint segs {X : Type} (b : nat) (ss : list (list X)) : list (list nat) :=
  match ss with
  | [] => []
  | s :: ss' => seq b (length s) :: segs (b + length s) ss'
  end.
Lemma concat_segs {X : Type} (ss : list (list X)) b : concat (segs b ss) = seq b (length (concat ss)).
Proof. revert b. induction ss as [|s ss IH]; intros b; simpl; [reflexivity|]. rewrite IH, app_length, seq_app. reflexivity. Qed.

Lemma fill_tab_from (P : pmem V A -> Prop) t : forall rest done acts ss m k,
  (forall r, In r rest -> forall p rr tt' o s l, P (mkPmem p rr tt' o) -> P (mkPmem (p ++ [Some s]) (lset rr r (Some l)) tt' o)) ->
  P m -> Forall2 (Forall2 (fun act s => forall m, P m -> act m = new_part s m)) acts ss ->
  cell (pm_tab m) t (map Some (done ++ rest)) -> k = Z.of_nat (length done) -> NoDup rest ->
  Forall2 (fun r row => cell (pm_row m) r (repeat None (length row))) rest acts ->
  exists rows', let m' := mkPmem (pm_part m ++ map Some (concat ss)) rows' (pm_tab m) (pm_obj m) in
    mfori k acts (fun i row => do* r := get_tab t i in fill_row r row) m = RRet m' tt /\ P m' /\
    Forall2 (fun r cs => cell rows' r (map Some cs)) rest (segs (length (pm_part m)) ss) /\
    (forall a, ~ In a rest -> nth_error rows' a = nth_error (pm_row m) a).
Proof.
  intros rest. induction rest as [|r rest IH]; intros done acts ss m k HP Hm HF Ht -> ND HR; inversion HR as [|? row ? acts' Hr HR']; subst; inversion HF as [|? s ? ss' Ha HF']; subst.
  - exists (pm_row m). simpl. rewrite app_nil_r. destruct m; simpl. split; [reflexivity|]. split; [exact Hm|]. split; [constructor|auto].
  - cbn [mfori]. inversion ND as [|? ? NI ND']; subst.
    assert (E : get_tab t (Z.of_nat (length done)) m = RRet m r).
    { unfold get_tab, mbind, mget, mlift. erewrite get_elem_ok; [reflexivity|exact Ht|]. apply vget_map. rewrite nth_error_app2, Nat.sub_diag by lia. reflexivity. }
    destruct (fill_row_ok P r row s m) as [E1 P1]; [intros; apply HP; simpl; auto|exact Hm|exact Ha|exact Hr|].
    set (m1 := mkPmem _ _ _ _) in *.
    destruct (IH (done ++ [r]) acts' ss' m1 (Z.of_nat (length done) + 1))%Z as (rows' & E2 & P2 & F2 & O2).
    + intros; apply HP; simpl; auto.
    + exact P1.
    + exact HF'.
    + simpl. rewrite <- app_assoc. exact Ht.
    + rewrite app_length. simpl. lia.
    + exact ND'.
    + simpl. clear - HR' NI. induction HR' as [|r' row' rest acts' H H' IHF]; constructor.
      * unfold cell in *. rewrite nth_set_other; [exact H|]. intros <-. apply NI. simpl. auto.
      * apply IHF. intros X. apply NI. simpl. auto.
    + exists rows'. assert (EP : pm_part m1 ++ map Some (concat ss') = pm_part m ++ map Some (concat (s :: ss'))).
      { unfold m1. simpl. rewrite map_app, app_assoc. reflexivity. }
      assert (EL : length (pm_part m1) = (length (pm_part m) + length s)%nat) by (unfold m1; simpl; rewrite app_length, map_length; reflexivity).
      rewrite EP in *. rewrite EL in F2. unfold m1 in E2 at 2, P2. cbn [pm_tab pm_obj] in E2, P2.
      assert (EE : (do* r0 := get_tab t (Z.of_nat (length done)) in fill_row r0 row) m = RRet m1 tt) by (rewrite (mb _ _ _ _ _ E); exact E1).
      split; [rewrite (mb _ _ _ _ _ EE); exact E2|]. split; [exact P2|]. split.
      * simpl. constructor; [|exact F2]. unfold cell. rewrite O2 by exact NI. unfold m1. simpl. eapply cell_set. exact Hr.
      * intros a Na. rewrite O2 by (intros X; apply Na; simpl; auto). unfold m1. simpl. apply nth_set_other. intros <-. apply Na. simpl. auto.
Qed.

(** The rows of a new table. *)
Lemma new_rows_from t n : forall j done m, cell (pm_tab m) t (map Some done ++ repeat None j) ->
  mfor (map Z.of_nat (seq (length done) j)) (fun i => do* r := new_row n in set_tab t i r) m =
  RRet (mkPmem (pm_part m) (pm_row m ++ repeat (Some (repeat None n)) j) (lset (pm_tab m) t (Some (map Some (done ++ seq (length (pm_row m)) j)))) (pm_obj m)) tt.
Proof.
  intros j. induction j as [|j IH]; intros done m Hc.
  - simpl in *. rewrite !app_nil_r in *. rewrite lset_same by exact Hc. destruct m; reflexivity.
  - cbn [seq map mfor].
    assert (E : (do* r := new_row n in set_tab t (Z.of_nat (length done)) r) m =
      RRet (mkPmem (pm_part m) (pm_row m ++ [Some (repeat None n)]) (lset (pm_tab m) t (Some (map Some (done ++ [length (pm_row m)]) ++ repeat None j))) (pm_obj m)) tt).
    { unfold new_row, set_tab, mbind, mget, mlift. cbn [pm_row pm_part pm_tab pm_obj].
      rewrite (set_elem_ok _ _ _ _ _ Hc) by (rewrite app_length, map_length; simpl; lia). unfold mput, h_new.
      do 4 f_equal. rewrite <- (map_length (@Some nat) done). simpl repeat. rewrite lset_app_mid, map_app, <- app_assoc. reflexivity. }
    rewrite (mb _ _ _ _ _ E).
    replace (S (length done)) with (length (done ++ [length (pm_row m)])) by (rewrite app_length; simpl; lia).
    rewrite IH by (simpl; eapply cell_set; exact Hc).
    cbn [pm_part pm_row pm_tab pm_obj]. rewrite lset_twice. f_equal. f_equal.
    + rewrite <- app_assoc. reflexivity.
    + f_equal. f_equal. rewrite <- app_assoc, app_length. simpl. rewrite Nat.add_1_r. reflexivity.
Qed.

Lemma new_rows_ok t n m : cell (pm_tab m) t (repeat None n) ->
  new_rows t n m = RRet (mkPmem (pm_part m) (pm_row m ++ repeat (Some (repeat None n)) n) (lset (pm_tab m) t (Some (map Some (seq (length (pm_row m)) n)))) (pm_obj m)) tt.
Proof. exact (new_rows_from t n n [] m). Qed.

Lemma fill_tab_ok (P : pmem V A -> Prop) t rest acts ss m :
  (forall r, In r rest -> forall p rr tt' o s l, P (mkPmem p rr tt' o) -> P (mkPmem (p ++ [Some s]) (lset rr r (Some l)) tt' o)) ->
  P m -> Forall2 (Forall2 (fun act s => forall m, P m -> act m = new_part s m)) acts ss ->
  cell (pm_tab m) t (map Some rest) -> NoDup rest ->
  Forall2 (fun r row => cell (pm_row m) r (repeat None (length row))) rest acts ->
  exists rows', let m' := mkPmem (pm_part m ++ map Some (concat ss)) rows' (pm_tab m) (pm_obj m) in
    fill_tab t acts m = RRet m' tt /\ P m' /\
    Forall2 (fun r cs => cell rows' r (map Some cs)) rest (segs (length (pm_part m)) ss) /\
    (forall a, ~ In a rest -> nth_error rows' a = nth_error (pm_row m) a).
Proof. intros H1 H2 H3 H4 H5 H6. exact (fill_tab_from P t rest [] acts ss m 0%Z H1 H2 H3 H4 eq_refl H5 H6). Qed.

End Footprints.
