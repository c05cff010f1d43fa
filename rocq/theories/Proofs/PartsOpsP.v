(** Ownership of parts: destruction, the swaps of operator=, and calls on parts. *)
From Coq Require Import ZArith List Bool Lia Permutation.
From Verif Require Import Model.Outcome Model.PSimple Model.Wrapper Model.FuncObj Model.Parts.
From Verif Require Import Spec.Funcs Spec.Parts.
From Verif Require Import Proofs.OutcomeP Proofs.WrapperP Proofs.PartsP Proofs.PartsRepP.
Import ListNotations.

Section Ops.
Context {V A : Type}.
Implicit Types m : pmem V A.
Implicit Types v : fobj V A.

(** ** Destruction *)

Lemma grad_ptr_arr m f k p : cell (pm_row m) (f_g f) (map Some (f_gs f)) -> nth_error (f_gs f) k = Some p ->
  grad_ptr (obj_of f) (Z.of_nat k) m = RRet m p.
Proof.
  intros R H. unfold grad_ptr, get_row, mbind, mget, mlift. cbn [obj_of po_grad read_member]. erewrite get_elem_ok; [reflexivity|exact R|]. apply vget_map. exact H.
Qed.
Lemma row_ptr_arr m f k r : cell (pm_tab m) (f_t f) (map Some (f_rows f)) -> nth_error (f_rows f) k = Some r ->
  row_ptr (obj_of f) (Z.of_nat k) m = RRet m r.
Proof.
  intros R H. unfold row_ptr, get_tab, mbind, mget, mlift. cbn [obj_of po_hess read_member]. erewrite get_elem_ok; [reflexivity|exact R|]. apply vget_map. exact H.
Qed.
Lemma hess_ptr_arr m f k j cs p : cell (pm_tab m) (f_t f) (map Some (f_rows f)) ->
  Forall2 (fun r cs => cell (pm_row m) r (map Some cs)) (f_rows f) (f_cells f) ->
  nth_error (f_cells f) k = Some cs -> nth_error cs j = Some p -> hess_ptr (obj_of f) (Z.of_nat k) (Z.of_nat j) m = RRet m p.
Proof.
  intros Rt Rr H1 H2. destruct (f2_nth_r _ _ _ _ _ Rr H1) as (r & Hr & Cr). unfold hess_ptr. rewrite (mb _ _ _ _ _ (row_ptr_arr m f k r Rt Hr)).
  unfold get_row, mbind, mget, mlift. erewrite get_elem_ok; [reflexivity|exact Cr|]. apply vget_map. exact H2.
Qed.

Lemma del_parts {B : Type} (ptr : B -> M (pmem V A) nat) rows tabs obj l ads :
  Forall2 (fun b a => forall h, ptr b (mkPmem h rows tabs obj) = RRet (mkPmem h rows tabs obj) a) l ads ->
  forall h Q, Permutation (live h) (ads ++ Q) ->
  exists h', mfor l (fun b => do* p := ptr b in delete_part p) (mkPmem h rows tabs obj) = RRet (mkPmem h' rows tabs obj) tt /\
    Permutation (live h') Q /\ same_on Q h h'.
Proof.
  induction 1 as [|b a l ads Hb F IH]; intros h Q HP; simpl in *.
  - exists h. split; [reflexivity|]. split; [exact HP|]. intros a _. reflexivity.
  - destruct (del_ok h a (ads ++ Q) HP) as (E & P1 & S1). destruct (IH _ _ P1) as (h' & E' & P' & S').
    exists h'. split; [|split; [exact P'|]].
    + assert (EE : (do* p := ptr b in delete_part p) (mkPmem h rows tabs obj) = RRet (mkPmem (lset h a None) rows tabs obj) tt).
      { rewrite (mb _ _ _ _ _ (Hb h)). unfold delete_part, mbind, mget, mlift. simpl. rewrite E. reflexivity. }
      rewrite (mb _ _ _ _ _ EE). exact E'.
    + eapply same_on_trans; [|exact S']. eapply same_on_sub; [|exact S1]. intros x Hx. apply in_or_app. auto.
Qed.
Lemma del_rows {B : Type} (ptr : B -> M (pmem V A) nat) parts tabs obj l ads :
  Forall2 (fun b a => forall h, ptr b (mkPmem parts h tabs obj) = RRet (mkPmem parts h tabs obj) a) l ads ->
  forall h Q, Permutation (live h) (ads ++ Q) ->
  exists h', mfor l (fun b => do* p := ptr b in delete_row p) (mkPmem parts h tabs obj) = RRet (mkPmem parts h' tabs obj) tt /\
    Permutation (live h') Q /\ same_on Q h h'.
Proof.
  induction 1 as [|b a l ads Hb F IH]; intros h Q HP; simpl in *.
  - exists h. split; [reflexivity|]. split; [exact HP|]. intros a _. reflexivity.
  - destruct (del_ok h a (ads ++ Q) HP) as (E & P1 & S1). destruct (IH _ _ P1) as (h' & E' & P' & S').
    exists h'. split; [|split; [exact P'|]].
    + assert (EE : (do* p := ptr b in delete_row p) (mkPmem parts h tabs obj) = RRet (mkPmem parts (lset h a None) tabs obj) tt).
      { rewrite (mb _ _ _ _ _ (Hb h)). unfold delete_row, mbind, mget, mlift. simpl. rewrite E. reflexivity. }
      rewrite (mb _ _ _ _ _ EE). exact E'.
    + eapply same_on_trans; [|exact S']. eapply same_on_sub; [|exact S1]. intros x Hx. apply in_or_app. auto.
Qed.

Lemma f2_sub {Y : Type} (R : Z -> Y -> Prop) (l : list Y) :
  (forall k y, nth_error l k = Some y -> R (Z.of_nat k) y) -> Forall2 R (subscripts (length l)) l.
Proof. intros H. rewrite <- (map_id (subscripts (length l))). apply f2_subscripts. exact H. Qed.

Lemma f2_prod {Y : Type} (R : Z * Z -> Y -> Prop) (n : nat) (ll : list (list Y)) :
  Forall (fun l => length l = n) ll ->
  (forall k l j y, nth_error ll k = Some l -> nth_error l j = Some y -> R (Z.of_nat k, Z.of_nat j) y) ->
  Forall2 R (list_prod (subscripts (length ll)) (subscripts n)) (concat ll).
Proof.
  intros F. unfold subscripts at 1.
  assert (G : forall b, (forall k l j y, nth_error ll k = Some l -> nth_error l j = Some y -> R (Z.of_nat (b + k), Z.of_nat j) y) ->
    Forall2 R (list_prod (map Z.of_nat (seq b (length ll))) (subscripts n)) (concat ll)).
  { induction F as [|l ll Hl F IH]; intros b H; simpl; [constructor|]. apply Forall2_app.
    - rewrite <- Hl. apply f2_subscripts. intros j y Hj. specialize (H 0 l j y eq_refl Hj). rewrite Nat.add_0_r in H. exact H.
    - apply IH. intros k l' j y Hk Hj. specialize (H (S k) l' j y Hk Hj). rewrite Nat.add_succ_r in H. exact H. }
  exact (G 0).
Qed.

Lemma same_refl {T : Type} (L : list nat) (h : heap T) : same_on L h h.
Proof. intros a _. reflexivity. Qed.

Lemma destroy_ok (c : pclass V A) n m f v P R T : shape n (pc_parts c) -> rep m f v -> shape n v ->
  Permutation (live (pm_part m)) (parts_of f ++ P) -> Permutation (live (pm_row m)) (rows_of f ++ R) -> Permutation (live (pm_tab m)) (f_t f :: T) ->
  exists m', po_destroy c (obj_of f) m = RRet m' tt /\ pm_obj m' = pm_obj m /\
    (Permutation (live (pm_part m')) P /\ same_on P (pm_part m) (pm_part m')) /\
    (Permutation (live (pm_row m')) R /\ same_on R (pm_row m) (pm_row m')) /\
    (Permutation (live (pm_tab m')) T /\ same_on T (pm_tab m) (pm_tab m')).
Proof.
  intros SC Rp SV HP HR HT. destruct (shape_lens m f v n Rp SV) as (Lg & Lr & Lc & Fc). unfold po_destroy. rewrite (proj1 SC).
  destruct m as [part row tab obj]. cbn [pm_part pm_row pm_tab pm_obj] in *.
  destruct Rp as [_ Cg _ Ct Cr _]. cbn [pm_part pm_row pm_tab pm_obj] in *.
  unfold parts_of in HP. cbn [app] in HP. rewrite <- app_assoc in HP.
  (* the value *)
  destruct (del_ok _ _ _ HP) as (E1 & P1 & S1).
  assert (EE1 : (do* p := val_ptr (obj_of f) in delete_part p) (mkPmem part row tab obj) = RRet (mkPmem (lset part (f_val f) None) row tab obj) tt).
  { unfold delete_part, val_ptr, mbind, mget, mlift. simpl. rewrite E1. reflexivity. }
  rewrite (mb _ _ _ _ _ EE1). clear EE1 E1.
  (* the gradient *)
  destruct (del_parts (fun i => grad_ptr (obj_of f) i) row tab obj (subscripts n) (f_gs f)) with (h := lset part (f_val f) None) (Q := concat (f_cells f) ++ P)
    as (h2 & E2 & P2 & S2); [|exact P1|].
  { rewrite <- Lg. apply f2_sub. intros k p Hk h. apply grad_ptr_arr; [exact Cg|exact Hk]. }
  rewrite (mb _ _ _ _ _ E2). clear E2.
  (* its array *)
  unfold rows_of in HR. cbn [app] in HR. destruct (del_ok _ _ _ HR) as (E3 & P3 & S3).
  assert (EE3 : (do* g := mlift (read_member (po_grad (obj_of f))) in delete_row g) (mkPmem h2 row tab obj) = RRet (mkPmem h2 (lset row (f_g f) None) tab obj) tt).
  { unfold delete_row, mbind, mget, mlift. simpl. rewrite E3. reflexivity. }
  rewrite (mb _ _ _ _ _ EE3). clear EE3 E3. set (row3 := lset row (f_g f) None) in *.
  assert (Cr3 : Forall2 (fun r cs => cell row3 r (map Some cs)) (f_rows f) (f_cells f)).
  { eapply f2_imp; [exact Cr|]. intros r cs Hr C. eapply cell_same; [exact S3| |exact C]. apply in_or_app. auto. }
  (* the Hessian *)
  destruct (del_parts (fun ij => hess_ptr (obj_of f) (fst ij) (snd ij)) row3 tab obj (list_prod (subscripts n) (subscripts n)) (concat (f_cells f))) with (h := h2) (Q := P)
    as (h4 & E4 & P4 & S4); [|exact P2|].
  { rewrite <- Lc at 1. apply f2_prod; [exact Fc|]. intros k cs j p Hk Hj h. cbn [fst snd]. eapply hess_ptr_arr; [exact Ct|exact Cr3|exact Hk|exact Hj]. }
  assert (EE4 : mfor (subscripts n) (fun i => mfor (subscripts n) (fun j => do* p := hess_ptr (obj_of f) i j in delete_part p)) (mkPmem h2 row3 tab obj) =
    RRet (mkPmem h4 row3 tab obj) tt) by (rewrite mfor_nested; exact E4).
  rewrite (mb _ _ _ _ _ EE4). clear EE4 E4.
  (* its rows *)
  destruct (del_rows (fun i => row_ptr (obj_of f) i) h4 tab obj (subscripts n) (f_rows f)) with (h := row3) (Q := R) as (row5 & E5 & P5 & S5); [|exact P3|].
  { rewrite <- Lr. apply f2_sub. intros k r Hk h. apply row_ptr_arr; [exact Ct|exact Hk]. }
  rewrite (mb _ _ _ _ _ E5). clear E5.
  destruct (del_ok _ _ _ HT) as (E6 & P6 & S6).
  exists (mkPmem h4 row5 (lset tab (f_t f) None) obj). split; [unfold delete_tab, mbind, mget, mlift; simpl; rewrite E6; reflexivity|]. split; [reflexivity|].
  cbn [pm_part pm_row pm_tab]. split; [|split]; split; auto.
  - eapply same_on_trans; [|exact S4]. eapply same_on_trans; [|eapply same_on_sub; [|exact S2]; intros x Hx; apply in_or_app; auto].
    eapply same_on_sub; [|exact S1]. intros x Hx. apply in_or_app. right. apply in_or_app. auto.
  - eapply same_on_trans; [|exact S5]. eapply same_on_sub; [|exact S3]. intros x Hx. apply in_or_app. auto.
Qed.

(** ** Swapping *)

Lemma swap_elem_ok r s la lb k a b m : r <> s -> cell (pm_row m) r la -> cell (pm_row m) s lb -> nth_error la k = Some (Some a) -> nth_error lb k = Some (Some b) ->
  swap_elem r s (Z.of_nat k) m =
  RRet (mkPmem (pm_part m) (lset (lset (pm_row m) r (Some (lset la k (Some b)))) s (Some (lset lb k (Some a)))) (pm_tab m) (pm_obj m)) tt.
Proof.
  intros N Ca Cb Ha Hb. unfold swap_elem.
  assert (Ga : get_row r (Z.of_nat k) m = RRet m a).
  { unfold get_row, mbind, mget, mlift. erewrite get_elem_ok; [reflexivity|exact Ca|]. apply vget_some. split; [lia|]. rewrite Nat2Z.id. exact Ha. }
  assert (Gb : get_row s (Z.of_nat k) m = RRet m b).
  { unfold get_row, mbind, mget, mlift. erewrite get_elem_ok; [reflexivity|exact Cb|]. apply vget_some. split; [lia|]. rewrite Nat2Z.id. exact Hb. }
  rewrite (mb _ _ _ _ _ Ga), (mb _ _ _ _ _ Gb).
  assert (Sa : set_row r (Z.of_nat k) b m = RRet (mkPmem (pm_part m) (lset (pm_row m) r (Some (lset la k (Some b)))) (pm_tab m) (pm_obj m)) tt).
  { unfold set_row, mbind, mget, mlift. rewrite (set_elem_ok _ _ _ _ _ Ca) by exact (nth_len _ _ _ _ Ha). reflexivity. }
  rewrite (mb _ _ _ _ _ Sa). unfold set_row, mbind, mget, mlift. cbn [pm_row].
  rewrite (set_elem_ok _ s lb); [reflexivity| |exact (nth_len _ _ _ _ Hb)]. unfold cell. rewrite nth_set_other by exact N. exact Cb.
Qed.

Lemma swap_from (body : Z -> M (pmem V A) unit) tab r s : r <> s -> (forall j m, pm_tab m = tab -> body j m = swap_elem r s j m) ->
  forall a2 a1 b1 b2 m, length b2 = length a2 -> length b1 = length a1 -> pm_tab m = tab ->
  cell (pm_row m) r (map Some (b1 ++ a2)) -> cell (pm_row m) s (map Some (a1 ++ b2)) ->
  exists rows', mfor (map Z.of_nat (seq (length a1) (length a2))) body m = RRet (mkPmem (pm_part m) rows' (pm_tab m) (pm_obj m)) tt /\
    cell rows' r (map Some (b1 ++ b2)) /\ cell rows' s (map Some (a1 ++ a2)) /\ (forall x, x <> r -> x <> s -> nth_error rows' x = nth_error (pm_row m) x).
Proof.
  intros N HB a2. induction a2 as [|a a2 IH]; intros a1 b1 b2 m L2 L1 ET Cr Cs; destruct b2 as [|b b2]; try discriminate L2; simpl in L2.
  - exists (pm_row m). destruct m. simpl. split; [reflexivity|]. split; [exact Cr|]. split; [exact Cs|auto].
  - cbn [length seq map mfor]. injection L2 as L2.
    assert (E : body (Z.of_nat (length a1)) m = RRet (mkPmem (pm_part m) (lset (lset (pm_row m) r (Some (map Some ((b1 ++ [b]) ++ a2)))) s (Some (map Some ((a1 ++ [a]) ++ b2)))) (pm_tab m) (pm_obj m)) tt).
    { rewrite HB by exact ET. rewrite (swap_elem_ok r s _ _ (length a1) a b m N Cr Cs).
      - do 2 f_equal. f_equal; [f_equal|]; f_equal.
        + rewrite map_app. cbn [map]. rewrite <- L1. replace (length b1) with (length (map (@Some nat) b1)) by apply map_length. rewrite lset_app_mid.
          rewrite <- app_assoc, map_app. reflexivity.
        + rewrite map_app. cbn [map]. replace (length a1) with (length (map (@Some nat) a1)) by apply map_length. rewrite lset_app_mid.
          rewrite <- app_assoc, map_app. reflexivity.
      - rewrite nth_error_map, nth_error_app2, L1, Nat.sub_diag by lia. reflexivity.
      - rewrite nth_error_map, nth_error_app2, Nat.sub_diag by lia. reflexivity. }
    rewrite (mb _ _ _ _ _ E). set (m1 := mkPmem _ _ _ _).
    assert (C1 : cell (pm_row m1) r (map Some ((b1 ++ [b]) ++ a2))).
    { unfold m1, cell. cbn [pm_row]. rewrite nth_set_other by congruence. eapply cell_set. exact Cr. }
    assert (C2 : cell (pm_row m1) s (map Some ((a1 ++ [a]) ++ b2))).
    { unfold m1. cbn [pm_row]. eapply cell_set. unfold cell. rewrite nth_set_other by exact N. exact Cs. }
    destruct (IH (a1 ++ [a]) (b1 ++ [b]) b2 m1 L2) as (rows' & E' & R1 & R2 & O); auto.
    { rewrite !app_length. simpl. lia. }
    exists rows'. rewrite app_length in E'. simpl length in E'. rewrite Nat.add_1_r in E'. split; [exact E'|].
    rewrite <- !app_assoc in R1, R2. split; [exact R1|]. split; [exact R2|]. intros x X1 X2. rewrite O by assumption. unfold m1. cbn [pm_row].
    rewrite !nth_set_other by auto. reflexivity.
Qed.

Lemma swap_row_ok (body : Z -> M (pmem V A) unit) n r s a b m : r <> s -> (forall j m', pm_tab m' = pm_tab m -> body j m' = swap_elem r s j m') ->
  length a = n -> length b = n -> cell (pm_row m) r (map Some a) -> cell (pm_row m) s (map Some b) ->
  exists rows', mfor (subscripts n) body m = RRet (mkPmem (pm_part m) rows' (pm_tab m) (pm_obj m)) tt /\
    cell rows' r (map Some b) /\ cell rows' s (map Some a) /\ (forall x, x <> r -> x <> s -> nth_error rows' x = nth_error (pm_row m) x).
Proof. intros N HB <- Lb Ca Cb. exact (swap_from body (pm_tab m) r s N HB a [] [] b m Lb eq_refl eq_refl Ca Cb). Qed.

Lemma swap_rows_from (body : Z -> Z -> M (pmem V A) unit) tab n : forall rs ss ca cb k m,
  (forall i r s, nth_error rs i = Some r -> nth_error ss i = Some s -> forall j m', pm_tab m' = tab -> body (Z.of_nat (k + i)) j m' = swap_elem r s j m') ->
  length ss = length rs -> pm_tab m = tab -> NoDup (rs ++ ss) ->
  Forall (fun l => length l = n) ca -> Forall (fun l => length l = n) cb ->
  Forall2 (fun r cs => cell (pm_row m) r (map Some cs)) rs ca -> Forall2 (fun r cs => cell (pm_row m) r (map Some cs)) ss cb ->
  exists rows', mfor (map Z.of_nat (seq k (length rs))) (fun i => mfor (subscripts n) (body i)) m = RRet (mkPmem (pm_part m) rows' (pm_tab m) (pm_obj m)) tt /\
    Forall2 (fun r cs => cell rows' r (map Some cs)) rs cb /\ Forall2 (fun r cs => cell rows' r (map Some cs)) ss ca /\
    (forall x, ~ In x rs -> ~ In x ss -> nth_error rows' x = nth_error (pm_row m) x).
Proof.
  intros rs. induction rs as [|r rs IH]; intros [|s ss] ca cb k m HB L ET ND Fa Fb Ca Cb; try discriminate L.
  - inversion Ca; inversion Cb; subst. exists (pm_row m). destruct m. simpl. repeat split; auto.
  - inversion Ca as [|? a ? ca' Ha Ca']; inversion Cb as [|? b ? cb' Hb Cb']; subst. inversion Fa; inversion Fb; subst. simpl in L. injection L as L.
    simpl in ND. inversion ND as [|? ? Nr ND1]; subst. assert (Nrs : r <> s) by (intros ->; apply Nr; apply in_or_app; simpl; auto).
    assert (ND2 : NoDup (rs ++ ss)) by (apply NoDup_remove_1 with (a := s); exact ND1).
    assert (Ns : ~ In s (rs ++ ss)) by (apply NoDup_remove_2; exact ND1).
    assert (Nr' : ~ In r (rs ++ ss)) by (intros X; apply Nr; apply in_app_or in X as [X|X]; apply in_or_app; simpl; auto).
    destruct (swap_row_ok (body (Z.of_nat k)) (length a) r s a b m Nrs) as (rows1 & E1 & C1 & C2 & O1); auto.
    { intros j m' Hm'. specialize (HB 0 r s eq_refl eq_refl j m'). rewrite Nat.add_0_r in HB. apply HB. exact Hm'. }
    cbn [length seq map mfor]. rewrite (mb _ _ _ _ _ E1). set (m1 := mkPmem _ _ _ _).
    destruct (IH ss ca' cb' (S k) m1) as (rows' & E' & R1 & R2 & O); auto.
    { intros i r' s' Hr Hs j m' Hm'. specialize (HB (S i) r' s' Hr Hs j m' Hm'). rewrite Nat.add_succ_r in HB. exact HB. }
    { eapply f2_imp; [exact Ca'|]. intros x cs Hx C. unfold m1, cell. cbn [pm_row]. rewrite O1; [exact C| |]; intros ->; [apply Nr'|apply Ns]; apply in_or_app; auto. }
    { eapply f2_imp; [exact Cb'|]. intros x cs Hx C. unfold m1, cell. cbn [pm_row]. rewrite O1; [exact C| |]; intros ->; [apply Nr'|apply Ns]; apply in_or_app; auto. }
    exists rows'. split; [exact E'|]. split; [|split].
    + constructor; [|exact R1]. unfold cell. rewrite O; [exact C1| |]; intros X; apply Nr'; apply in_or_app; auto.
    + constructor; [|exact R2]. unfold cell. rewrite O; [exact C2| |]; intros X; apply Ns; apply in_or_app; auto.
    + intros x X1 X2. simpl in X1, X2. rewrite O by tauto. unfold m1. cbn [pm_row]. apply O1; intros ->; tauto.
Qed.

Definition foot_swap (f g : foot) : foot := mkFoot (f_val g) (f_g f) (f_gs g) (f_t f) (f_rows f) (f_cells g).

Lemma swap_ok (c : pclass V A) n m f g v w : shape n (pc_parts c) -> rep m f v -> shape n v -> rep m g w -> shape n w -> NoDup (rows_of f ++ rows_of g) ->
  exists m', po_swap c (obj_of f) (obj_of g) m = RRet m' (obj_of (foot_swap f g), obj_of (foot_swap g f)) /\
    rep m' (foot_swap f g) w /\ rep m' (foot_swap g f) v /\ pm_part m' = pm_part m /\ pm_tab m' = pm_tab m /\ pm_obj m' = pm_obj m /\
    (forall x, ~ In x (rows_of f) -> ~ In x (rows_of g) -> nth_error (pm_row m') x = nth_error (pm_row m) x).
Proof.
  intros SC Rf Sv Rg Sw ND. destruct (shape_lens m f v n Rf Sv) as (Lg & Lr & Lc & Fc). destruct (shape_lens m g w n Rg Sw) as (Lg' & Lr' & Lc' & Fc').
  unfold po_swap. rewrite (proj1 SC). rewrite (mb _ _ _ _ _ (val_ptr_ok m f)), (mb _ _ _ _ _ (val_ptr_ok m g)).
  unfold rows_of in ND. cbn [app] in ND. apply NoDup_cons_iff in ND as [N1 ND1].
  assert (N2 : ~ In (f_g g) (f_rows f ++ f_rows g)) by (apply NoDup_remove_2; exact ND1).
  assert (ND2 : NoDup (f_rows f ++ f_rows g)) by (apply NoDup_remove_1 with (a := f_g g); exact ND1).
  assert (N1' : ~ In (f_g f) (f_rows f ++ f_rows g)) by (intros X; apply N1; apply in_app_or in X as [X|X]; apply in_or_app; simpl; auto).
  assert (NG : f_g f <> f_g g) by (intros E; apply N1; rewrite E; apply in_or_app; simpl; auto).
  destruct (swap_row_ok (fun i => do* a := mlift (read_member (po_grad (obj_of f))) in do* b := mlift (read_member (po_grad (obj_of g))) in swap_elem a b i)
     n (f_g f) (f_g g) (f_gs f) (f_gs g) m NG) as (rows1 & E1 & C1 & C2 & O1); auto; try congruence.
  { exact (r_g _ _ _ Rf). }
  { exact (r_g _ _ _ Rg). }
  rewrite (mb _ _ _ _ _ E1). clear E1. set (m1 := mkPmem _ _ _ _).
  destruct (swap_rows_from (fun i j => do* r := row_ptr (obj_of f) i in do* r' := row_ptr (obj_of g) i in swap_elem r r' j) (pm_tab m) n
     (f_rows f) (f_rows g) (f_cells f) (f_cells g) 0 m1) as (rows2 & E2 & D1 & D2 & O2); auto; try congruence.
  { intros i r s Hr Hs j m' Hm'. simpl. assert (Tf : cell (pm_tab m') (f_t f) (map Some (f_rows f))) by (rewrite Hm'; exact (r_t _ _ _ Rf)).
    assert (Tg : cell (pm_tab m') (f_t g) (map Some (f_rows g))) by (rewrite Hm'; exact (r_t _ _ _ Rg)).
    rewrite (mb _ _ _ _ _ (row_ptr_arr m' f i r Tf Hr)), (mb _ _ _ _ _ (row_ptr_arr m' g i s Tg Hs)). reflexivity. }
  { eapply f2_imp; [exact (r_rows _ _ _ Rf)|]. intros x cs Hx C. unfold m1, cell. cbn [pm_row]. rewrite O1; [exact C| |]; intros ->; [apply N1'|apply N2]; apply in_or_app; auto. }
  { eapply f2_imp; [exact (r_rows _ _ _ Rg)|]. intros x cs Hx C. unfold m1, cell. cbn [pm_row]. rewrite O1; [exact C| |]; intros ->; [apply N1'|apply N2]; apply in_or_app; auto. }
  rewrite Lr in E2. fold (subscripts n) in E2. rewrite (mb _ _ _ _ _ E2). clear E2. set (m2 := mkPmem _ _ _ _). exists m2. split; [reflexivity|].
  destruct Rf as [Vf Gf Gsf Tf Rwf Cf]. destruct Rg as [Vg Gg Gsg Tg Rwg Cg].
  assert (Q1 : cell rows2 (f_g f) (map Some (f_gs g))) by (unfold cell; rewrite O2; [exact C1| |]; intros X; apply N1'; apply in_or_app; auto).
  assert (Q2 : cell rows2 (f_g g) (map Some (f_gs f))) by (unfold cell; rewrite O2; [exact C2| |]; intros X; apply N2; apply in_or_app; auto).
  split; [constructor; simpl; assumption|]. split; [constructor; simpl; assumption|]. split; [reflexivity|]. split; [reflexivity|]. split; [reflexivity|].
  intros x X1 X2. unfold rows_of in X1, X2. simpl in X1, X2. unfold m2. cbn [pm_row]. rewrite O2 by tauto. unfold m1. cbn [pm_row]. apply O1; intros ->; tauto.
Qed.

(** ** Calls on parts *)

(** The address of the part that computes [q]. *)
Definition addr (f : foot) (q : quantity) : outcome nat :=
  match q with
  | QVal => Ok (f_val f)
  | QGrad i => vget (f_gs f) i
  | QHess i j => let* cs := vget (f_cells f) i in vget cs j
  end.
Definition ptr_of (o : pobj) (q : quantity) : M (pmem V A) nat :=
  match q with
  | QVal => val_ptr o
  | QGrad i => grad_ptr o i
  | QHess i j => hess_ptr o i j
  end.
(** The value with another part for [q]. *)
Definition put_part v (q : quantity) (s : simple V A) : fobj V A :=
  match q with
  | QVal => mkFobj s (fo_grad v) (fo_hess v)
  | QGrad i => mkFobj (fo_val v) (lset (fo_grad v) (Z.to_nat i) s) (fo_hess v)
  | QHess i j =>
      match nth_error (fo_hess v) (Z.to_nat i) with
      | Some row => mkFobj (fo_val v) (fo_grad v) (lset (fo_hess v) (Z.to_nat i) (lset row (Z.to_nat j) s))
      | None => v
      end
  end.

Lemma vget_f2 {X Y : Type} (R : X -> Y -> Prop) l l' i : Forall2 R l l' ->
  (exists x y, vget l i = Ok x /\ vget l' i = Ok y /\ R x y /\ (0 <= i)%Z /\ nth_error l (Z.to_nat i) = Some x /\ nth_error l' (Z.to_nat i) = Some y) \/
  (vget l i = UB UBOutOfBounds /\ vget l' i = UB UBOutOfBounds).
Proof.
  intros F. unfold vget. destruct (0 <=? i)%Z eqn:E; [|auto]. destruct (nth_error l (Z.to_nat i)) as [x|] eqn:N.
  - left. destruct (f2_nth _ _ _ _ _ F N) as (y & Hy & HR). exists x, y. rewrite Hy. repeat split; auto. lia.
  - right. assert (nth_error l' (Z.to_nat i) = None) as ->; [|auto]. apply nth_error_None. rewrite <- (f2_len _ _ _ F). apply nth_error_None. exact N.
Qed.

(** The pointer exists exactly when the part does, and points to it. *)
Lemma ptr_ok m f v q : rep m f v ->
  (exists p s, ptr_of (obj_of f) q m = RRet m p /\ addr f q = Ok p /\ part_of v q = Ok s /\ cell (pm_part m) p s /\ In p (parts_of f)) \/
  (ptr_of (obj_of f) q m = RUB UBOutOfBounds /\ part_of v q = UB UBOutOfBounds).
Proof.
  intros R. destruct q as [|i|i j]; simpl.
  - left. exists (f_val f), (fo_val v). repeat split; auto. exact (r_val _ _ _ R).
  - destruct (vget_f2 _ _ _ i (r_gs _ _ _ R)) as [(p & s & H1 & H2 & C & Hi & N1 & N2)|[H1 H2]].
    + left. exists p, s. rewrite <- (Z2Nat.id i Hi). rewrite (grad_ptr_ok m f v _ p R N1). rewrite Z2Nat.id by exact Hi. repeat split; auto.
      right. apply in_or_app. left. exact (nth_error_In _ _ N1).
    + right. split; [|exact H2]. unfold grad_ptr, get_row, mbind, mget, mlift. cbn [obj_of po_grad read_member]. unfold get_elem.
      rewrite (cell_read _ _ _ (r_g _ _ _ R)). simpl. assert (vget (map Some (f_gs f)) i = UB UBOutOfBounds) as ->; [|reflexivity].
      unfold vget in *. destruct (0 <=? i)%Z; [|reflexivity]. rewrite nth_error_map. destruct (nth_error (f_gs f) (Z.to_nat i)); [discriminate|reflexivity].
  - destruct (vget_f2 _ _ _ i (r_cells _ _ _ R)) as [(cs & ss & H1 & H2 & C & Hi & N1 & N2)|[H1 H2]].
    + rewrite H1, H2. cbn [obind]. destruct (f2_nth_r _ _ _ _ _ (r_rows _ _ _ R) N1) as (r & Nr & Cr).
      assert (ER : row_ptr (obj_of f) i m = RRet m r) by (rewrite <- (Z2Nat.id i Hi); exact (row_ptr_ok m f v _ r R Nr)).
      destruct (vget_f2 _ _ _ j C) as [(p & s & J1 & J2 & D & Hj & M1 & M2)|[J1 J2]].
      * left. exists p, s. split; [|repeat split; auto].
        -- rewrite <- (Z2Nat.id i Hi), <- (Z2Nat.id j Hj). exact (hess_ptr_ok m f v _ _ cs p R N1 M1).
        -- right. apply in_or_app. right. apply in_concat. exists cs. split; [exact (nth_error_In _ _ N1)|exact (nth_error_In _ _ M1)].
      * right. split; [|exact J2]. unfold hess_ptr. rewrite (mb _ _ _ _ _ ER). unfold get_row, mbind, mget, mlift, get_elem.
        rewrite (cell_read _ _ _ Cr). simpl. assert (vget (map Some cs) j = UB UBOutOfBounds) as ->; [|reflexivity].
        unfold vget in *. destruct (0 <=? j)%Z; [|reflexivity]. rewrite nth_error_map. destruct (nth_error cs (Z.to_nat j)); [discriminate|reflexivity].
    + right. rewrite H2. split; [|reflexivity]. unfold hess_ptr, row_ptr, get_tab, mbind, mget, mlift. cbn [obj_of po_hess read_member]. unfold get_elem.
      rewrite (cell_read _ _ _ (r_t _ _ _ R)). simpl. assert (vget (map Some (f_rows f)) i = UB UBOutOfBounds) as ->; [|reflexivity].
      unfold vget in *. destruct (0 <=? i)%Z; [|reflexivity]. rewrite nth_error_map.
      assert (nth_error (f_rows f) (Z.to_nat i) = None) as ->; [|reflexivity]. apply nth_error_None. rewrite (f2_len _ _ _ (r_rows _ _ _ R)). apply nth_error_None.
      destruct (nth_error (f_cells f) (Z.to_nat i)); [discriminate|reflexivity].
Qed.

Lemma f2_set {X Y : Type} (R R' : X -> Y -> Prop) (l : list X) (l' : list Y) k x y : Forall2 R l l' -> nth_error l k = Some x -> R' x y ->
  (forall i a b, i <> k -> nth_error l i = Some a -> R a b -> R' a b) -> Forall2 R' l (lset l' k y).
Proof.
  intros F. revert k. induction F as [|a b l l' H F IH]; intros [|k] N HR HO; simpl in *; try discriminate.
  - injection N as ->. constructor; [exact HR|]. eapply f2_imp; [exact F|]. intros a' b' Ha Hb. apply In_nth_error in Ha as (i & Hi). apply (HO (S i)); auto.
  - constructor; [apply (HO 0); auto|]. apply IH; auto. intros i a' b' Ni. apply (HO (S i)). congruence.
Qed.

Lemma nodup_app {X : Type} (l l' : list X) : NoDup (l ++ l') -> NoDup l /\ NoDup l' /\ forall x, In x l -> ~ In x l'.
Proof.
  induction l as [|a l IH]; simpl; intros N; [split; [constructor|split; auto]|]. inversion N as [|? ? H1 H2]; subst. destruct (IH H2) as (A1 & A2 & A3).
  rewrite in_app_iff in H1. split; [constructor; tauto|]. split; [exact A2|]. intros x [<-|Hx]; [tauto|auto].
Qed.
Lemma nodup_concat {X : Type} (ll : list (list X)) : NoDup (concat ll) ->
  forall i j l l' x, nth_error ll i = Some l -> nth_error ll j = Some l' -> In x l -> In x l' -> i = j.
Proof.
  induction ll as [|l0 ll IH]; intros N [|i] [|j] l l' x Hi Hj I I'; simpl in *; try discriminate; auto; apply nodup_app in N as (N1 & N2 & N3).
  - injection Hi as ->. exfalso. apply (N3 x I). apply in_concat. exists l'. split; [exact (nth_error_In _ _ Hj)|exact I'].
  - injection Hj as ->. exfalso. apply (N3 x I'). apply in_concat. exists l. split; [exact (nth_error_In _ _ Hi)|exact I].
  - f_equal. eapply IH; eauto.
Qed.
Lemma nodup_in_concat {X : Type} (ll : list (list X)) : NoDup (concat ll) -> forall i l, nth_error ll i = Some l -> NoDup l.
Proof.
  induction ll as [|l0 ll IH]; intros N [|i] l Hi; simpl in *; try discriminate; apply nodup_app in N as (N1 & N2 & N3); [injection Hi as <-; exact N1|eauto].
Qed.

(** Writing the part of [q]. *)
Lemma put_ok m f v q p s s' : rep m f v -> NoDup (parts_of f) -> addr f q = Ok p -> part_of v q = Ok s -> cell (pm_part m) p s ->
  rep (mkPmem (lset (pm_part m) p (Some s')) (pm_row m) (pm_tab m) (pm_obj m)) f (put_part v q s').
Proof.
  intros [Cv Cg Cgs Ct Cr Cc] ND HA HS CP. unfold parts_of in ND. inversion ND as [|? ? Nv ND1]; subst. apply nodup_app in ND1 as (NG & NC & NGC).
  assert (OTHER : forall a x, a <> p -> cell (pm_part m) a x -> cell (lset (pm_part m) p (Some s')) a x).
  { intros a x Na C. unfold cell. rewrite nth_set_other by congruence. exact C. }
  assert (HERE : cell (lset (pm_part m) p (Some s')) p s') by (eapply cell_set; exact CP).
  destruct q as [|i|i j]; simpl in HA, HS |- *.
  - injection HA as <-. constructor; simpl; auto.
    + eapply f2_imp; [exact Cgs|]. intros a x Ha C. apply OTHER; [|exact C]. intros ->. apply Nv. apply in_or_app. auto.
    + eapply f2_imp; [exact Cc|]. intros cs ss Hc C. eapply f2_imp; [exact C|]. intros a x Ha C'. apply OTHER; [|exact C']. intros ->. apply Nv.
      apply in_or_app. right. apply in_concat. eauto.
  - apply vget_some in HA as (Hi & HA). assert (IP : In p (f_gs f)) by exact (nth_error_In _ _ HA). constructor; simpl; auto.
    + apply OTHER; [|exact Cv]. intros E. apply Nv. rewrite E. apply in_or_app. auto.
    + eapply f2_set; [exact Cgs|exact HA|exact HERE|]. intros k a b Nk Ha C. apply OTHER; [|exact C]. intros ->.
      apply Nk. eapply NoDup_nth_error; [exact NG|exact (nth_len _ _ _ _ Ha)|]. rewrite Ha, HA. reflexivity.
    + eapply f2_imp; [exact Cc|]. intros cs ss Hc C. eapply f2_imp; [exact C|]. intros a x Ha C'. apply OTHER; [|exact C']. intros ->. apply (NGC p IP).
      apply in_concat. eauto.
  - destruct (vget (f_cells f) i) as [cs| | | |] eqn:E1; try discriminate HA. destruct (vget (fo_hess v) i) as [row| | | |] eqn:E2; try discriminate HS.
    cbn [obind] in HA, HS. apply vget_some in HA as (Hj & HA). apply vget_some in E1 as (Hi & E1). apply vget_some in E2 as (_ & E2). rewrite E2.
    assert (IP : In p cs) by exact (nth_error_In _ _ HA). assert (IC : In p (concat (f_cells f))) by (apply in_concat; exists cs; split; [exact (nth_error_In _ _ E1)|exact IP]).
    constructor; simpl; auto.
    + apply OTHER; [|exact Cv]. intros E. apply Nv. rewrite E. apply in_or_app. auto.
    + eapply f2_imp; [exact Cgs|]. intros a x Ha C. apply OTHER; [|exact C]. intros ->. exact (NGC p Ha IC).
    + eapply f2_set; [exact Cc|exact E1| |].
      * destruct (f2_nth _ _ _ _ _ Cc E1) as (row' & E3 & C3). assert (row' = row) by congruence. subst row'.
        eapply f2_set; [exact C3|exact HA|exact HERE|]. intros k a b Nk Ha C. apply OTHER; [|exact C]. intros ->.
        apply Nk. eapply NoDup_nth_error; [eapply nodup_in_concat; [exact NC|exact E1]|exact (nth_len _ _ _ _ Ha)|]. rewrite Ha, HA. reflexivity.
      * intros k a b Nk Ha C. eapply f2_imp; [exact C|]. intros y x Hy C'. apply OTHER; [|exact C']. intros ->. apply Nk.
        eapply nodup_concat; [exact NC|exact Ha|exact E1|exact Hy|exact IP].
Qed.

Lemma put_shape n v q s s' : shape n v -> part_of v q = Ok s -> shape n (put_part v q s').
Proof.
  intros (Hg & Hh & Hr) HS. destruct q as [|i|i j]; simpl in *.
  - split; [|split]; assumption.
  - split; [simpl; rewrite length_lset; exact Hg|split; assumption].
  - destruct (nth_error (fo_hess v) (Z.to_nat i)) as [row|] eqn:E; [|split; [|split]; assumption]. split; [exact Hg|]. simpl. rewrite length_lset. split; [exact Hh|].
    apply Forall_forall. intros x Hx. apply In_nth_error in Hx as (k & Hk). rewrite Forall_forall in Hr. destruct (Nat.eq_dec (Z.to_nat i) k) as [<-|N].
    + rewrite nth_error_lset_same in Hk by exact (nth_len _ _ _ _ E). injection Hk as <-. rewrite length_lset. apply Hr. exact (nth_error_In _ _ E).
    + rewrite nth_error_lset_other in Hk by congruence. apply Hr. exact (nth_error_In _ _ Hk).
Qed.

(** The methods of FuncObj.v in these terms. *)
Definition on_part {B : Type} (q : quantity) (g : M (simple V A) B) : M (fobj V A) B :=
  fun v => match part_of v q with
           | Ok s =>
               match g s with
               | RRet s' b => RRet (put_part v q s') b
               | RThrow s' e => RThrow (put_part v q s') e
               | RExit => RExit
               | RUB r => RUB r
               | RNoFuel => RNoFuel
               end
           | Throw e => RThrow v e
           | Exit => RExit
           | UB r => RUB r
           | NoFuel => RNoFuel
           end.

Lemma call_on_part v var : fo_call var v = on_part QVal (sp_call var) v.
Proof. reflexivity. Qed.
Lemma call_grad_on_part v var i : fo_call_grad var i v = on_part (QGrad i) (sp_call var) v.
Proof.
  unfold fo_call_grad, on_grad, on_elem, on_part. simpl. destruct (vget (fo_grad v) i) as [s| | | |] eqn:E; try reflexivity.
  - destruct (sp_call var s); reflexivity.
  - unfold vget in E. destruct (0 <=? i)%Z; [destruct (nth_error _ _)|]; discriminate.
Qed.
Lemma call_hess_on_part v var i j : fo_call_hess var i j v = on_part (QHess i j) (sp_call var) v.
Proof.
  unfold fo_call_hess, on_hess, on_elem, on_part. simpl. destruct (vget (fo_hess v) i) as [row| | | |] eqn:E; try reflexivity.
  - cbn [obind]. assert (E' := E). apply vget_some in E' as (_ & E'). rewrite E'. destruct (vget row j) as [s| | | |] eqn:EJ; try reflexivity.
    + destruct (sp_call var s); reflexivity.
    + unfold vget in EJ. destruct (0 <=? j)%Z; [destruct (nth_error row (Z.to_nat j))|]; discriminate EJ.
  - unfold vget in E. destruct (0 <=? i)%Z; [destruct (nth_error _ _)|]; discriminate.
Qed.

End Ops.
