(** The library scanner's tables. *)
From Coq Require Import ZArith List Bool Ascii String Lia.
From Verif Require Import Model.Outcome Model.Stream Model.Lw Spec.Lw Proofs.OutcomeP.
Import ListNotations.
Local Open Scope Z_scope.

Lemma text_eqb_eq : forall a b, text_eqb a b = true <-> a = b.
Proof.
  induction a as [|x a IH]; intros [|y b]; cbn; try (split; congruence).
  rewrite andb_true_iff, IH, Ascii.eqb_eq. split; [intros [-> ->] | intros [= -> ->]]; auto.
Qed.

Lemma text_eq_dec : forall a b : text, {a = b} + {a <> b}.
Proof. apply list_eq_dec, ascii_dec. Qed.

Lemma find_text_none : forall l x, find_text l x = List.length l <-> ~ In x l.
Proof.
  induction l as [|y l IH]; intros x; cbn; [tauto|].
  destruct (text_eqb y x) eqn:E.
  - apply text_eqb_eq in E. subst. split; [discriminate | intros H; exfalso; auto].
  - assert (y <> x) by (intros ->; rewrite (proj2 (text_eqb_eq x x) eq_refl) in E; discriminate).
    split; intros H0.
    + injection H0 as H0. apply IH in H0. tauto.
    + f_equal. apply IH. tauto.
Qed.

Lemma find_text_in : forall l x, In x l -> nth_error l (find_text l x) = Some x.
Proof.
  induction l as [|y l IH]; intros x H; cbn; [contradiction|].
  destruct (text_eqb y x) eqn:E; cbn.
  - apply text_eqb_eq in E. now subst.
  - apply IH. destruct H as [->|H]; auto. rewrite (proj2 (text_eqb_eq x x) eq_refl) in E. discriminate.
Qed.

Lemma vget_of : forall (B : Type) (l : list B) k b, nth_error l k = Some b -> vget l (Z.of_nat k) = Ok b.
Proof.
  intros B l k b H. unfold vget. replace (0 <=? Z.of_nat k) with true by (symmetry; apply Z.leb_le; lia). now rewrite Nat2Z.id, H.
Qed.
Lemma vset_of : forall (B : Type) (l : list B) k b, (k < List.length l)%nat -> vset l (Z.of_nat k) b = Ok (lset l k b).
Proof.
  intros B l k b H. unfold vset. replace (0 <=? Z.of_nat k) with true by (symmetry; apply Z.leb_le; lia).
  replace (Z.of_nat k <? Z.of_nat (List.length l)) with true by (symmetry; apply Z.ltb_lt; lia). cbn. now rewrite Nat2Z.id.
Qed.

Lemma nth_error_at_end : forall (B : Type) (l : list B) b, nth_error (l ++ [b]) (List.length l) = Some b.
Proof. intros. rewrite nth_error_app2, Nat.sub_diag; auto. Qed.

Lemma nth_error_snoc : forall (B : Type) (l : list B) b k x, nth_error (l ++ [b]) k = Some x ->
  (nth_error l k = Some x) \/ (k = List.length l /\ x = b).
Proof.
  intros B l b k x H. destruct (Nat.lt_ge_cases k (List.length l)) as [L|L].
  - left. rewrite nth_error_app1 in H; auto.
  - right. assert (k = List.length l).
    { assert (nth_error (l ++ [b]) k <> None) by congruence. apply nth_error_Some in H0. rewrite app_length in H0. cbn in H0. lia. }
    subst. rewrite nth_error_at_end in H. split; congruence.
Qed.

Lemma tab_dec : forall a b : tab, {a = b} + {a <> b}.
Proof. decide equality. Qed.

Lemma entry_dec : forall a b : entry, {a = b} + {a <> b}.
Proof. repeat (apply text_eq_dec || apply tab_dec || decide equality). Qed.

Lemma set_same : forall t x c, co_tab t (co_set t x c) = x.
Proof. intros [] x c; reflexivity. Qed.
Lemma set_other : forall t t' x c, t <> t' -> co_tab t' (co_set t x c) = co_tab t' c.
Proof. intros [] [] x c H; try reflexivity; congruence. Qed.
Lemma set_in : forall t x c, co_in (co_set t x c) = co_in c.
Proof. intros [] x c; reflexivity. Qed.
Lemma set_out : forall t x c, co_out (co_set t x c) = co_out c.
Proof. intros [] x c; reflexivity. Qed.
Lemma set_file : forall t x c, co_file (co_set t x c) = co_file c.
Proof. intros [] x c; reflexivity. Qed.

Lemma NoDup_snoc : forall (B : Type) (l : list B) b, NoDup l -> ~ In b l -> NoDup (l ++ [b]).
Proof.
  intros B l b H. induction H as [|x l Hx H IH]; intros Hb; cbn.
  - constructor; auto. constructor.
  - constructor.
    + rewrite in_app_iff. cbn in *. intuition congruence.
    + apply IH. cbn in Hb. tauto.
Qed.

(** *** Types *)
Lemma add_intype_ok : forall c es it, holds_entries c es ->
  exists c' i, add_intype it c = RRet c' (Z.of_nat i) /\ holds_entries c' es /\ nth_error (co_in c') i = Some it /\
    co_out c' = co_out c /\ co_file c' = co_file c /\ (forall x, In x (co_in c') -> In x (co_in c) \/ x = it).
Proof.
  intros c es it H. unfold add_intype, mbind, mget, mput, mret.
  destruct (Nat.eqb_spec (find_text (co_in c) it) (List.length (co_in c))) as [E|E].
  - exists (mkColl (co_file c) (co_in c ++ [it]) (co_out c) (co_simple c ++ [map (fun _ => []) (co_out c)]) (co_func c ++ [map (fun _ => []) (co_out c)])
      (co_pwsimple c ++ [map (fun _ => []) (co_out c)]) (co_pwfunc c ++ [map (fun _ => []) (co_out c)]) (co_basis c ++ [map (fun _ => []) (co_out c)])), (List.length (co_in c)).
    rewrite E. apply find_text_none in E.
    assert (T : forall t, co_tab t (mkColl (co_file c) (co_in c ++ [it]) (co_out c) (co_simple c ++ [map (fun _ => []) (co_out c)]) (co_func c ++ [map (fun _ => []) (co_out c)])
      (co_pwsimple c ++ [map (fun _ => []) (co_out c)]) (co_pwfunc c ++ [map (fun _ => []) (co_out c)]) (co_basis c ++ [map (fun _ => []) (co_out c)])) =
      co_tab t c ++ [map (fun _ => []) (co_out c)]) by (intros []; reflexivity).
    split; [reflexivity|]. split; [constructor|].
    + apply NoDup_snoc; auto. apply H.
    + apply H.
    + intros t. rewrite T. cbn [co_in]. rewrite !app_length, (he_rows c es H t). reflexivity.
    + intros t row Hr. rewrite T in Hr. apply in_app_or in Hr. destruct Hr as [Hr|[<-|[]]]; cbn.
      * exact (he_cols c es H t row Hr).
      * apply map_length.
    + intros t i j row names it' ot Er En Ei Eo. rewrite T in Er. cbn in Ei, Eo.
      apply nth_error_snoc in Ei. destruct Ei as [Ei|[-> ->]].
      * assert (L : (i < List.length (co_tab t c))%nat) by (rewrite (he_rows c es H t); apply nth_error_Some; congruence).
        rewrite nth_error_app1 in Er by exact L. exact (he_cell c es H t i j row names it' ot Er En Ei Eo).
      * rewrite <- (he_rows c es H t), nth_error_at_end in Er. injection Er as <-.
        rewrite nth_error_map in En. rewrite Eo in En. injection En as <-. split; [constructor|].
        intros n. cbn. split; [contradiction|]. intros Hn. apply (he_types c es H) in Hn. tauto.
    + intros t it' ot n Hn. destruct (he_types c es H t it' ot n Hn). split; auto. apply in_or_app. now left.
    + cbn. split; [apply nth_error_at_end|]. split; [reflexivity|]. split; [reflexivity|]. intros x Hx. apply in_app_or in Hx. destruct Hx as [Hx|[<-|[]]]; auto.
  - exists c, (find_text (co_in c) it). split; [reflexivity|]. split; [exact H|]. split; auto.
    apply find_text_in. destruct (in_dec text_eq_dec it (co_in c)); auto. exfalso. apply E, find_text_none; auto.
Qed.

Lemma push_cells_ok : forall (t : table), push_cells (List.length t) t = Ok (map (fun row => row ++ [[]]) t).
Proof. induction t as [|row t IH]; cbn; auto. rewrite IH. reflexivity. Qed.

Lemma add_outtype_ok : forall c es ot, holds_entries c es ->
  exists c' j, add_outtype ot c = RRet c' (Z.of_nat j) /\ holds_entries c' es /\ nth_error (co_out c') j = Some ot /\
    co_in c' = co_in c /\ co_file c' = co_file c /\ (forall x, In x (co_out c') -> In x (co_out c) \/ x = ot).
Proof.
  intros c es ot H. unfold add_outtype, mbind, mget, mput, mret, mlift.
  destruct (Nat.eqb_spec (find_text (co_out c) ot) (List.length (co_out c))) as [E|E].
  - assert (L : forall t, push_cells (List.length (co_simple c)) (co_tab t c) = Ok (map (fun row => row ++ [[]]) (co_tab t c))).
    { intros t. pose proof (he_rows c es H t) as H1. pose proof (he_rows c es H TSimple) as H2. cbn in H2. rewrite H2, <- H1. apply push_cells_ok. }
    pose proof (L TSimple) as L1. pose proof (L TFunc) as L2. pose proof (L TPwSimple) as L3. pose proof (L TPwFunc) as L4. pose proof (L TBasis) as L5.
    cbn in L1, L2, L3, L4, L5. rewrite L1, L2, L3, L4, L5. clear L L1 L2 L3 L4 L5.
    rewrite E. apply find_text_none in E.
    set (g := fun row : list (list text) => row ++ [[]]).
    exists (mkColl (co_file c) (co_in c) (co_out c ++ [ot]) (map g (co_simple c)) (map g (co_func c)) (map g (co_pwsimple c)) (map g (co_pwfunc c)) (map g (co_basis c))),
      (List.length (co_out c)).
    assert (T : forall t, co_tab t (mkColl (co_file c) (co_in c) (co_out c ++ [ot]) (map g (co_simple c)) (map g (co_func c)) (map g (co_pwsimple c)) (map g (co_pwfunc c)) (map g (co_basis c))) =
      map g (co_tab t c)) by (intros []; reflexivity).
    split; [reflexivity|]. split; [constructor|].
    + apply H.
    + apply NoDup_snoc; auto. apply H.
    + intros t. rewrite T, map_length. apply (he_rows c es H t).
    + intros t row Hr. rewrite T in Hr. apply in_map_iff in Hr. destruct Hr as (r & <- & Hr). unfold g. cbn. rewrite !app_length. cbn.
      now rewrite (he_cols c es H t r Hr).
    + intros t i j row names it' ot' Er En Ei Eo. rewrite T, nth_error_map in Er. cbn in Ei, Eo.
      destruct (nth_error (co_tab t c) i) as [r|] eqn:Er0; [|discriminate]. injection Er as <-. unfold g in En.
      pose proof (he_cols c es H t r (nth_error_In _ _ Er0)) as Hl.
      apply nth_error_snoc in Eo. destruct Eo as [Eo|[-> ->]].
      * rewrite nth_error_app1 in En by (rewrite Hl; apply nth_error_Some; congruence).
        exact (he_cell c es H t i j r names it' ot' Er0 En Ei Eo).
      * rewrite <- Hl, nth_error_at_end in En. injection En as <-. split; [constructor|].
        intros n. cbn. split; [contradiction|]. intros Hn. apply (he_types c es H) in Hn. tauto.
    + intros t it' ot' n Hn. destruct (he_types c es H t it' ot' n Hn). split; auto. apply in_or_app. now left.
    + cbn. split; [apply nth_error_at_end|]. split; [reflexivity|]. split; [reflexivity|]. intros x Hx. apply in_app_or in Hx. destruct Hx as [Hx|[<-|[]]]; auto.
  - exists c, (find_text (co_out c) ot). split; [reflexivity|]. split; [exact H|]. split; auto.
    apply find_text_in. destruct (in_dec text_eq_dec ot (co_out c)); auto. exfalso. apply E, find_text_none; auto.
Qed.

(** *** Names *)
Lemma NoDup_nth_inj : forall (B : Type) (l : list B) i j x, NoDup l -> nth_error l i = Some x -> nth_error l j = Some x -> i = j.
Proof. intros B l i j x H Hi Hj. eapply NoDup_nth_error; eauto; [apply nth_error_Some; congruence | congruence]. Qed.

Lemma cell_exists : forall c es t i j it ot, holds_entries c es -> nth_error (co_in c) i = Some it -> nth_error (co_out c) j = Some ot ->
  exists row names, nth_error (co_tab t c) i = Some row /\ nth_error row j = Some names.
Proof.
  intros c es t i j it ot H Ei Eo.
  destruct (nth_error (co_tab t c) i) as [row|] eqn:Er.
  - exists row. destruct (nth_error row j) as [names|] eqn:En; [eauto|].
    apply nth_error_None in En. rewrite (he_cols c es H t row (nth_error_In _ _ Er)) in En.
    assert (nth_error (co_out c) j <> None) by congruence. apply nth_error_Some in H0. lia.
  - apply nth_error_None in Er. rewrite (he_rows c es H t) in Er.
    assert (nth_error (co_in c) i <> None) by congruence. apply nth_error_Some in H0. lia.
Qed.

Lemma file_name_ok : forall c es t i j it ot n, holds_entries c es -> nth_error (co_in c) i = Some it -> nth_error (co_out c) j = Some ot ->
  (In (t, it, ot, n) es -> file_name (Z.of_nat i) (Z.of_nat j) n t c = RExit) /\
  (~ In (t, it, ot, n) es -> exists c', file_name (Z.of_nat i) (Z.of_nat j) n t c = RRet c' tt /\ holds_entries c' (es ++ [(t, it, ot, n)]) /\
     co_in c' = co_in c /\ co_out c' = co_out c /\ co_file c' = co_file c).
Proof.
  intros c es t i j it ot n H Ei Eo. destruct (cell_exists c es t i j it ot H Ei Eo) as (row & names & Er & En).
  destruct (he_cell c es H t i j row names it ot Er En Ei Eo) as [Hnd Hin].
  unfold file_name, mbind, mget, mput, mlift. rewrite (vget_of _ _ _ _ Er), (vget_of _ _ _ _ En).
  split; intros Hn.
  - destruct (Nat.eqb_spec (find_text names n) (List.length names)) as [E|E]; auto.
    exfalso. apply find_text_none in E. apply E, Hin, Hn.
  - destruct (Nat.eqb_spec (find_text names n) (List.length names)) as [E|E].
    2:{ exfalso. apply E, find_text_none. intros G. apply Hn, Hin, G. }
    rewrite vset_of by (apply nth_error_Some; congruence). rewrite vset_of by (apply nth_error_Some; congruence).
    eexists. split; [reflexivity|].
    assert (C : forall t', co_tab t' (co_set t (lset (co_tab t c) i (lset row j (names ++ [n]))) c) =
      if tab_dec t t' then lset (co_tab t c) i (lset row j (names ++ [n])) else co_tab t' c).
    { intros t'. destruct (tab_dec t t') as [<-|Ht]; [apply set_same | now apply set_other]. }
    split; [constructor|].
    + rewrite set_in. apply H.
    + rewrite set_out. apply H.
    + intros t'. rewrite C, set_in. destruct (tab_dec t t') as [<-|Ht]; [rewrite length_lset|]; apply (he_rows c es H).
    + intros t' r Hr. rewrite C in Hr. rewrite set_out. destruct (tab_dec t t') as [<-|Ht]; [|exact (he_cols c es H t' r Hr)].
      apply In_nth_error in Hr. destruct Hr as [k Hk]. destruct (Nat.eq_dec k i) as [->|Hki].
      * rewrite nth_error_lset_same in Hk by (apply nth_error_Some; congruence). injection Hk as <-. rewrite length_lset.
        exact (he_cols c es H t row (nth_error_In _ _ Er)).
      * rewrite nth_error_lset_other in Hk by auto. exact (he_cols c es H t r (nth_error_In _ _ Hk)).
    + intros t' i' j' row' names' it' ot' Er' En' Ei' Eo'. rewrite set_in in Ei'. rewrite set_out in Eo'. rewrite C in Er'.
      assert (Same : forall r nm, nth_error (co_tab t' c) i' = Some r -> nth_error r j' = Some nm -> (t', it', ot') <> (t, it, ot) ->
        NoDup nm /\ forall n0, In n0 nm <-> In (t', it', ot', n0) (es ++ [(t, it, ot, n)])).
      { intros r nm Hr Hnm Hne. destruct (he_cell c es H t' i' j' r nm it' ot' Hr Hnm Ei' Eo') as [G1 G2]. split; auto.
        intros n0. rewrite G2, in_app_iff. cbn. split; auto. intros [G|[G|[]]]; auto. injection G as -> -> -> ->. congruence. }
      destruct (tab_dec t t') as [<-|Ht].
      2:{ eapply Same; eauto. congruence. }
      destruct (Nat.eq_dec i' i) as [->|Hi].
      * rewrite nth_error_lset_same in Er' by (apply nth_error_Some; congruence). injection Er' as <-.
        assert (it' = it) by congruence. subst it'.
        destruct (Nat.eq_dec j' j) as [->|Hj].
        -- rewrite nth_error_lset_same in En' by (apply nth_error_Some; congruence). injection En' as <-.
           assert (ot' = ot) by congruence. subst ot'. split.
           ++ apply NoDup_snoc; auto. intros G. apply Hn, Hin, G.
           ++ intros n0. rewrite !in_app_iff, Hin. cbn. split; intros [G|[G|[]]]; auto; right; left; congruence.
        -- rewrite nth_error_lset_other in En' by auto. eapply Same; eauto. intros [= G]. subst.
           apply Hj. exact (NoDup_nth_inj _ _ _ _ _ (he_out c es H) Eo' Eo).
      * rewrite nth_error_lset_other in Er' by auto. eapply Same; eauto. intros [= G _]. subst. apply Hi. exact (NoDup_nth_inj _ _ _ _ _ (he_in c es H) Ei' Ei).
    + intros t' it' ot' n0 G. rewrite set_in, set_out. apply in_app_or in G. destruct G as [G|[G|[]]].
      * exact (he_types c es H t' it' ot' n0 G).
      * injection G as <- <- <- <-. split; eapply nth_error_In; eauto.
    + rewrite set_in, set_out, set_file. auto.
Qed.

Lemma file_names_ok : forall tabs c es i j it ot n, holds_entries c es -> nth_error (co_in c) i = Some it -> nth_error (co_out c) j = Some ot ->
  NoDup tabs ->
  ((exists t, In t tabs /\ In (t, it, ot, n) es) /\ mfor tabs (file_name (Z.of_nat i) (Z.of_nat j) n) c = RExit) \/
  ((forall t, In t tabs -> ~ In (t, it, ot, n) es) /\ exists c', mfor tabs (file_name (Z.of_nat i) (Z.of_nat j) n) c = RRet c' tt /\
     holds_entries c' (es ++ map (fun t => (t, it, ot, n)) tabs) /\ co_file c' = co_file c /\ co_in c' = co_in c /\ co_out c' = co_out c).
Proof.
  induction tabs as [|t tabs IH]; intros c es i j it ot n H Ei Eo Hnd.
  - right. split; [intros t []|]. exists c. cbn. rewrite app_nil_r. auto.
  - cbn [mfor]. destruct (file_name_ok c es t i j it ot n H Ei Eo) as [F1 F2].
    destruct (in_dec entry_dec (t, it, ot, n) es) as [Hin|Hin].
    + left. split; [exists t; split; [now left|auto]|]. unfold mbind. rewrite (F1 Hin). reflexivity.
    + destruct (F2 Hin) as (c1 & E1 & H1 & I1 & O1 & Fi1). inversion Hnd as [|t0 l0 Ht Hnd']; subst.
      unfold mbind. rewrite E1.
      destruct (IH c1 (es ++ [(t, it, ot, n)]) i j it ot n H1) as [[(t' & Ht' & Hx) E]|[Hx (c' & E & H' & Fi & Ii & Oi)]]; try congruence.
      * left. split; [|exact E]. exists t'. split; [now right|]. apply in_app_or in Hx. destruct Hx as [Hx|[Hx|[]]]; auto. congruence.
      * right. split.
        -- intros t' [<-|Ht']; auto. intros G. apply (Hx t' Ht'). apply in_or_app. now left.
        -- exists c'. split; [exact E|]. cbn. split; [|repeat split; congruence]. rewrite <- app_assoc in H'. exact H'.
Qed.

(** *** Lines *)
Lemma scan_class_ok : forall line cls tabs c es, holds_entries c es -> NoDup tabs ->
  match find_class cls line with
  | None => scan_class line cls tabs c = RRet c false
  | Some (n, it, ot) =>
      ((exists t, In t tabs /\ In (t, it, ot, n) es) /\ scan_class line cls tabs c = RExit) \/
      ((forall t, In t tabs -> ~ In (t, it, ot, n) es) /\ exists c', scan_class line cls tabs c = RRet c' true /\
         holds_entries c' (es ++ map (fun t => (t, it, ot, n)) tabs) /\ co_file c' = co_file c /\
         (forall x, In x (co_in c') -> In x (co_in c) \/ x = it) /\ (forall x, In x (co_out c') -> In x (co_out c) \/ x = ot))
  end.
Proof.
  intros line cls tabs c es H Hnd. unfold scan_class. destruct (find_class cls line) as [[[n it] ot]|]; auto.
  destruct (add_intype_ok c es it H) as (c1 & i & E1 & H1 & I1 & O1 & F1 & U1).
  destruct (add_outtype_ok c1 es ot H1) as (c2 & j & E2 & H2 & O2 & I2 & F2 & U2).
  assert (Ei : nth_error (co_in c2) i = Some it) by congruence.
  unfold mbind. rewrite E1, E2.
  destruct (file_names_ok tabs c2 es i j it ot n H2 Ei O2 Hnd) as [[Hx E]|[Hx (c' & E & H' & F' & I' & O')]]; rewrite E.
  - left. auto.
  - right. split; auto. exists c'. split; [reflexivity|]. split; auto. split; [congruence|].
    rewrite I', O', I2. split; auto. intros x Hx'. apply U2 in Hx'. now rewrite O1 in Hx'.
Qed.

Lemma scan_kinds_ok : forall line ks c es, holds_entries c es -> (forall k, In k ks -> NoDup (snd k) /\ snd k <> []) ->
  ((exists e, In e (first_decl ks line) /\ In e es) /\ scan_kinds line ks c = RExit) \/
  ((forall e, In e (first_decl ks line) -> ~ In e es) /\ exists c' b, scan_kinds line ks c = RRet c' b /\ holds_entries c' (es ++ first_decl ks line) /\
     co_file c' = co_file c /\ (b = true <-> first_decl ks line <> []) /\ (types_used c es -> types_used c' (es ++ first_decl ks line))).
Proof.
  induction ks as [|[cls tabs] ks IH]; intros c es H Hk; cbn [scan_kinds first_decl].
  - right. split; [intros e []|]. exists c, false. rewrite app_nil_r. split; [reflexivity|]. split; [exact H|]. split; [reflexivity|]. split; [split; congruence | auto].
  - destruct (Hk _ (or_introl eq_refl)) as [Hnd Hne]. cbn in Hnd, Hne.
    pose proof (scan_class_ok line cls tabs c es H Hnd) as S. destruct (find_class cls line) as [[[n it] ot]|].
    + destruct S as [[(t & Ht & Hin) E]|[Hx (c' & E & H' & F & UI & UO)]]; unfold mbind; rewrite E.
      * left. split; auto. exists (t, it, ot, n). split; auto. apply in_map_iff. eauto.
      * right. split.
        -- intros e He. apply in_map_iff in He. destruct He as (t & <- & Ht). auto.
        -- exists c', true. split; [reflexivity|]. split; [exact H'|]. split; [exact F|]. split; [split; auto; intros _ G; apply map_eq_nil in G; auto|].
           destruct tabs as [|t0 tabs]; [congruence|]. intros [T1 T2]. split.
           ++ intros x Hx'. apply UI in Hx'. destruct Hx' as [Hx'| ->].
              ** destruct (T1 x Hx') as (t & o & m & G). exists t, o, m. apply in_or_app. now left.
              ** exists t0, ot, n. apply in_or_app. right. now left.
           ++ intros x Hx'. apply UO in Hx'. destruct Hx' as [Hx'| ->].
              ** destruct (T2 x Hx') as (t & o & m & G). exists t, o, m. apply in_or_app. now left.
              ** exists t0, it, n. apply in_or_app. right. now left.
    + unfold mbind. rewrite S. apply IH; auto. intros k Hin. apply Hk. now right.
Qed.

Lemma kinds_filing : kinds = filing.
Proof. reflexivity. Qed.

Lemma filing_ok : forall k, In k filing -> NoDup (snd k) /\ snd k <> [].
Proof.
  intros k [<-|[<-|[<-|[<-|[<-|[]]]]]]; cbn; (split; [repeat constructor; cbn; intuition discriminate | discriminate]).
Qed.

Lemma add_file_holds : forall f c es, holds_entries c es -> exists c', add_file f c = RRet c' tt /\ holds_entries c' es /\
  (NoDup (co_file c) -> NoDup (co_file c')) /\ (forall g, In g (co_file c') <-> In g (co_file c) \/ g = f) /\ co_in c' = co_in c /\ co_out c' = co_out c.
Proof.
  intros f c es H. unfold add_file, mmod. destruct (Nat.eqb_spec (find_text (co_file c) f) (List.length (co_file c))) as [E|E].
  - apply find_text_none in E. eexists. split; [reflexivity|]. split.
    + destruct H as [H1 H2 H3 H4 H5 H6]. constructor; auto.
    + cbn. split; [intros; now apply NoDup_snoc|]. split; [|auto]. intros g. rewrite in_app_iff. cbn. intuition congruence.
  - exists c. split; [reflexivity|]. split; auto. split; auto. split; [|auto]. intros g. split; auto. intros [G| ->]; auto.
    destruct (in_dec text_eq_dec f (co_file c)) as [G|G]; auto. exfalso. apply E, find_text_none. auto.
Qed.

(** A state together with the names of the files that declared something. *)
Definition files_are (c : coll) (fs : list text) : Prop := NoDup (co_file c) /\ forall g, In g (co_file c) <-> In g fs.

Lemma scan_line_ok : forall f line c es, holds_entries c es ->
  ((exists e, In e (entries line) /\ In e es) /\ scan_line f line c = RExit) \/
  ((forall e, In e (entries line) -> ~ In e es) /\ exists c', scan_line f line c = RRet c' tt /\ holds_entries c' (es ++ entries line) /\
     (NoDup (co_file c) -> NoDup (co_file c')) /\ (forall g, In g (co_file c') <-> In g (co_file c) \/ (g = f /\ entries line <> [])) /\ (types_used c es -> types_used c' (es ++ entries line))).
Proof.
  intros f line c es H. unfold scan_line. rewrite kinds_filing.
  destruct (scan_kinds_ok line filing c es H filing_ok) as [[Hx E]|[Hx (c1 & b & E & H1 & F1 & B1 & T1)]]; unfold mbind; rewrite E.
  - left. auto.
  - right. split; auto. destruct b.
    + destruct (add_file_holds f c1 _ H1) as (c2 & E2 & H2 & N2 & F2 & I2 & O2). exists c2. split; [exact E2|]. split; [exact H2|].
      rewrite F1 in N2. split; auto. split; [intros g; rewrite F2, F1; unfold entries; rewrite <- B1; tauto|].
      unfold types_used in *. rewrite I2, O2. exact T1.
    + exists c1. split; [reflexivity|]. split; [exact H1|]. rewrite F1. split; auto. split; [|exact T1]. intros g. unfold entries. rewrite <- B1. intuition discriminate.
Qed.

(** *** Files *)
Lemma NoDup_app_iff : forall (B : Type) (a b : list B), NoDup (a ++ b) <-> NoDup a /\ NoDup b /\ forall x, In x b -> ~ In x a.
Proof.
  intros B a b. induction a as [|x a IH]; cbn.
  - split; [intros H; repeat split; auto; constructor | tauto].
  - rewrite !NoDup_cons_iff, IH, in_app_iff. split.
    + intros (H1 & H2 & H3 & H4). repeat split; auto. intros y Hy [->|G]; [tauto | exact (H4 y Hy G)].
    + intros ((H1 & H2) & H3 & H4). split; [intros [G|G]; [tauto|]|].
      * apply (H4 x G). now left.
      * split; auto. split; auto. intros y Hy G. apply (H4 y Hy). now right.
Qed.

Lemma entries_nodup : forall line, NoDup (entries line).
Proof.
  intros line. unfold entries. generalize filing_ok. induction filing as [|[cls tabs] ks IH]; intros Hk; cbn; [constructor|].
  destruct (find_class cls line) as [[[n it] ot]|].
  - destruct (Hk _ (or_introl eq_refl)) as [Hnd _]. cbn in Hnd. clear - Hnd. induction Hnd as [|t l Ht Hnd IH]; cbn; constructor; auto.
    intros G. apply in_map_iff in G. destruct G as (t' & [= ->] & Hin). auto.
  - apply IH. intros k Hin. apply Hk. now right.
Qed.

(** A run over some lines: it ends the program exactly when an entry repeats. *)
Definition scanned (r : res coll unit) (c : coll) (es new : list entry) (P : text -> Prop) : Prop :=
  (~ NoDup (es ++ new) /\ r = RExit) \/
  (NoDup (es ++ new) /\ exists c', r = RRet c' tt /\ holds_entries c' (es ++ new) /\ (NoDup (co_file c) -> NoDup (co_file c')) /\
     (forall g, In g (co_file c') <-> In g (co_file c) \/ P g) /\ (types_used c es -> types_used c' (es ++ new))).

Lemma scanned_line : forall f line c es, holds_entries c es -> NoDup es -> scanned (scan_line f line c) c es (entries line) (fun g => g = f /\ entries line <> []).
Proof.
  intros f line c es H Hnd. destruct (scan_line_ok f line c es H) as [[(e & He & Hin) E]|[Hx (c' & E & H' & N & F & T)]].
  - left. split; auto. rewrite NoDup_app_iff. intros (_ & _ & G). exact (G e He Hin).
  - right. split; [rewrite NoDup_app_iff; repeat split; auto; apply entries_nodup|]. exists c'. auto.
Qed.

Lemma scanned_seq : forall (m k : M coll unit) c es a b P Q, scanned (m c) c es a P ->
  (forall c1, holds_entries c1 (es ++ a) -> NoDup (es ++ a) -> scanned (k c1) c1 (es ++ a) b Q) ->
  scanned ((m ;;; k) c) c es (a ++ b) (fun g => P g \/ Q g).
Proof.
  intros m k c es a b P Q [[Hn E]|[Hn (c1 & E & H1 & N1 & F1 & T1)]] Hk; unfold mbind; rewrite E.
  - left. split; auto. rewrite app_assoc, NoDup_app_iff. tauto.
  - unfold scanned. rewrite app_assoc. destruct (Hk c1 H1 Hn) as [[G ->]|[G (c2 & -> & H2 & N2 & F2 & T2)]]; [left | right]; auto.
    split; auto. exists c2. split; auto. split; auto. split; auto. split; auto. intros g. rewrite F2, F1. tauto.
Qed.

Lemma scanned_nothing : forall c es, holds_entries c es -> NoDup es -> scanned (RRet c tt) c es [] (fun _ => False).
Proof.
  intros c es H Hnd. right. rewrite app_nil_r. split; auto. exists c. split; [reflexivity|]. split; [exact H|]. split; [auto|]. split; [tauto | auto].
Qed.

Lemma scanned_weaken : forall r c es new P Q, (forall g, P g <-> Q g) -> scanned r c es new P -> scanned r c es new Q.
Proof.
  intros r c es new P Q HPQ [G|[G (c' & E & H & N & F & T)]]; [left | right]; auto. split; auto. exists c'. split; [exact E|]. split; [exact H|]. split; [exact N|].
  split; [|exact T]. intros g. rewrite F, HPQ. reflexivity.
Qed.

Lemma cut_lines : forall t acc, lines_from acc t = match cut_line t with
  | (l, Some r) => (rev acc ++ l) :: lines_from [] r
  | (l, None) => match rev acc ++ l with [] => [] | _ => [rev acc ++ l] end
  end.
Proof.
  induction t as [|x t IH]; intros acc; cbn [cut_line lines_from].
  - rewrite app_nil_r. destruct acc as [|a acc]; auto. destruct (rev (a :: acc)) eqn:E; auto. apply (f_equal (@rev ascii)) in E. rewrite rev_involutive in E. discriminate.
  - change nl with "010"%char. destruct (Ascii.eqb x "010"); [now rewrite app_nil_r|].
    rewrite IH. destruct (cut_line t) as [l [r|]]; cbn; rewrite <- !app_assoc; auto.
Qed.

Lemma cut_shorter : forall t l r, cut_line t = (l, Some r) -> (List.length r < List.length t)%nat.
Proof.
  induction t as [|x t IH]; intros l r H; cbn [cut_line] in H; [discriminate|]. destruct (Ascii.eqb x nl).
  - injection H as _ <-. cbn. lia.
  - destruct (cut_line t) as [l0 [r0|]] eqn:E; [|discriminate]. injection H as _ <-. specialize (IH _ _ eq_refl). cbn. lia.
Qed.

Lemma scanned_lines : forall f n t fuel line c es, (List.length t <= n)%nat -> (n + 1 < fuel)%nat -> holds_entries c es -> NoDup es ->
  scanned (scan_lines fuel f line (mkIstr t false false) c) c es (flat_map entries (lines_from [] t))
    (fun g => g = f /\ flat_map entries (lines_from [] t) <> []).
Proof.
  induction n as [|n IH]; intros t fuel line c es Hn Hf H Hnd.
  - destruct t; [|cbn in Hn; lia]. destruct fuel as [|fuel]; [lia|]. cbn. eapply scanned_weaken; [|apply scanned_nothing; auto]. intros g. cbn. tauto.
  - destruct fuel as [|fuel]; [lia|]. cbn [scan_lines]. unfold getline. cbn [is_good is_eof is_fail negb andb is_rest].
    rewrite (cut_lines t []). destruct (cut_line t) as [l [r|]] eqn:E; cbn [is_fail rev app].
    + pose proof (cut_shorter _ _ _ E). cbn [flat_map].
      eapply scanned_weaken; [|eapply scanned_seq; [apply scanned_line; auto|]].
      2:{ intros c1 H1 Hnd1. apply (IH r fuel l c1); auto; lia. }
      intros g. destruct (entries l) as [|e es0]; cbn [app].
      * tauto.
      * split; [intros [[-> _]|[-> _]]; split; auto; discriminate | intros [-> _]; left; split; auto; discriminate].
    + destruct l as [|x l].
      * cbn. eapply scanned_weaken; [|apply scanned_nothing; auto]. intros g. cbn. tauto.
      * cbn [flat_map]. rewrite app_nil_r. rewrite <- (app_nil_r (entries (x :: l))).
        eapply scanned_weaken; [|eapply scanned_seq; [apply scanned_line; auto|]].
        2:{ intros c1 H1 Hnd1. destruct fuel as [|fuel]; [lia|]. cbn. apply scanned_nothing; auto. }
        intros g. rewrite app_nil_r. cbn. tauto.
Qed.

Lemma scanned_file : forall f content fuel c es, (match content with Some t => List.length t + 1 < fuel | None => 0 < fuel end)%nat ->
  holds_entries c es -> NoDup es -> scanned (scan_file fuel f content c) c es (file_entries (f, content)) (fun g => g = f /\ file_entries (f, content) <> []).
Proof.
  intros f [t|] fuel c es Hf H Hnd; unfold scan_file, file_entries; cbn [is_open snd lines_of].
  - eapply scanned_lines; eauto.
  - destruct fuel; [lia|]. cbn. eapply scanned_weaken; [|apply scanned_nothing; auto]. intros g. cbn. tauto.
Qed.

Lemma scanned_collect : forall fs fuel c es, (forall f t, In (f, Some t) fs -> List.length t + 1 < fuel)%nat -> (0 < fuel)%nat ->
  holds_entries c es -> NoDup es -> scanned (collect fuel fs c) c es (all_entries fs) (fun g => exists fc, In fc fs /\ g = fst fc /\ file_entries fc <> []).
Proof.
  induction fs as [|[f content] fs IH]; intros fuel c es Hf H0 H Hnd; cbn.
  - eapply scanned_weaken; [|apply scanned_nothing; auto]. intros g. split; [contradiction|]. intros (fc & [] & _).
  - eapply scanned_weaken; [|eapply scanned_seq; [apply scanned_file; auto|]].
    3:{ intros c1 H1 Hnd1. apply IH; auto. intros f' t' Hin. apply (Hf f'). now right. }
    2:{ destruct content as [t|]; auto. apply (Hf f). now left. }
    intros g. cbn. split.
    + intros [[-> G]|(fc & G1 & G2)]; eauto.
    + intros (fc & [<-|G1] & G2); [left; exact G2 | eauto].
Qed.

Lemma empty_holds : holds_entries coll_empty [].
Proof.
  constructor; try (now constructor).
  - intros []; reflexivity.
  - intros [] row [].
  - intros t i j row names it ot E. destruct t, i; discriminate.
Qed.

Lemma collect_spec : forall fs fuel, (forall f t, In (f, Some t) fs -> List.length t + 1 < fuel)%nat -> (0 < fuel)%nat ->
  (~ NoDup (all_entries fs) /\ collect fuel fs coll_empty = RExit) \/
  (NoDup (all_entries fs) /\ exists c, collect fuel fs coll_empty = RRet c tt /\ holds_entries c (all_entries fs) /\ types_used c (all_entries fs) /\ NoDup (co_file c) /\
     forall g, In g (co_file c) <-> exists fc, In fc fs /\ g = fst fc /\ file_entries fc <> []).
Proof.
  intros fs fuel Hf H0. destruct (scanned_collect fs fuel coll_empty [] Hf H0 empty_holds (NoDup_nil _)) as [G|[G (c & E & H & N & F & T)]]; [left | right]; auto.
  split; auto. exists c. split; auto. split; auto. split; [apply T; split; contradiction|]. split; [apply N; constructor|]. intros g. rewrite F. cbn. tauto.
Qed.
