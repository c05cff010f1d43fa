(** The generated library: declarations, definitions and what checking out yields. *)
From Coq Require Import ZArith List Bool Ascii String Lia.
From Verif Require Import Model.Outcome Model.Stream Model.Lw Spec.Lw Proofs.OutcomeP Proofs.LwP.
Import ListNotations.
Local Open Scope Z_scope.

Lemma for_list_ok : forall (X B : Type) (f : nat -> X -> outcome (list B)) (g : X -> list B) l k,
  (forall i x, nth_error l i = Some x -> f (k + i)%nat x = Ok (g x)) -> for_list f k l = Ok (flat_map g l).
Proof.
  induction l as [|x l IH]; intros k H; cbn; auto.
  pose proof (H 0%nat x eq_refl) as H0. rewrite Nat.add_0_r in H0. rewrite H0. cbn.
  rewrite (IH (Datatypes.S k)); auto. intros i y E. pose proof (H (Datatypes.S i) y E) as H1. now rewrite Nat.add_succ_r in H1.
Qed.

Lemma for_types_ok : forall (B : Type) c (f : nat -> nat -> text -> text -> outcome (list B)) g,
  (forall i j it ot, nth_error (co_in c) i = Some it -> nth_error (co_out c) j = Some ot -> f i j it ot = Ok (g it ot)) ->
  for_types c f = Ok (flat_map (fun it => flat_map (fun ot => g it ot) (co_out c)) (co_in c)).
Proof.
  intros B c f g H. unfold for_types. apply for_list_ok. intros i it Ei. apply for_list_ok. intros j ot Ej. cbn. auto.
Qed.

(** The names in the cell of two types. *)
Definition names_at (t : tab) (c : coll) (it ot : text) : list text :=
  match cell t c (find_text (co_in c) it) (find_text (co_out c) ot) with Ok l => l | _ => [] end.

Lemma find_text_nth : forall l i x, NoDup l -> nth_error l i = Some x -> find_text l x = i.
Proof. intros l i x H E. eapply NoDup_nth_inj; eauto. apply find_text_in. eapply nth_error_In; eauto. Qed.

Lemma cell_at : forall c es t i j it ot, holds_entries c es -> nth_error (co_in c) i = Some it -> nth_error (co_out c) j = Some ot ->
  cell t c i j = Ok (names_at t c it ot) /\ forall n, In n (names_at t c it ot) <-> In (t, it, ot, n) es.
Proof.
  intros c es t i j it ot H Ei Eo. unfold names_at.
  rewrite (find_text_nth _ _ _ (he_in c es H) Ei), (find_text_nth _ _ _ (he_out c es H) Eo).
  destruct (cell_exists c es t i j it ot H Ei Eo) as (row & names & Er & En).
  assert (C : cell t c i j = Ok names) by (unfold cell; rewrite (vget_of _ _ _ _ Er); cbn; now rewrite (vget_of _ _ _ _ En)).
  rewrite C. split; auto. apply (he_cell c es H t i j row names it ot Er En Ei Eo).
Qed.

Definition block_insts (var : list text) (basis : bool) (it : text) : list (text * option text) :=
  if basis then [(it, None)] else instances var it.

Definition is_basis (t : tab) : bool := match t with TBasis => true | _ => false end.

Definition header_pure (var : list text) (c : coll) (k : outkind) (t : tab) : list sig :=
  flat_map (fun it => flat_map (fun ot => if Nat.ltb 0 (List.length (names_at t c it ot)) then map (fun v => mkSig k (fst v) ot) (block_insts var (is_basis t) it) else [])
    (co_out c)) (co_in c).

Lemma header_block_ok : forall var c es k t, holds_entries c es -> header_block var c k t = Ok (header_pure var c k t).
Proof.
  intros var c es k t H. unfold header_block. apply for_types_ok. intros i j it ot Ei Eo.
  destruct (cell_at c es t i j it ot H Ei Eo) as [-> _]. cbn [obind]. destruct (Nat.ltb 0 (List.length (names_at t c it ot))); auto.
  destruct t; reflexivity.
Qed.

Definition source_pure (var : list text) (c : coll) (k : outkind) (guards listed : list tab) (basis : bool) : list checkout :=
  flat_map (fun it => flat_map (fun ot =>
    if Nat.ltb 0 (List.length (flat_map (fun t => names_at t c it ot) guards)) then
      map (fun v => mkCheckout (mkSig k (fst v) ot) (map (fun n => (n, mkInst n (snd v))) (flat_map (fun t => names_at t c it ot) listed))) (block_insts var basis it)
    else []) (co_out c)) (co_in c).

Lemma source_block_ok : forall var c es k guards listed basis, holds_entries c es ->
  source_block var c k guards listed basis = Ok (source_pure var c k guards listed basis).
Proof.
  intros var c es k guards listed basis H. unfold source_block. apply for_types_ok. intros i j it ot Ei Eo.
  assert (L : forall l, for_list (fun _ t => cell t c i j) 0 l = Ok (flat_map (fun t => names_at t c it ot) l)).
  { intros l. apply for_list_ok. intros i0 t _. now destruct (cell_at c es t i j it ot H Ei Eo) as [-> _]. }
  rewrite !L. cbn [obind]. destruct (Nat.ltb 0 (List.length (flat_map (fun t => names_at t c it ot) guards))); auto.
  unfold block_insts. destruct basis; reflexivity.
Qed.

(** Piecewise classes are filed as functions too. *)
Definition base_of (t : tab) : tab := match t with TPwSimple => TSimple | TPwFunc => TFunc | _ => t end.

Lemma filing_base : forall line t it ot n, In (t, it, ot, n) (entries line) -> In (base_of t, it, ot, n) (entries line).
Proof.
  intros line t it ot n. unfold entries, filing. cbn [first_decl].
  repeat match goal with |- context [find_class ?a ?b] => destruct (find_class a b) as [[[? ?] ?]|] end; cbn;
    intros H; repeat match goal with H : _ \/ _ |- _ => destruct H as [H|H] | H : _ = (_, _, _, _) |- _ => injection H as <- <- <- <- | H : False |- _ => destruct H end;
    cbn; auto.
Qed.

Lemma all_base : forall fs t it ot n, In (t, it, ot, n) (all_entries fs) -> In (base_of t, it, ot, n) (all_entries fs).
Proof.
  intros fs t it ot n H. unfold all_entries, file_entries in *. apply in_flat_map in H. destruct H as (f & Hf & H). apply in_flat_map in H. destruct H as (l & Hl & H).
  apply in_flat_map. exists f. split; auto. apply in_flat_map. exists l. split; auto. now apply filing_base.
Qed.

Definition has_base (es : list entry) : Prop := forall t it ot n, In (t, it, ot, n) es -> In (base_of t, it, ot, n) es.

Lemma flat_map_ext_in : forall (A B : Type) (f g : A -> list B) l, (forall x, In x l -> f x = g x) -> flat_map f l = flat_map g l.
Proof. induction l as [|x l IH]; intros H; cbn; auto. rewrite (H x), IH; auto; [intros; apply H; now right | now left]. Qed.

Lemma map_flat_map : forall (A B C : Type) (f : A -> list B) (g : B -> C) l, map g (flat_map f l) = flat_map (fun x => map g (f x)) l.
Proof. induction l as [|x l IH]; cbn; auto. now rewrite map_app, IH. Qed.

Lemma block_sigs : forall var c es k t guards listed basis, holds_entries c es -> has_base es -> basis = is_basis t ->
  (guards = [t] \/ exists p, guards = [t; p] /\ base_of p = t) ->
  map ck_sig (source_pure var c k guards listed basis) = header_pure var c k t.
Proof.
  intros var c es k t guards listed basis H Hb -> Hg. unfold source_pure, header_pure. rewrite map_flat_map. apply flat_map_ext_in. intros it Hi.
  rewrite map_flat_map. apply flat_map_ext_in. intros ot Ho.
  assert (G : Nat.ltb 0 (List.length (flat_map (fun t0 => names_at t0 c it ot) guards)) = Nat.ltb 0 (List.length (names_at t c it ot))).
  { destruct Hg as [-> |(p & -> & Hp)]; cbn [flat_map]; rewrite ?app_nil_r; auto.
    apply In_nth_error in Hi. destruct Hi as [i Ei]. apply In_nth_error in Ho. destruct Ho as [j Ej].
    destruct (cell_at c es t i j it ot H Ei Ej) as [_ Ct]. destruct (cell_at c es p i j it ot H Ei Ej) as [_ Cp].
    destruct (names_at t c it ot) as [|a l]; auto. destruct (names_at p c it ot) as [|b l]; auto.
    exfalso. pose proof (Hb _ _ _ _ (proj1 (Cp b) (or_introl eq_refl))) as Hx. rewrite Hp in Hx. apply Ct in Hx. destruct Hx. }
  rewrite G. destruct (Nat.ltb 0 (List.length (names_at t c it ot))); auto. rewrite map_map. reflexivity.
Qed.

Definition header_all var c := header_pure var c KSimpleFunction TSimple ++ header_pure var c KFunction TFunc ++ header_pure var c KBasisSet TBasis ++
  header_pure var c KSimpleBase TSimple ++ header_pure var c KFuncBase TFunc ++ header_pure var c KPwSimpleBase TPwSimple ++
  header_pure var c KPwFuncBase TPwFunc ++ header_pure var c KBasisSetBase TBasis.
Definition source_all var c := source_pure var c KSimpleFunction [TSimple] [TSimple; TPwSimple] false ++ source_pure var c KFunction [TFunc] [TFunc] false ++
  source_pure var c KBasisSet [TBasis] [TBasis] true ++ source_pure var c KSimpleBase [TSimple; TPwSimple] [TSimple] false ++
  source_pure var c KFuncBase [TFunc; TPwFunc] [TFunc] false ++ source_pure var c KPwSimpleBase [TPwSimple] [TPwSimple] false ++
  source_pure var c KPwFuncBase [TPwFunc] [TPwFunc] false ++ source_pure var c KBasisSetBase [TBasis] [TBasis] true.

Lemma write_header_ok : forall var c es, holds_entries c es -> write_header var c = Ok (header_all var c).
Proof. intros var c es H. unfold write_header. rewrite !(header_block_ok _ _ es _ _ H). reflexivity. Qed.
Lemma write_source_ok : forall var c es, holds_entries c es -> write_source var c = Ok (source_all var c).
Proof. intros var c es H. unfold write_source. rewrite !(source_block_ok _ _ es _ _ _ _ H). reflexivity. Qed.

Lemma library_sigs : forall var c es, holds_entries c es -> has_base es -> map ck_sig (source_all var c) = header_all var c.
Proof.
  intros var c es H Hb. unfold source_all, header_all. rewrite !map_app.
  repeat (apply f_equal2; [eapply block_sigs; eauto; try (right; eexists; split; reflexivity)|]); eapply block_sigs; eauto.
Qed.

(** *** Checking out *)
Lemma run_cases_spec : forall o ns n, (In n ns -> run_cases (map (fun m => (m, mkInst m o)) ns) n = Ok (mkInst n o)) /\
  (~ In n ns -> run_cases (map (fun m => (m, mkInst m o)) ns) n = Throw RuntimeError).
Proof.
  intros o ns n. induction ns as [|m ns [IH1 IH2]]; cbn; [split; [contradiction|auto]|].
  destruct (text_eqb n m) eqn:E.
  - apply text_eqb_eq in E. subst. split; auto. intros G. exfalso. auto.
  - assert (n <> m) by (intros ->; rewrite (proj2 (text_eqb_eq m m) eq_refl) in E; discriminate).
    split; intros G; [apply IH1 | apply IH2]; intuition congruence.
Qed.

Lemma in_source : forall var c k guards listed basis f, In f (source_pure var c k guards listed basis) <->
  exists it ot v, In it (co_in c) /\ In ot (co_out c) /\ In v (block_insts var basis it) /\ flat_map (fun t => names_at t c it ot) guards <> [] /\
    f = mkCheckout (mkSig k (fst v) ot) (map (fun n => (n, mkInst n (snd v))) (flat_map (fun t => names_at t c it ot) listed)).
Proof.
  intros. unfold source_pure. rewrite in_flat_map. split.
  - intros (it & Hi & H). rewrite in_flat_map in H. destruct H as (ot & Ho & H).
    destruct (flat_map (fun t => names_at t c it ot) guards) eqn:E; cbn in H; [contradiction|].
    apply in_map_iff in H. destruct H as (v & <- & Hv). exists it, ot, v. repeat split; auto. rewrite E. discriminate.
  - intros (it & ot & v & Hi & Ho & Hv & Hg & ->). exists it. split; auto. rewrite in_flat_map. exists ot. split; auto.
    destruct (flat_map (fun t => names_at t c it ot) guards) eqn:E; [congruence|]. cbn. apply in_map_iff. eauto.
Qed.

Lemma in_instances : forall var basis it v, In v (block_insts var basis it) <->
  (v = (it, None) /\ (basis = true \/ it <> txt "VarContainer")) \/ (basis = false /\ it = txt "VarContainer" /\ In (fst v) var /\ v = (fst v, Some (fst v))).
Proof.
  intros var basis it v. unfold block_insts, instances. generalize (txt "VarContainer"). intros vc. destruct basis; cbn.
  - split; [intros [<-|[]]; auto|]. intros [[-> _]|[G _]]; auto; discriminate.
  - destruct (text_eqb it vc) eqn:E.
    + apply text_eqb_eq in E. rewrite in_map_iff. split.
      * intros (x & <- & Hx). right. auto.
      * intros [[_ [G|G]]|(_ & _ & G & ->)]; try congruence. exists (fst v). auto.
    + assert (it <> vc) by (intros ->; rewrite (proj2 (text_eqb_eq _ _) eq_refl) in E; discriminate).
      cbn. split; [intros [<-|[]]; auto|]. intros [[-> _]|(_ & G & _)]; auto; contradiction.
Qed.

(** What one block can hand out. *)
Lemma block_runs : forall var c es k guards listed basis f n, holds_entries c es -> has_base es -> basis = is_basis (table_of k) ->
  In (table_of k) listed -> (forall t, In t listed -> base_of t = table_of k \/ t = table_of k) ->
  In f (source_pure var c k guards listed basis) ->
  sg_kind (ck_sig f) = k /\ ((exists x, run_checkout f n = Ok x /\ offered var es (ck_sig f) n x) \/ run_checkout f n = Throw RuntimeError).
Proof.
  intros var c es k guards listed basis f n H Hb Hbas Hl Hall Hf. apply in_source in Hf. destruct Hf as (it & ot & v & Hi & Ho & Hv & _ & ->).
  split; [reflexivity|]. unfold run_checkout. cbn [ck_cases ck_sig]. set (ns := flat_map (fun t => names_at t c it ot) listed).
  destruct (run_cases_spec (snd v) ns n) as [R1 R2]. destruct (in_dec text_eq_dec n ns) as [Hn|Hn]; [left | right; auto].
  exists (mkInst n (snd v)). split; auto.
  assert (E : In (table_of k, it, ot, n) es).
  { unfold ns in Hn. apply in_flat_map in Hn. destruct Hn as (t & Ht & Hn). apply In_nth_error in Hi. destruct Hi as [i Ei]. apply In_nth_error in Ho. destruct Ho as [j Ej].
    destruct (cell_at c es t i j it ot H Ei Ej) as [_ Ct]. apply Ct in Hn. destruct (Hall t Ht) as [<-| <-]; auto. }
  apply in_instances in Hv. destruct Hv as [[-> Hd]|(Hd & -> & Hv & ->)]; cbn.
  - apply offered_typed; cbn; auto. destruct Hd as [Hd|Hd]; auto. right. rewrite Hbas in Hd. destruct (table_of k); auto; discriminate.
  - apply offered_container; cbn; auto. intros G. rewrite G in Hbas. cbn in Hbas. congruence.
Qed.

(** Every class that may be handed out is, by some definition of the block. *)
Lemma block_complete : forall var c es guards listed basis s n x, holds_entries c es -> basis = is_basis (table_of (sg_kind s)) ->
  In (table_of (sg_kind s)) guards -> In (table_of (sg_kind s)) listed -> offered var es s n x ->
  exists f, In f (source_pure var c (sg_kind s) guards listed basis) /\ ck_sig f = s /\ run_checkout f n = Ok x.
Proof.
  intros var c es guards listed basis [k si so] n x H Hbas Hg Hl Hof. cbn in *.
  assert (P : exists it v, In it (co_in c) /\ In so (co_out c) /\ In (table_of k, it, so, n) es /\ In v (block_insts var basis it) /\ fst v = si /\ x = mkInst n (snd v)).
  { inversion Hof as [E D|E D B]; cbn in *; subst x.
    - destruct (he_types c es H _ _ _ _ E) as [Hi Ho]. exists si, (si, None). repeat split; auto. apply in_instances. left. split; auto.
      destruct D as [D|D]; auto. left. now rewrite Hbas, D.
    - destruct (he_types c es H _ _ _ _ E) as [Hi Ho]. exists (txt "VarContainer"), (si, Some si). repeat split; auto. apply in_instances. right.
      repeat split; auto. rewrite Hbas. destruct (table_of k); auto; congruence. }
  destruct P as (it & v & Hi & Ho & E & Hv & <- & ->).
  assert (N : In n (names_at (table_of k) c it so)).
  { apply In_nth_error in Hi. destruct Hi as [i Ei]. apply In_nth_error in Ho. destruct Ho as [j Ej]. now apply (cell_at c es (table_of k) i j it so H Ei Ej). }
  eexists. split; [apply in_source; exists it, so, v; repeat split; eauto|].
  - intros G. assert (In n (flat_map (fun t => names_at t c it so) guards)) by (apply in_flat_map; eauto). rewrite G in H0. contradiction.
  - split; [reflexivity|]. unfold run_checkout. cbn. apply run_cases_spec. apply in_flat_map. eauto.
Qed.

Lemma library_runs : forall var c es f n, holds_entries c es -> has_base es -> In f (source_all var c) ->
  (exists x, run_checkout f n = Ok x /\ offered var es (ck_sig f) n x) \/ run_checkout f n = Throw RuntimeError.
Proof.
  intros var c es f n H Hb Hf. unfold source_all in Hf. rewrite !in_app_iff in Hf.
  destruct Hf as [Hf|[Hf|[Hf|[Hf|[Hf|[Hf|[Hf|Hf]]]]]]]; eapply block_runs in Hf; eauto; try (apply Hf); cbn; auto; intros t Ht; intuition (subst; auto).
Qed.

Lemma library_complete : forall var c es s n x, holds_entries c es -> offered var es s n x ->
  exists f, In f (source_all var c) /\ ck_sig f = s /\ run_checkout f n = Ok x.
Proof.
  intros var c es s n x H Hof. unfold source_all.
  assert (B : forall guards listed basis, basis = is_basis (table_of (sg_kind s)) ->
     In (table_of (sg_kind s)) guards -> In (table_of (sg_kind s)) listed ->
     exists f, In f (source_pure var c (sg_kind s) guards listed basis) /\ ck_sig f = s /\ run_checkout f n = Ok x).
  { intros. eapply block_complete; eauto. }
  destruct (sg_kind s) eqn:K; cbn in B.
  - destruct (B [TSimple] [TSimple; TPwSimple] false) as (f & Hf & R); cbn; auto. exists f. rewrite !in_app_iff. tauto.
  - destruct (B [TFunc] [TFunc] false) as (f & Hf & R); cbn; auto. exists f. rewrite !in_app_iff. tauto.
  - destruct (B [TBasis] [TBasis] true) as (f & Hf & R); cbn; auto. exists f. rewrite !in_app_iff. tauto.
  - destruct (B [TSimple; TPwSimple] [TSimple] false) as (f & Hf & R); cbn; auto. exists f. rewrite !in_app_iff. tauto.
  - destruct (B [TFunc; TPwFunc] [TFunc] false) as (f & Hf & R); cbn; auto. exists f. rewrite !in_app_iff. tauto.
  - destruct (B [TPwSimple] [TPwSimple] false) as (f & Hf & R); cbn; auto. exists f. rewrite !in_app_iff. tauto.
  - destruct (B [TPwFunc] [TPwFunc] false) as (f & Hf & R); cbn; auto. exists f. rewrite !in_app_iff. tauto.
  - destruct (B [TBasis] [TBasis] true) as (f & Hf & R); cbn; auto. exists f. rewrite !in_app_iff. tauto.
Qed.

(** *** No function is declared twice *)
Lemma NoDup_flat_map : forall (A B : Type) (f : A -> list B) l, NoDup l -> (forall x, In x l -> NoDup (f x)) ->
  (forall x y b, In x l -> In y l -> In b (f x) -> In b (f y) -> x = y) -> NoDup (flat_map f l).
Proof.
  intros A B f l H. induction H as [|x l Hx H IH]; intros Hf Hd; cbn; [constructor|].
  apply NoDup_app_iff. split; [apply Hf; now left|]. split.
  - apply IH; [intros; apply Hf; now right | intros; eapply Hd; eauto; now right].
  - intros b Hb Hb'. apply in_flat_map in Hb. destruct Hb as (y & Hy & Hb). assert (x = y) by (eapply Hd; eauto; [now left | now right]). congruence.
Qed.

Lemma NoDup_map_in : forall (A B : Type) (f : A -> B) l, NoDup l -> (forall x y, In x l -> In y l -> f x = f y -> x = y) -> NoDup (map f l).
Proof.
  intros A B f l H. induction H as [|x l Hx H IH]; intros Hf; cbn; constructor.
  - intros G. apply in_map_iff in G. destruct G as (y & E & Hy). apply Hf in E; [congruence | now right | now left].
  - apply IH. intros. apply Hf; auto; now right.
Qed.

Lemma header_nodup : forall var c es k t, holds_entries c es -> NoDup var -> (forall v, In v var -> v <> txt "VarContainer" -> ~ In v (co_in c)) ->
  NoDup (header_pure var c k t).
Proof.
  intros var c es k t H Hv Hd. unfold header_pure.
  assert (BI : forall it, NoDup (map fst (block_insts var (is_basis t) it))).
  { intros it. unfold block_insts, instances. destruct (is_basis t); [repeat constructor; auto|].
    destruct (text_eqb it (txt "VarContainer")); cbn; [|repeat constructor; auto]. rewrite map_map. cbn. now rewrite map_id. }
  apply NoDup_flat_map; [apply H| |].
  - intros it Hi. apply NoDup_flat_map; [apply H| |].
    + intros ot Ho. destruct (Nat.ltb 0 (List.length (names_at t c it ot))); [|constructor].
      rewrite <- (map_map fst (fun v => mkSig k v ot)). apply NoDup_map_in; auto. intros x y _ _ [= ->]. reflexivity.
    + intros x y b Hx Hy Bx By. destruct (Nat.ltb 0 (List.length (names_at t c it x))); [|contradiction].
      destruct (Nat.ltb 0 (List.length (names_at t c it y))); [|contradiction].
      apply in_map_iff in Bx. apply in_map_iff in By. destruct Bx as (v & <- & _). destruct By as (w & [= _ ->] & _). reflexivity.
  - intros x y b Hx Hy Bx By. apply in_flat_map in Bx. destruct Bx as (ox & Ox & Bx). apply in_flat_map in By. destruct By as (oy & Oy & By).
    destruct (Nat.ltb 0 (List.length (names_at t c x ox))); [|contradiction].
    destruct (Nat.ltb 0 (List.length (names_at t c y oy))); [|contradiction].
    apply in_map_iff in Bx. apply in_map_iff in By. destruct Bx as (v & <- & Iv). destruct By as (w & [= Ew _] & Iw).
    apply in_instances in Iv. apply in_instances in Iw.
    assert (D : forall a, In a var -> In a (co_in c) -> a = txt "VarContainer").
    { intros a Ha Hc. destruct (text_eq_dec a (txt "VarContainer")); auto. exfalso. eapply Hd; eauto. }
    destruct Iv as [[-> Dx]|(_ & -> & Vv & _)]; destruct Iw as [[-> Dy]|(Bas & -> & Vw & _)]; cbn in Ew; try congruence.
    + apply D; auto. rewrite <- Ew. exact Vw.
    + symmetry. apply D; auto. rewrite Ew. exact Vv.
Qed.

Lemma header_kind : forall var c k t s, In s (header_pure var c k t) -> sg_kind s = k.
Proof.
  intros var c k t s H. unfold header_pure in H. apply in_flat_map in H. destruct H as (it & _ & H). apply in_flat_map in H. destruct H as (ot & _ & H).
  destruct (Nat.ltb 0 (List.length (names_at t c it ot))); [|contradiction]. apply in_map_iff in H. destruct H as (v & <- & _). reflexivity.
Qed.

Lemma header_all_nodup : forall var c es, holds_entries c es -> NoDup var -> (forall v, In v var -> v <> txt "VarContainer" -> ~ In v (co_in c)) ->
  NoDup (header_all var c).
Proof.
  intros var c es H Hv Hd. unfold header_all.
  repeat (apply NoDup_app_iff; split; [eapply header_nodup; eauto|]; split; [|
    intros s Hs Hs'; rewrite ?in_app_iff in Hs; apply header_kind in Hs'; repeat (destruct Hs as [Hs|Hs]); apply header_kind in Hs; congruence]).
  eapply header_nodup; eauto.
Qed.

(** *** From the files to the library *)
Lemma collected : forall fs fuel c, (forall f t, In (f, Some t) fs -> List.length t + 1 < fuel)%nat -> (0 < fuel)%nat ->
  collect fuel fs coll_empty = RRet c tt -> holds_entries c (all_entries fs) /\ has_base (all_entries fs) /\ types_used c (all_entries fs).
Proof.
  intros fs fuel c Hf H0 E. destruct (collect_spec fs fuel Hf H0) as [[_ G]|[_ (c' & G & H & T & _)]]; [congruence|].
  assert (c' = c) by congruence. subst. split; auto. split; auto. intros t it ot n. apply all_base.
Qed.

Lemma library_spec : forall fs fuel c var, (forall f t, In (f, Some t) fs -> List.length t + 1 < fuel)%nat -> (0 < fuel)%nat ->
  collect fuel fs coll_empty = RRet c tt ->
  exists sigs defs, write_header var c = Ok sigs /\ write_source var c = Ok defs /\ map ck_sig defs = sigs.
Proof.
  intros fs fuel c var Hf H0 E. destruct (collected fs fuel c Hf H0 E) as (H & Hb & _).
  exists (header_all var c), (source_all var c). split; [exact (write_header_ok var c _ H)|]. split; [exact (write_source_ok var c _ H)|]. eapply library_sigs; eauto.
Qed.

Lemma checkout_spec : forall fs fuel c var defs, (forall f t, In (f, Some t) fs -> List.length t + 1 < fuel)%nat -> (0 < fuel)%nat ->
  collect fuel fs coll_empty = RRet c tt -> write_source var c = Ok defs ->
  (forall s n x, offered var (all_entries fs) s n x -> exists f, In f defs /\ ck_sig f = s /\ run_checkout f n = Ok x) /\
  (forall f n, In f defs -> (exists x, run_checkout f n = Ok x /\ offered var (all_entries fs) (ck_sig f) n x) \/ run_checkout f n = Throw RuntimeError).
Proof.
  intros fs fuel c var defs Hf H0 E W. destruct (collected fs fuel c Hf H0 E) as (H & Hb & _). rewrite (write_source_ok var c _ H) in W. injection W as <-.
  split; intros; [eapply library_complete; eauto | eapply library_runs; eauto].
Qed.


Lemma checkout_exact : forall fs fuel c var defs, (forall f t, In (f, Some t) fs -> List.length t + 1 < fuel)%nat -> (0 < fuel)%nat ->
  collect fuel fs coll_empty = RRet c tt -> write_source var c = Ok defs -> NoDup var ->
  (forall v t ot n, In v var -> v <> txt "VarContainer" -> ~ In (t, v, ot, n) (all_entries fs)) ->
  NoDup (map ck_sig defs) /\
  forall f n, In f defs -> (forall x, run_checkout f n = Ok x <-> offered var (all_entries fs) (ck_sig f) n x) /\
    ((forall x, ~ offered var (all_entries fs) (ck_sig f) n x) -> run_checkout f n = Throw RuntimeError).
Proof.
  intros fs fuel c var defs Hf H0 E W Hv Hd. destruct (collected fs fuel c Hf H0 E) as (H & Hb & T).
  destruct (checkout_spec fs fuel c var defs Hf H0 E W) as [C R].
  assert (N : NoDup (map ck_sig defs)).
  { rewrite (write_source_ok var c _ H) in W. injection W as <-. rewrite (library_sigs var c _ H Hb). eapply header_all_nodup; eauto.
    intros v Iv Nv Hin. destruct T as [T _]. destruct (T v Hin) as (t & ot & n & G). exact (Hd v t ot n Iv Nv G). }
  split; auto. intros f n Hin. split.
  - intros x. split; intros G.
    + destruct (R f n Hin) as [(y & Ey & Hy)|Ey]; congruence.
    + destruct (C _ _ _ G) as (f' & Hin' & Es & Ex). assert (f' = f); [|congruence].
      clear - N Hin Hin' Es. induction defs as [|d defs IH]; [contradiction|]. cbn in N. inversion N as [|s l Hs N']; subst.
      destruct Hin as [->|Hin]; destruct Hin' as [->|Hin']; auto.
      * exfalso. apply Hs. rewrite <- Es. now apply in_map.
      * exfalso. apply Hs. rewrite Es. now apply in_map.
  - intros G. destruct (R f n Hin) as [(y & Ey & Hy)|Ey]; auto. exfalso. exact (G y Hy).
Qed.

(** *** Witnesses *)
Definition two_classes : list (text * option text) :=
  [ (txt "A.hh", Some (txt "class A : public PSimpleBase< double, double>" ++ [nl] ++ txt "{ };" ++ [nl]));
    (txt "B.hh", Some (txt "template<class VarContainer>" ++ [nl] ++ txt "class B : public PSimpleBase< VarContainer, double>" ++ [nl])) ].


Lemma duplicate_witness : exists c sigs, collect 100 two_classes coll_empty = RRet c tt /\ write_header [txt "double"] c = Ok sigs /\ ~ NoDup sigs.
Proof.
  eexists. eexists. split; [vm_compute; reflexivity|]. split; [vm_compute; reflexivity|].
  intros N. inversion N as [|s l Hs _]. apply Hs. cbn. left. reflexivity.
Qed.

Lemma example_collected : exists c, collect 100 two_classes coll_empty = RRet c tt /\ co_in c = [txt "double"; txt "VarContainer"] /\ co_out c = [txt "double"] /\
  co_simple c = [[[txt "A"]]; [[txt "B"]]] /\ co_file c = [txt "A.hh"; txt "B.hh"].
Proof. eexists. split; [vm_compute; reflexivity|]. repeat split. Qed.

Lemma two_fuel : forall f t, In (f, Some t) two_classes -> (List.length t + 1 < 100)%nat.
Proof. intros f t [[= <- <-]|[[= <- <-]|[]]]; vm_compute; lia. Qed.

Lemma two_nodup : NoDup (all_entries two_classes).
Proof.
  assert (E : all_entries two_classes = [(TSimple, txt "double", txt "double", txt "A"); (TSimple, txt "VarContainer", txt "double", txt "B")]) by (vm_compute; reflexivity).
  rewrite E. repeat constructor; cbn; intuition discriminate.
Qed.

Lemma example_checkout : exists c defs f, collect 100 two_classes coll_empty = RRet c tt /\ write_source [txt "Vec"] c = Ok defs /\ List.length defs = 4%nat /\
  In f defs /\ ck_sig f = mkSig KSimpleFunction (txt "Vec") (txt "double") /\ run_checkout f (txt "B") = Ok (mkInst (txt "B") (Some (txt "Vec"))) /\
  run_checkout f (txt "A") = Throw RuntimeError.
Proof.
  eexists. eexists. exists (mkCheckout (mkSig KSimpleFunction (txt "Vec") (txt "double")) [(txt "B", mkInst (txt "B") (Some (txt "Vec")))]).
  split; [vm_compute; reflexivity|]. split; [vm_compute; reflexivity|]. split; [reflexivity|].
  split; [right; left; reflexivity|]. repeat split.
Qed.

Lemma twice_exits : collect 100 (two_classes ++ two_classes) coll_empty = RExit.
Proof. vm_compute. reflexivity. Qed.
