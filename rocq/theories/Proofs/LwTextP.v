(** Proofs about the text of the generated library: lexing and reading it back. *)
From Coq Require Import ZArith Lia List Bool Ascii String.
From Verif Require Import Model.Outcome Model.Stream Model.Lw Model.LwText Spec.Lw Spec.LwText Proofs.LwP Proofs.LwGenP Proofs.LwRegexP.
Import ListNotations.

(** *** Lexing *)
Definition lexes (m : mode) (s : text) (ts : list token) (m' : mode) : Prop := forall out, lex (m, out) s = (m', rev ts ++ out).

Lemma lexes_app : forall m a x m1 b y m2, lexes m a x m1 -> lexes m1 b y m2 -> lexes m (a ++ b) (x ++ y) m2.
Proof.
  intros m a x m1 b y m2 A B out. unfold lexes, lex in *. rewrite fold_left_app, A, B, rev_app_distr, app_assoc. reflexivity.
Qed.
Lemma lexes_nil : forall m, lexes m [] [] m.
Proof. intros m out. reflexivity. Qed.
Lemma lexes_flat : forall (A : Type) (f : A -> text) (g : A -> list token) m l, (forall x, In x l -> lexes m (f x) (g x) m) -> lexes m (flat_map f l) (flat_map g l) m.
Proof.
  intros A f g m l. induction l as [|x l IH]; intros H; [apply lexes_nil|]. cbn. eapply lexes_app; [apply H; now left|]. apply IH. intros y Hy. apply H. now right.
Qed.

Definition flushed (w : text) : list token := rev (flush w []).
Lemma flush_acc : forall w out, flush w out = rev (flushed w) ++ out.
Proof. intros [|c w] out; reflexivity. Qed.

(** A writable type is read to the end, leaving a word. *)
Definition lexable (t : text) : Prop := forall c, In c t -> c <> quote /\ c <> "/"%char /\ c <> "#"%char.
Lemma writable_lexable : forall t, writable t -> lexable t.
Proof. intros t H c Hc. destruct (H c Hc) as (A & B & C & _). auto. Qed.
Lemma lex_lexable : forall t w, lexable t -> exists w' ts, lexes (Plain w) t ts (Plain w') /\ lex (Plain w, []) t = (Plain w', rev ts).
Proof.
  intros t. induction t as [|c t IH]; intros w H.
  - exists w, []. split; [apply lexes_nil|reflexivity].
  - assert (Ht : lexable t) by (intros x Hx; apply H; now right).
    destruct (H c (or_introl eq_refl)) as (Hq & Hs & Hh).
    destruct (word_char c) eqn:Ew; [|destruct (space c) eqn:Es].
    + destruct (IH (c :: w) Ht) as (w' & ts & L & E). exists w', ts.
      assert (L' : lexes (Plain w) (c :: t) ts (Plain w')).
      { intros out. unfold lex. cbn [fold_left lex_step]. unfold lex_plain. rewrite Ew. apply L. }
      split; auto. rewrite (L' []). now rewrite app_nil_r.
    + destruct (IH [] Ht) as (w' & ts & L & E). exists w', (flushed w ++ ts).
      assert (L' : lexes (Plain w) (c :: t) (flushed w ++ ts) (Plain w')).
      { intros out. unfold lex. cbn [fold_left lex_step]. unfold lex_plain. rewrite Ew.
        destruct (Ascii.eqb_spec c quote); [congruence|]. destruct (Ascii.eqb_spec c "/"); [congruence|]. destruct (Ascii.eqb_spec c "#"); [congruence|].
        rewrite Es, flush_acc. unfold lexes, lex in L. rewrite L, rev_app_distr, app_assoc. reflexivity. }
      split; auto. rewrite (L' []). now rewrite app_nil_r.
    + destruct (IH [] Ht) as (w' & ts & L & E). exists w', (flushed w ++ Punct c :: ts).
      assert (L' : lexes (Plain w) (c :: t) (flushed w ++ Punct c :: ts) (Plain w')).
      { intros out. unfold lex. cbn [fold_left lex_step]. unfold lex_plain. rewrite Ew.
        destruct (Ascii.eqb_spec c quote); [congruence|]. destruct (Ascii.eqb_spec c "/"); [congruence|]. destruct (Ascii.eqb_spec c "#"); [congruence|].
        rewrite Es, flush_acc. unfold lexes, lex in L. rewrite L, rev_app_distr. cbn. rewrite <- !app_assoc. reflexivity. }
      split; auto. rewrite (L' []). now rewrite app_nil_r.
Qed.

Lemma lex_writable : forall t w, writable t -> exists w' ts, lexes (Plain w) t ts (Plain w') /\ lex (Plain w, []) t = (Plain w', rev ts).
Proof. intros t w H. apply lex_lexable, writable_lexable, H. Qed.

(** Behind it a literal that starts and ends with no word. *)
Definition sep (s : text) (ts : list token) : Prop := forall w, lexes (Plain w) s (flushed w ++ ts) (Plain []).
Lemma lexes_type : forall t s ts, writable t -> sep s ts -> lexes (Plain []) (t ++ s) (toks t ++ ts) (Plain []).
Proof.
  intros t s ts W H. destruct (lex_writable t [] W) as (w & u & L & E).
  replace (toks t ++ ts) with (u ++ (flushed w ++ ts)).
  - eapply lexes_app; [exact L | apply H].
  - unfold toks. rewrite E, flush_acc, rev_app_distr, !rev_involutive, app_assoc. reflexivity.
Qed.

Lemma lexes_word : forall n w, Forall (fun c => word_char c = true) n -> lexes (Plain w) n [] (Plain (rev n ++ w)).
Proof.
  intros n. induction n as [|c n IH]; intros w H; [apply lexes_nil|]. inversion H; subst. intros out. unfold lex. cbn [fold_left lex_step]. unfold lex_plain. rewrite H2.
  cbn [rev]. rewrite <- app_assoc. apply (IH (c :: w) H3).
Qed.
Lemma flushed_word : forall n, n <> [] -> flushed (rev n ++ []) = [Word n].
Proof.
  intros n N. unfold flushed, flush. rewrite app_nil_r. destruct (rev n) eqn:E.
  - exfalso. apply N. rewrite <- (rev_involutive n), E. reflexivity.
  - rewrite <- E, rev_involutive. reflexivity.
Qed.
Lemma lexes_name : forall n s ts, Forall (fun c => word_char c = true) n -> n <> [] -> sep s ts -> lexes (Plain []) (n ++ s) (Word n :: ts) (Plain []).
Proof.
  intros n s ts H N S. change (Word n :: ts) with ([] ++ ([Word n] ++ ts)). eapply lexes_app; [apply lexes_word, H|]. rewrite <- (flushed_word n N). apply S.
Qed.
Lemma lexes_quoted : forall n s, ~ In quote n -> lexes (Quoted s) n [] (Quoted (rev n ++ s)).
Proof.
  intros n. induction n as [|c n IH]; intros s H; [apply lexes_nil|]. intros out. unfold lex. cbn [fold_left lex_step].
  destruct (Ascii.eqb_spec c quote); [exfalso; apply H; left; congruence|]. cbn [rev]. rewrite <- app_assoc. apply (IH (c :: s)). intros G. apply H. now right.
Qed.
Lemma lexes_skip : forall n, ~ In nl n -> lexes Skip n [] Skip.
Proof.
  intros n. induction n as [|c n IH]; intros H; [apply lexes_nil|]. intros out. unfold lex. cbn [fold_left lex_step].
  destruct (Ascii.eqb_spec c nl); [exfalso; apply H; left; congruence|]. apply IH. intros G. apply H. now right.
Qed.
Lemma sep_app : forall a x b y, sep a x -> lexes (Plain []) b y (Plain []) -> sep (a ++ b) (x ++ y).
Proof. intros a x b y A B w. rewrite app_assoc. eapply lexes_app; eauto. Qed.
(** A literal read from a clean state, and one that begins with a character of its own. *)
Ltac lit := intros ?; vm_compute; reflexivity.
Ltac slit := intros ? ?; rewrite rev_app_distr, <- app_assoc, <- flush_acc; vm_compute; reflexivity.

(** *** The tokens written *)
Definition type_toks (k : outkind) (it ot : text) : list token := Word (kind_text k) :: Punct "<" :: pair_toks it ot ++ [Punct ">"].
Lemma lexes_type_text : forall k it ot, writable it -> writable ot -> lexes (Plain []) (type_text k it ot) (type_toks k it ot) (Plain []).
Proof.
  intros k it ot Wi Wo. unfold type_text, type_toks, pair_toks.
  replace (Word (kind_text k) :: Punct "<" :: (toks it ++ [Punct ","] ++ toks ot) ++ [Punct ">"])
    with ([Word (kind_text k); Punct "<"] ++ (toks it ++ [Punct ","]) ++ (toks ot ++ [Punct ">"])) by (rewrite <- !app_assoc; reflexivity).
  rewrite app_assoc. eapply lexes_app; [destruct k; lit|]. rewrite app_assoc. eapply lexes_app; apply lexes_type; auto; slit.
Qed.

Definition param_toks (k : outkind) : list token := toks (param_text k).
Definition head_toks : list token := [Punct "("; Word (txt "std"); Punct ":"; Punct ":"; Word (txt "string"); Word (txt "name"); Punct ","].
Definition decl_toks (k : outkind) (it ot : text) : list token :=
  [Word (txt "void"); Word (txt "checkout")] ++ head_toks ++ type_toks k it ot ++ param_toks k ++ [Punct ")"; Punct ";"].
Lemma lexes_decl : forall k it ot, writable it -> writable ot -> lexes (Plain []) (decl_text k it ot) (decl_toks k it ot) (Plain []).
Proof.
  intros k it ot Wi Wo. unfold decl_text, decl_toks. rewrite (app_assoc [Word (txt "void"); Word (txt "checkout")]).
  eapply lexes_app; [lit|]. eapply lexes_app; [apply lexes_type_text; auto|]. destruct k; lit.
Qed.

Definition class_toks (n : text) (arg : option text) : list token := Word n :: match arg with Some v => Punct "<" :: toks v ++ [Punct ">"] | None => [] end.
Lemma lexes_class : forall n arg s ts, Forall (fun c => word_char c = true) n -> n <> [] -> (forall v, arg = Some v -> writable v) -> sep s ts ->
  lexes (Plain []) (class_text n arg ++ s) (class_toks n arg ++ ts) (Plain []).
Proof.
  intros n [v|] s ts H N Wv S; unfold class_text, class_toks; rewrite <- !app_assoc.
  - cbn [app]. apply lexes_name; auto.
    replace (Punct "<" :: (toks v ++ [Punct ">"]) ++ ts) with ([Punct "<"] ++ toks v ++ [Punct ">"] ++ ts) by (cbn; rewrite <- app_assoc; reflexivity).
    apply sep_app; [slit|]. apply lexes_type; auto. apply sep_app; [slit|]. exact (S []).
  - cbn [app]. apply lexes_name; auto.
Qed.

Definition value_toks (k : outkind) (n : text) (arg : option text) : list token :=
  match alias_text k with
  | Some a => Word a :: Punct "(" :: class_toks n arg ++ toks (ctor_text k) ++ [Punct ")"]
  | None => Word (txt "new") :: class_toks n arg ++ toks (ctor_text k)
  end.
Definition case_toks (k : outkind) (n : text) (arg : option text) : list token :=
  [Word (txt "if"); Punct "("; Word (txt "name"); Punct "="; Punct "="; Str n; Punct ")"; Punct "{"; Word (var_text k); Punct "="] ++ value_toks k n arg ++
  [Punct ";"; Word (txt "return"); Punct ";"; Punct "}"].

Lemma word_quote : forall n, Forall (fun c => word_char c = true) n -> ~ In quote n.
Proof. intros n H G. rewrite Forall_forall in H. apply H in G. discriminate. Qed.

Lemma lexes_case : forall k n arg, Forall (fun c => word_char c = true) n -> n <> [] -> (forall v, arg = Some v -> writable v) ->
  lexes (Plain []) (case_text k n arg) (case_toks k n arg) (Plain []).
Proof.
  intros k n arg H N Wv. unfold case_text, case_toks.
  change [Word (txt "if"); Punct "("; Word (txt "name"); Punct "="; Punct "="; Str n; Punct ")"; Punct "{"; Word (var_text k); Punct "="]
    with ([Word (txt "if"); Punct "("; Word (txt "name"); Punct "="; Punct "="] ++ [] ++ [Str n; Punct ")"; Punct "{"; Word (var_text k); Punct "="]).
  rewrite <- !app_assoc. eapply lexes_app; [lit|]. eapply lexes_app; [apply lexes_quoted, word_quote, H|].
  rewrite (app_assoc (txt """) { ")), (app_assoc (txt """) { " ++ var_text k)).
  assert (Q : lexes (Quoted (rev n ++ [])) ((txt """) { " ++ var_text k) ++ txt " = ") [Str n; Punct ")"; Punct "{"; Word (var_text k); Punct "="] (Plain [])).
  { rewrite app_nil_r. intros out. rewrite <- (rev_involutive n) at 2. destruct k; vm_compute; reflexivity. }
  eapply lexes_app; [exact Q|]. clear Q. unfold value_toks. destruct (alias_text k) as [a|] eqn:Ea.
  - replace ((Word a :: Punct "(" :: class_toks n arg ++ toks (ctor_text k) ++ [Punct ")"]) ++ [Punct ";"; Word (txt "return"); Punct ";"; Punct "}"])
      with ([Word a; Punct "("] ++ class_toks n arg ++ (toks (ctor_text k) ++ [Punct ")"; Punct ";"; Word (txt "return"); Punct ";"; Punct "}"]))
      by (cbn; rewrite <- !app_assoc; reflexivity).
    rewrite <- !app_assoc. rewrite (app_assoc a). eapply lexes_app; [destruct k; try discriminate; injection Ea as <-; lit|].
    apply lexes_class; auto. destruct k; try discriminate; slit.
  - replace ((Word (txt "new") :: class_toks n arg ++ toks (ctor_text k)) ++ [Punct ";"; Word (txt "return"); Punct ";"; Punct "}"])
      with ([Word (txt "new")] ++ class_toks n arg ++ (toks (ctor_text k) ++ [Punct ";"; Word (txt "return"); Punct ";"; Punct "}"]))
      by (cbn; rewrite <- !app_assoc; reflexivity).
    rewrite <- !app_assoc. eapply lexes_app; [lit|]. apply lexes_class; auto. destruct k; try discriminate; slit.
Qed.

Definition throw_toks (k : outkind) (it ot : text) : list token :=
  [Word (txt "throw"); Word (txt "std"); Punct ":"; Punct ":"; Word (txt "runtime_error"); Punct "("; Str (type_text k it ot ++ txt " "); Punct "+"; Word (txt "name");
   Punct "+"; Str (txt " was not found in the PLibrary"); Punct ")"; Punct ";"; Punct "}"].
Definition def_toks (k : outkind) (it ot : text) (arg : option text) (ns : list text) : list token :=
  [Word (txt "void"); Word (txt "PLibrary"); Punct ":"; Punct ":"; Word (txt "checkout")] ++ head_toks ++ type_toks k it ot ++ param_toks k ++ [Punct ")"; Punct "{"] ++
  match alias_text k with Some a => Word (txt "typedef") :: type_toks k it ot ++ [Word a; Punct ";"] | None => [] end ++
  flat_map (fun n => case_toks k n arg) ns ++
  match k, arg with KSimpleFunction, Some _ => [Word (txt "else")] | _, _ => [] end ++ throw_toks k it ot.

Lemma writable_quote : forall t, writable t -> ~ In quote t.
Proof. intros t H G. destruct (H _ G) as [N _]. congruence. Qed.
Lemma type_text_quote : forall k it ot, writable it -> writable ot -> ~ In quote (type_text k it ot).
Proof.
  intros k it ot Wi Wo. unfold type_text. rewrite !in_app_iff. intros [G|[G|[G|[G|[G|G]]]]]; try exact (writable_quote it Wi G); try exact (writable_quote ot Wo G).
  - destruct k; cbn in G; intuition discriminate.
  - cbn in G; intuition discriminate.
  - cbn in G; intuition discriminate.
  - cbn in G; intuition discriminate.
Qed.

Lemma lexes_def : forall k it ot arg ns, writable it -> writable ot -> (forall v, arg = Some v -> writable v) ->
  (forall n, In n ns -> Forall (fun c => word_char c = true) n /\ n <> []) ->
  lexes (Plain []) (def_text k it ot arg ns) (def_toks k it ot arg ns) (Plain []).
Proof.
  intros k it ot arg ns Wi Wo Wv Hn. unfold def_text, def_toks.
  rewrite (app_assoc [Word (txt "void"); Word (txt "PLibrary"); Punct ":"; Punct ":"; Word (txt "checkout")]).
  eapply lexes_app; [lit|]. eapply lexes_app; [apply lexes_type_text; auto|].
  assert (E : forall r, txt " " ++ param_text k ++ txt ")" ++ [nl] ++ txt "        {" ++ [nl] ++ r =
    (txt " " ++ param_text k ++ txt ")" ++ [nl] ++ txt "        {" ++ [nl]) ++ r) by (intros r; rewrite <- !app_assoc; reflexivity).
  rewrite E. clear E.
  rewrite (app_assoc (param_toks k)).
  eapply lexes_app; [destruct k; lit|].
  eapply lexes_app.
  { destruct (alias_text k) as [a|] eqn:Ea; [|apply lexes_nil].
    change (Word (txt "typedef") :: type_toks k it ot ++ [Word a; Punct ";"]) with ([Word (txt "typedef")] ++ type_toks k it ot ++ [Word a; Punct ";"]).
    eapply lexes_app; [lit|]. eapply lexes_app; [apply lexes_type_text; auto|]. destruct k; try discriminate; injection Ea as <-; lit. }
  eapply lexes_app; [apply lexes_flat; intros n Hin; destruct (Hn n Hin); apply lexes_case; auto|].
  rewrite (app_assoc (txt "            ")).
  eapply lexes_app; [instantiate (1 := Plain []); destruct k, arg; lit|].
  unfold throw_toks.
  change [Word (txt "throw"); Word (txt "std"); Punct ":"; Punct ":"; Word (txt "runtime_error"); Punct "("; Str (type_text k it ot ++ txt " "); Punct "+"; Word (txt "name");
   Punct "+"; Str (txt " was not found in the PLibrary"); Punct ")"; Punct ";"; Punct "}"]
   with ([Word (txt "throw"); Word (txt "std"); Punct ":"; Punct ":"; Word (txt "runtime_error"); Punct "("] ++ [] ++ [Str (type_text k it ot ++ txt " "); Punct "+"; Word (txt "name");
   Punct "+"; Str (txt " was not found in the PLibrary"); Punct ")"; Punct ";"; Punct "}"]).
  eapply lexes_app; [lit|]. eapply lexes_app; [apply lexes_quoted, type_text_quote; auto|].
  rewrite app_nil_r. intros out. rewrite <- (rev_involutive (type_text k it ot)) at 2. generalize (rev (type_text k it ot)). intros r. vm_compute. reflexivity.
Qed.

(** *** Reading the tokens *)
Lemma targs_closed : forall l d r, closed d l = true -> targs d (l ++ Punct ">" :: r) = Some (l, r).
Proof.
  intros l. induction l as [|t l IH]; intros d r H.
  - destruct d; [reflexivity|discriminate].
  - cbn [app targs]. cbn [closed] in H. destruct (is_punct ">" t).
    + destruct d; [discriminate|]. now rewrite IH.
    + now rewrite IH.
Qed.

Lemma read_type_ok : forall k it ot r, closed 0 (pair_toks it ot) = true ->
  read_type (type_toks k it ot ++ r) = Some (mkType (spelled_kind k) (pair_toks it ot), r).
Proof.
  intros k it ot r H. unfold type_toks, read_type. rewrite <- !app_comm_cons, <- app_assoc. cbn [drop is_punct Ascii.eqb Bool.eqb].
  change ([Punct ">"] ++ r) with (Punct ">" :: r). rewrite targs_closed; auto.
Qed.

Definition params_read (k : outkind) (it ot : text) : params := mkParams (mkType (spelled_kind k) (pair_toks it ot)) (by_pointer k) (var_text k) (sized k).
Lemma read_params_ok : forall k it ot r, closed 0 (pair_toks it ot) = true ->
  read_params (head_toks ++ type_toks k it ot ++ param_toks k ++ Punct ")" :: r) = Some (params_read k it ot, r).
Proof.
  intros k it ot r H. unfold read_params.
  change (drop _ (head_toks ++ type_toks k it ot ++ param_toks k ++ Punct ")" :: r)) with (Some (type_toks k it ot ++ param_toks k ++ Punct ")" :: r)).
  cbv beta iota. rewrite read_type_ok; auto. unfold params_read. destruct k; reflexivity.
Qed.

Lemma read_decl_ok : forall k it ot r, closed 0 (pair_toks it ot) = true -> read_decl (decl_toks k it ot ++ r) = Some (params_read k it ot, r).
Proof.
  intros k it ot r H. unfold read_decl, decl_toks. rewrite <- !app_assoc.
  change (drop _ ([Word (txt "void"); Word (txt "checkout")] ++ ?l)) with (Some l).
  change ([Punct ")"; Punct ";"] ++ r) with (Punct ")" :: Punct ";" :: r). cbv beta iota. rewrite read_params_ok; auto.
Qed.

Definition object_read (k : outkind) (n : text) (arg : option text) : object := mkObject n (option_map toks arg) (sized k).
Lemma read_object_ok : forall k n arg r, (forall v, arg = Some v -> closed 0 (toks v) = true) ->
  read_object (class_toks n arg ++ toks (ctor_text k) ++ r) = Some (object_read k n arg, r).
Proof.
  intros k n [v|] r H; unfold read_object, class_toks, object_read.
  - rewrite <- !app_comm_cons, <- app_assoc. cbn [drop is_punct Ascii.eqb Bool.eqb]. change ([Punct ">"] ++ ?l) with (Punct ">" :: l).
    rewrite targs_closed; auto. destruct k; reflexivity.
  - destruct k; reflexivity.
Qed.

Definition alias_read (k : outkind) (it ot : text) : option (text * ctype) := option_map (fun a => (a, mkType (spelled_kind k) (pair_toks it ot))) (alias_text k).
Definition as_read (k : outkind) (it ot : text) : option ctype := if by_pointer k then None else Some (mkType (spelled_kind k) (pair_toks it ot)).
Lemma read_value_ok : forall k it ot n arg r, (forall v, arg = Some v -> closed 0 (toks v) = true) ->
  read_value (alias_read k it ot) (value_toks k n arg ++ r) = Some (as_read k it ot, object_read k n arg, r).
Proof.
  intros k it ot n arg r H. unfold value_toks, alias_read, as_read.
  assert (W : forall a, alias_text k = Some a -> by_pointer k = false /\ is_word "new" (Word a) = false /\ text_eqb a a = true)
    by (intros a Ea; destruct k; try discriminate; injection Ea as <-; repeat split).
  assert (V : alias_text k = None -> by_pointer k = true) by (destruct k; auto; discriminate).
  destruct (alias_text k) as [a|]; cbn [option_map].
  - destruct (W a eq_refl) as (-> & N & T). unfold read_value. cbn [drop app]. rewrite N, T. cbn [is_punct Ascii.eqb Bool.eqb].
    rewrite <- !app_assoc. rewrite read_object_ok; auto.
  - rewrite (V eq_refl). unfold read_value. cbn [app]. change (drop [is_word "new"] (Word (txt "new") :: ?l)) with (Some l). cbv beta iota.
    rewrite <- app_assoc, read_object_ok; auto.
Qed.

Definition branch_read (k : outkind) (it ot n : text) (arg : option text) : branch := mkBranch n (var_text k) (as_read k it ot) (object_read k n arg).
Lemma read_branch_ok : forall k it ot n arg r, (forall v, arg = Some v -> closed 0 (toks v) = true) ->
  read_branch (alias_read k it ot) (case_toks k n arg ++ r) = Some (branch_read k it ot n arg, r).
Proof.
  intros k it ot n arg r H. unfold read_branch, case_toks. rewrite <- !app_assoc.
  change (drop _ ([Word (txt "if"); Punct "("; Word (txt "name"); Punct "="; Punct "="; Str n; Punct ")"; Punct "{"; Word (var_text k); Punct "="] ++ ?l))
    with (Some ([Str n; Punct ")"; Punct "{"; Word (var_text k); Punct "="] ++ l)).
  cbv beta iota. cbn [app].
  change (drop _ (Punct ")" :: Punct "{" :: ?l)) with (Some l). cbv beta iota.
  change (drop _ (Punct "=" :: ?l)) with (Some l). cbv beta iota. rewrite read_value_ok; auto.
Qed.

Lemma read_branches_ok : forall k it ot arg ns fuel after r, (forall v, arg = Some v -> closed 0 (toks v) = true) -> (List.length ns < fuel)%nat ->
  (after = true \/ ns <> [] \/ (k, arg) <> (KSimpleFunction, arg) \/ arg = None) ->
  read_branches fuel (alias_read k it ot) after (flat_map (fun n => case_toks k n arg) ns ++
    (match k, arg with KSimpleFunction, Some _ => [Word (txt "else")] | _, _ => [] end ++ throw_toks k it ot) ++ r) =
  Some (map (fun n => branch_read k it ot n arg) ns, r).
Proof.
  intros k it ot arg ns. induction ns as [|n ns IH]; intros fuel after r H F A; (destruct fuel as [|fuel]; [cbn in F; lia|]).
  - cbn [flat_map app map]. unfold read_branches.
    assert (B : read_branch (alias_read k it ot) ((match k, arg with KSimpleFunction, Some _ => [Word (txt "else")] | _, _ => [] end ++ throw_toks k it ot) ++ r) = None)
      by (destruct k, arg; reflexivity).
    rewrite B. clear B.
    assert (T : (if after then match drop [is_word "else"] ((match k, arg with KSimpleFunction, Some _ => [Word (txt "else")] | _, _ => [] end ++ throw_toks k it ot) ++ r) with
                              Some l1 => l1 | None => (match k, arg with KSimpleFunction, Some _ => [Word (txt "else")] | _, _ => [] end ++ throw_toks k it ot) ++ r end
                 else (match k, arg with KSimpleFunction, Some _ => [Word (txt "else")] | _, _ => [] end ++ throw_toks k it ot) ++ r) = throw_toks k it ot ++ r).
    { destruct after; [destruct k, arg; reflexivity|]. destruct A as [A|[A|[A|A]]]; try congruence; destruct k; try reflexivity; try congruence; subst arg; reflexivity. }
    rewrite T. reflexivity.
  - cbn [flat_map map]. cbn [read_branches]. rewrite <- app_assoc. rewrite read_branch_ok; auto. rewrite IH; auto. cbn in F. lia.
Qed.

Lemma read_alias_ok : forall k it ot r, closed 0 (pair_toks it ot) = true -> (exists t, nth_error r 0 = Some t /\ is_word "typedef" t = false) ->
  read_alias (match alias_text k with Some a => Word (txt "typedef") :: type_toks k it ot ++ [Word a; Punct ";"] | None => [] end ++ r) = Some (alias_read k it ot, r).
Proof.
  intros k it ot r H (t & T & N). unfold alias_read. destruct (alias_text k) as [a|]; cbn [option_map].
  - unfold read_alias. cbn [app]. change (drop [is_word "typedef"] (Word (txt "typedef") :: ?l)) with (Some l). cbv beta iota.
    rewrite <- app_assoc, read_type_ok; auto.
  - cbn [app]. unfold read_alias. destruct r as [|t' r]; [discriminate|]. injection T as ->. cbn [drop]. rewrite N. reflexivity.
Qed.

Definition def_read (k : outkind) (it ot : text) (arg : option text) (ns : list text) : func_def :=
  mkFunc (params_read k it ot) (map (fun n => branch_read k it ot n arg) ns).
Lemma case_toks_length : forall k n arg, (1 <= List.length (case_toks k n arg))%nat.
Proof. intros. unfold case_toks. cbn. lia. Qed.
Lemma read_def_ok : forall k it ot arg ns r, closed 0 (pair_toks it ot) = true -> (forall v, arg = Some v -> closed 0 (toks v) = true) ->
  (k = KSimpleFunction -> ns <> []) -> read_def (def_toks k it ot arg ns ++ r) = Some (def_read k it ot arg ns, r).
Proof.
  intros k it ot arg ns r H Hv Hn. unfold read_def, def_toks.
  set (al := match alias_text k with Some a => Word (txt "typedef") :: type_toks k it ot ++ [Word a; Punct ";"] | None => [] end).
  set (cs := flat_map (fun n => case_toks k n arg) ns).
  set (el := match k, arg with KSimpleFunction, Some _ => [Word (txt "else")] | _, _ => [] end).
  rewrite <- !app_assoc.
  change (drop _ ([Word (txt "void"); Word (txt "PLibrary"); Punct ":"; Punct ":"; Word (txt "checkout")] ++ ?l)) with (Some l). cbv beta iota.
  change ([Punct ")"; Punct "{"] ++ ?l) with (Punct ")" :: Punct "{" :: l).
  rewrite read_params_ok; auto. change (drop _ (Punct "{" :: ?l)) with (Some l). cbv beta iota.
  unfold al. rewrite read_alias_ok; auto.
  - rewrite (app_assoc el). unfold el, cs. rewrite read_branches_ok; auto.
    + rewrite !app_length. unfold throw_toks. cbn [List.length].
      assert (L : (List.length ns <= List.length (flat_map (fun n => case_toks k n arg) ns))%nat).
      { clear. induction ns as [|n ns IH]; cbn [flat_map List.length]; [lia|]. rewrite app_length. pose proof (case_toks_length k n arg). lia. }
      lia.
    + destruct k; auto; right; right; left; congruence.
  - unfold cs, el. destruct ns as [|n ns]; [destruct k, arg; cbn; eexists; split; reflexivity|]. cbn. eexists. split; reflexivity.
Qed.

(** Several in a row. *)
Lemma read_many_ok : forall (A B : Type) (read : list token -> option (B * list token)) (tk : A -> list token) (res : A -> B) l fuel r,
  (forall a r, In a l -> read (tk a ++ r) = Some (res a, r)) -> read r = None -> (List.length l <= fuel)%nat ->
  read_many fuel read (flat_map tk l ++ r) = (map res l, r).
Proof.
  intros A B read tk res l. induction l as [|a l IH]; intros fuel r H N F.
  - cbn [flat_map app map]. destruct fuel; cbn [read_many]; [reflexivity|]. now rewrite N.
  - destruct fuel as [|fuel]; [cbn in F; lia|]. cbn [flat_map read_many map]. rewrite <- app_assoc, H; [|now left].
    rewrite IH; auto; [intros; apply H; now right | cbn in F; lia].
Qed.

(** *** The blocks *)
Lemma flat_map_flat_map : forall (A B C : Type) (f : A -> list B) (g : B -> list C) l, flat_map g (flat_map f l) = flat_map (fun x => flat_map g (f x)) l.
Proof. intros A B C f g l. induction l as [|a l IH]; cbn; auto. now rewrite flat_map_app, IH. Qed.
Lemma flat_map_map : forall (A B C : Type) (f : A -> B) (g : B -> list C) l, flat_map g (map f l) = flat_map (fun x => g (f x)) l.
Proof. intros A B C f g l. induction l as [|a l IH]; cbn; auto. now rewrite IH. Qed.

Definition sig_text (s : sig) : text := decl_text (sg_kind s) (sg_in s) (sg_out s).
Lemma header_text_block_ok : forall var c es k t, holds_entries c es -> header_text_block var c k t = Ok (flat_map sig_text (header_pure var c k t)).
Proof.
  intros var c es k t H. unfold header_text_block, header_pure. rewrite flat_map_flat_map.
  rewrite (for_types_ok _ c _ (fun it ot => flat_map sig_text (if Nat.ltb 0 (List.length (names_at t c it ot)) then
    map (fun v => mkSig k (fst v) ot) (block_insts var (is_basis t) it) else []))).
  - f_equal. apply flat_map_ext. intros it. now rewrite flat_map_flat_map.
  - intros i j it ot Ei Eo. destruct (cell_at c es t i j it ot H Ei Eo) as [-> _]. cbn [obind].
    destruct (Nat.ltb 0 (List.length (names_at t c it ot))); auto. rewrite flat_map_map. unfold block_insts. destruct t; cbn; rewrite ?app_nil_r; reflexivity.
Qed.

(** The definitions with all that their text depends on. *)
Record row : Type := mkRow { r_kind : outkind; r_in : text; r_out : text; r_arg : option text; r_names : list text }.
Definition row_def (r : row) : checkout := mkCheckout (mkSig (r_kind r) (r_in r) (r_out r)) (map (fun n => (n, mkInst n (r_arg r))) (r_names r)).
Definition row_text (r : row) : text := def_text (r_kind r) (r_in r) (r_out r) (r_arg r) (r_names r).
Definition rows (var : list text) (c : coll) (k : outkind) (guards listed : list tab) (basis : bool) : list row :=
  flat_map (fun it => flat_map (fun ot =>
    if Nat.ltb 0 (List.length (flat_map (fun t => names_at t c it ot) guards)) then
      map (fun v => mkRow k (fst v) ot (snd v) (flat_map (fun t => names_at t c it ot) listed)) (block_insts var basis it)
    else []) (co_out c)) (co_in c).
Lemma rows_defs : forall var c k guards listed basis, map row_def (rows var c k guards listed basis) = source_pure var c k guards listed basis.
Proof.
  intros. unfold rows, source_pure. rewrite map_flat_map. apply flat_map_ext. intros it. rewrite map_flat_map. apply flat_map_ext. intros ot.
  destruct (Nat.ltb 0 (List.length (flat_map (fun t => names_at t c it ot) guards))); auto. rewrite map_map. reflexivity.
Qed.
Lemma source_text_block_ok : forall var c es k guards listed basis, holds_entries c es ->
  source_text_block var c k guards listed basis = Ok (flat_map row_text (rows var c k guards listed basis)).
Proof.
  intros var c es k guards listed basis H. unfold source_text_block, rows. rewrite flat_map_flat_map.
  rewrite (for_types_ok _ c _ (fun it ot => flat_map row_text (if Nat.ltb 0 (List.length (flat_map (fun t => names_at t c it ot) guards)) then
      map (fun v => mkRow k (fst v) ot (snd v) (flat_map (fun t => names_at t c it ot) listed)) (block_insts var basis it)
    else []))).
  - f_equal. apply flat_map_ext. intros it. now rewrite flat_map_flat_map.
  - intros i j it ot Ei Eo.
    assert (L : forall l, for_list (fun _ t => cell t c i j) 0 l = Ok (flat_map (fun t => names_at t c it ot) l)).
    { intros l. apply for_list_ok. intros i0 t _. now destruct (cell_at c es t i j it ot H Ei Eo) as [-> _]. }
    rewrite !L. cbn [obind]. destruct (Nat.ltb 0 (List.length (flat_map (fun t => names_at t c it ot) guards))); auto.
    rewrite flat_map_map. unfold block_insts. destruct basis; cbn; rewrite ?app_nil_r; reflexivity.
Qed.

Definition rows_all var c := rows var c KSimpleFunction [TSimple] [TSimple; TPwSimple] false ++ rows var c KFunction [TFunc] [TFunc] false ++
  rows var c KBasisSet [TBasis] [TBasis] true ++ rows var c KSimpleBase [TSimple; TPwSimple] [TSimple] false ++
  rows var c KFuncBase [TFunc; TPwFunc] [TFunc] false ++ rows var c KPwSimpleBase [TPwSimple] [TPwSimple] false ++
  rows var c KPwFuncBase [TPwFunc] [TPwFunc] false ++ rows var c KBasisSetBase [TBasis] [TBasis] true.
Lemma rows_all_defs : forall var c, map row_def (rows_all var c) = source_all var c.
Proof. intros. unfold rows_all, source_all. rewrite !map_app, !rows_defs. reflexivity. Qed.

(** What is in a row is offered. *)
Lemma row_offered : forall var c es r, holds_entries c es -> has_base es -> In r (rows_all var c) ->
  (exists n x, offered var es (mkSig (r_kind r) (r_in r) (r_out r)) n x) /\ (forall v, r_arg r = Some v -> In v var) /\
  (r_kind r = KSimpleFunction -> r_names r <> []) /\ (forall n, In n (r_names r) -> exists t it, In (t, it, r_out r, n) es).
Proof.
  intros var c es r H Hb Hr.
  assert (B : exists k guards listed basis, In r (rows var c k guards listed basis) /\ basis = is_basis (table_of k) /\ guards <> [] /\
    (forall t, In t guards -> base_of t = table_of k \/ t = table_of k) /\ (k = KSimpleFunction -> incl guards listed)).
  { unfold rows_all in Hr. rewrite !in_app_iff in Hr.
    destruct Hr as [Hr|[Hr|[Hr|[Hr|[Hr|[Hr|[Hr|Hr]]]]]]]; do 4 eexists; (split; [exact Hr|]); repeat split; try discriminate;
      try (intros t Ht; cbn in Ht; intuition (subst; auto; fail)); intros _ t Ht; cbn in *; intuition. }
  destruct B as (k & guards & listed & basis & Hin & Hbas & Hg & Hall & Hincl). unfold rows in Hin.
  apply in_flat_map in Hin. destruct Hin as (it & Hi & Hin). apply in_flat_map in Hin. destruct Hin as (ot & Ho & Hin).
  destruct (flat_map (fun t => names_at t c it ot) guards) as [|n0 l0] eqn:Eg; [contradiction|]. cbn [List.length Nat.ltb Nat.leb] in Hin.
  apply in_map_iff in Hin. destruct Hin as (v & <- & Hv). cbn [r_kind r_in r_out r_arg r_names].
  assert (Ent : forall t n, In n (names_at t c it ot) -> In (t, it, ot, n) es).
  { intros t n Hn. apply In_nth_error in Hi. destruct Hi as [i Ei]. apply In_nth_error in Ho. destruct Ho as [j Ej]. now apply (cell_at c es t i j it ot H Ei Ej). }
  assert (G0 : exists t, In t guards /\ In n0 (names_at t c it ot)).
  { assert (In n0 (flat_map (fun t => names_at t c it ot) guards)) by (rewrite Eg; now left). apply in_flat_map in H0. destruct H0 as (t & ? & ?). eauto. }
  destruct G0 as (t0 & Ht0 & Hn0).
  assert (E0 : In (table_of k, it, ot, n0) es).
  { apply Ent in Hn0. destruct (Hall t0 Ht0) as [<-| <-]; auto. }
  apply in_instances in Hv. repeat split.
  - exists n0. destruct Hv as [[-> Hd]|(Hd & -> & Hv & ->)]; cbn; eexists.
    + apply offered_typed; cbn; auto. destruct Hd as [Hd|Hd]; auto. right. rewrite Hbas in Hd. destruct (table_of k); auto; discriminate.
    + apply offered_container; cbn; auto. intros G. rewrite G in Hbas. cbn in Hbas. congruence.
  - intros w Hw. destruct Hv as [[-> Hd]|(Hd & -> & Hv & E)]; [discriminate|]. rewrite E in Hw. injection Hw as <-. exact Hv.
  - intros -> E. assert (X : In n0 (flat_map (fun t => names_at t c it ot) listed)) by (apply in_flat_map; exists t0; split; auto; apply (Hincl eq_refl); auto).
    rewrite E in X. contradiction.
  - intros n Hn. apply in_flat_map in Hn. destruct Hn as (t & _ & Hn). exists t, it. auto.
Qed.

(** *** The files *)
Lemma lex_plain_acc : forall w a out c, lex_plain w (a ++ out) c = (fst (lex_plain w a c), snd (lex_plain w a c) ++ out).
Proof.
  intros w a out c. unfold lex_plain. assert (F : flush w (a ++ out) = flush w a ++ out) by (destruct w; reflexivity).
  destruct (word_char c); [reflexivity|]. destruct (Ascii.eqb c quote); [now rewrite F|]. destruct (Ascii.eqb c "/"); [now rewrite F|].
  destruct (Ascii.eqb c "#"); [now rewrite F|]. destruct (space c); now rewrite F.
Qed.
Lemma lex_step_acc : forall m a out c, lex_step (m, a ++ out) c = (fst (lex_step (m, a) c), snd (lex_step (m, a) c) ++ out).
Proof.
  intros [w| | |s] a out c; cbn [lex_step].
  - apply lex_plain_acc.
  - destruct (Ascii.eqb c "/"); [reflexivity|]. apply (lex_plain_acc [] (Punct "/" :: a)).
  - destruct (Ascii.eqb c nl); reflexivity.
  - destruct (Ascii.eqb c quote); reflexivity.
Qed.
Lemma lex_acc : forall s m a out, lex (m, a ++ out) s = (fst (lex (m, a) s), snd (lex (m, a) s) ++ out).
Proof.
  intros s. induction s as [|c s IH]; intros m a out; [reflexivity|]. unfold lex in *. cbn [fold_left]. rewrite lex_step_acc.
  destruct (lex_step (m, a) c) as [m1 a1]. cbn [fst snd]. apply IH.
Qed.
Lemma lexes_lit : forall m s ts m', lex (m, []) s = (m', rev ts) -> lexes m s ts m'.
Proof. intros m s ts m' H out. rewrite <- (app_nil_l out) at 1. rewrite lex_acc, H. reflexivity. Qed.
Ltac litp :=
  match goal with |- lexes ?m ?s _ _ =>
    let ts := eval vm_compute in (rev (snd (lex (m, []) s))) in
    let m' := eval vm_compute in (fst (lex (m, []) s)) in
    exact (lexes_lit m s ts m' ltac:(vm_compute; reflexivity))
  end.

Lemma lexes_comment : forall s x, fst (lex (Plain [], []) s) = Skip -> snd (lex (Plain [], []) s) = [] -> ~ In nl x -> lexes (Plain []) (ln (s ++ x)) [] (Plain []).
Proof.
  intros s x F S H. unfold ln. rewrite <- app_assoc. change (@nil token) with (@nil token ++ [] ++ []).
  eapply lexes_app; [apply (lexes_lit _ _ [] Skip); rewrite <- F; destruct (lex (Plain [], []) s); cbn in *; congruence|].
  eapply lexes_app; [apply lexes_skip; auto|]. intros out. reflexivity.
Qed.
Lemma lexes_stamp : forall st, Forall one_line [st_created st; st_version st; st_url st; st_commit st] -> lexes (Plain []) (stamp_text st) [] (Plain []).
Proof.
  intros st H. inversion H as [|? ? H1 Ha]; subst. inversion Ha as [|? ? H2 Hb]; subst. inversion Hb as [|? ? H3 Hc]; subst. inversion Hc as [|? ? H4 _]; subst.
  unfold stamp_text. change (@nil token) with (@nil token ++ [] ++ [] ++ [] ++ []).
  repeat (eapply lexes_app; [apply lexes_comment; [reflexivity|reflexivity|assumption]|]). intros out. reflexivity.
Qed.
Lemma lexes_includes : forall fs, Forall one_line fs -> lexes (Plain []) (flat_map (fun f => ln (txt "#include """ ++ f ++ txt """")) fs) [] (Plain []).
Proof.
  intros fs H. replace (@nil token) with (flat_map (fun _ : text => @nil token) fs) by (clear; induction fs; auto).
  apply lexes_flat. intros f Hf. rewrite Forall_forall in H. apply lexes_comment; [reflexivity|reflexivity|]. intros G. apply in_app_iff in G. destruct G as [G|G].
  - exact (H f Hf G).
  - cbn in G. destruct G as [G|[]]. discriminate.
Qed.

Definition sig_toks (s : sig) : list token := decl_toks (sg_kind s) (sg_in s) (sg_out s).
Definition row_toks (r : row) : list token := def_toks (r_kind r) (r_in r) (r_out r) (r_arg r) (r_names r).

(** Lexing and reading are inverse to writing, for the whole files. *)
Section Files.
Variables (st : stamp) (var : list text) (c : coll) (es : list entry).
Hypothesis held : holds_entries c es.
Hypothesis based : has_base es.
Hypothesis ready : writable_library var es.
Hypothesis words : forall t it ot n, In (t, it, ot, n) es -> Forall (fun c => word_char c = true) n.
Hypothesis stamped : Forall one_line [st_created st; st_version st; st_url st; st_commit st].
Hypothesis files : Forall one_line (co_file c).

Lemma row_ready : forall r, In r (rows_all var c) ->
  writable (r_in r) /\ writable (r_out r) /\ closed 0 (pair_toks (r_in r) (r_out r)) = true /\ (forall v, r_arg r = Some v -> writable v /\ closed 0 (toks v) = true) /\
  (r_kind r = KSimpleFunction -> r_names r <> []) /\ (forall n, In n (r_names r) -> Forall (fun c => word_char c = true) n /\ n <> []).
Proof.
  intros r Hr. destruct (row_offered var c es r held based Hr) as ((n & x & Hof) & Ha & Hk & Hn).
  destruct (wl_types var es ready _ _ _ Hof) as (Wi & Wo & Cl). cbn in *. split; [exact Wi|]. split; [exact Wo|]. split; [exact Cl|]. split; [|split; [exact Hk|]].
  - intros v Hv. apply (wl_containers var es ready); auto.
  - intros n0 H. destruct (Hn n0 H) as (t & it & E). split; [eapply words; eauto | eapply (wl_names var es ready); eauto].
Qed.
Lemma sig_ready : forall s, In s (header_all var c) -> writable (sg_in s) /\ writable (sg_out s) /\ closed 0 (pair_toks (sg_in s) (sg_out s)) = true.
Proof.
  intros s Hs. rewrite <- (library_sigs var c es held based), <- rows_all_defs, map_map in Hs. apply in_map_iff in Hs. destruct Hs as (r & <- & Hr).
  destruct (row_ready r Hr) as (A & B & C & _). cbn. auto.
Qed.

Lemma header_file : exists t, header_text st var c = Ok t /\
  lexes (Plain []) t ([Word (txt "namespace"); Word (txt "PRISMS"); Punct "{"; Word (txt "namespace"); Word (txt "PLibrary"); Punct "{"] ++
    flat_map sig_toks (header_all var c) ++ [Punct "}"; Punct "}"]) (Plain []).
Proof.
  assert (B : forall k t, incl (header_pure var c k t) (header_all var c) ->
    lexes (Plain []) (flat_map sig_text (header_pure var c k t)) (flat_map sig_toks (header_pure var c k t)) (Plain [])).
  { intros k t I. apply lexes_flat. intros s Hs. destruct (sig_ready s (I s Hs)) as (A1 & A2 & _). apply lexes_decl; auto. }
  assert (I : forall k t l, In (k, t) l -> l = [(KSimpleFunction, TSimple); (KFunction, TFunc); (KBasisSet, TBasis); (KSimpleBase, TSimple); (KFuncBase, TFunc);
    (KPwSimpleBase, TPwSimple); (KPwFuncBase, TPwFunc); (KBasisSetBase, TBasis)] -> incl (header_pure var c k t) (header_all var c)).
  { intros k t l Hin -> s Hs. unfold header_all. rewrite !in_app_iff. cbn in Hin. intuition (match goal with E : (_, _) = (_, _) |- _ => injection E as <- <- end; tauto). }
  unfold header_text. rewrite !(header_text_block_ok var c es _ _ held). cbn [obind]. eexists. split; [reflexivity|].
  evar (T : list token). assert (L : lexes (Plain []) (stamp_text st ++
      ln (txt "#ifndef PLIBRARY_HH") ++ ln (txt "#define PLIBRARY_HH") ++ ln [] ++ ln (txt "#include<cstring>") ++ ln (txt "#include<vector>") ++
      ln (txt "#include ""IntegrationTools/PFunction.hh""") ++ ln (txt "#include ""IntegrationTools/PPieceWise.hh""") ++ ln [] ++
      ln (txt "namespace PRISMS") ++ ln (txt "{") ++ ln [] ++ ln (txt "    /// Library where you can find functions and basis sets") ++ ln (txt "    ///") ++
      ln (txt "    namespace PLibrary") ++ ln (txt "    {") ++
      ln (txt "        // Use these functions to checkout objects which manage their own memory") ++ ln [] ++
      flat_map sig_text (header_pure var c KSimpleFunction TSimple) ++ ln [] ++ flat_map sig_text (header_pure var c KFunction TFunc) ++ ln [] ++
      flat_map sig_text (header_pure var c KBasisSet TBasis) ++ ln [] ++ ln [] ++ ln [] ++
      ln (txt "        // Use these functions to checkout new 'Base' objects which the user must delete") ++ ln [] ++
      flat_map sig_text (header_pure var c KSimpleBase TSimple) ++ ln [] ++ flat_map sig_text (header_pure var c KFuncBase TFunc) ++ ln [] ++
      flat_map sig_text (header_pure var c KPwSimpleBase TPwSimple) ++ ln [] ++ flat_map sig_text (header_pure var c KPwFuncBase TPwFunc) ++ ln [] ++
      flat_map sig_text (header_pure var c KBasisSetBase TBasis) ++
      ln (txt "    }") ++ ln [] ++ ln (txt "}") ++ ln [] ++ ln [] ++ ln (txt "#endif")) T (Plain [])).
  { unfold T. eapply lexes_app; [apply lexes_stamp; exact stamped|].
    repeat (match goal with |- lexes _ (_ ++ _) _ _ => eapply lexes_app; [first [apply B; eapply I; [|reflexivity]; cbn; tauto | litp]|] | |- _ => litp end). }
  replace ([Word (txt "namespace"); Word (txt "PRISMS"); Punct "{"; Word (txt "namespace"); Word (txt "PLibrary"); Punct "{"] ++
    flat_map sig_toks (header_all var c) ++ [Punct "}"; Punct "}"]) with T; [exact L|].
  unfold T, header_all. rewrite !flat_map_app. cbn [app]. rewrite <- !app_assoc. reflexivity.
Qed.

Lemma source_file : exists t, source_text st var c = Ok t /\
  lexes (Plain []) t ([Word (txt "namespace"); Word (txt "PRISMS"); Punct "{"] ++ flat_map row_toks (rows_all var c) ++ [Punct "}"]) (Plain []).
Proof.
  assert (B : forall k g l b, incl (rows var c k g l b) (rows_all var c) ->
    lexes (Plain []) (flat_map row_text (rows var c k g l b)) (flat_map row_toks (rows var c k g l b)) (Plain [])).
  { intros k g l b I. apply lexes_flat. intros r Hr. destruct (row_ready r (I r Hr)) as (A1 & A2 & _ & A4 & _ & A6). apply lexes_def; auto. intros v Hv. apply (A4 v Hv). }
  assert (I : forall k g m b l, In (k, g, m, b) l -> l = [(KSimpleFunction, [TSimple], [TSimple; TPwSimple], false); (KFunction, [TFunc], [TFunc], false); (KBasisSet, [TBasis], [TBasis], true);
    (KSimpleBase, [TSimple; TPwSimple], [TSimple], false); (KFuncBase, [TFunc; TPwFunc], [TFunc], false); (KPwSimpleBase, [TPwSimple], [TPwSimple], false);
    (KPwFuncBase, [TPwFunc], [TPwFunc], false); (KBasisSetBase, [TBasis], [TBasis], true)] -> incl (rows var c k g m b) (rows_all var c)).
  { intros k g m b l Hin -> s Hs. unfold rows_all. rewrite !in_app_iff. cbn in Hin. intuition (match goal with E : (_, _) = (_, _) |- _ => injection E as <- <- <- <- end; tauto). }
  unfold source_text. rewrite !(source_text_block_ok var c es _ _ _ _ held). cbn [obind]. eexists. split; [reflexivity|].
  evar (T : list token). assert (L : lexes (Plain []) (stamp_text st ++
      ln (txt "#ifndef PLIBRARY_CC") ++ ln (txt "#define PLIBRARY_CC") ++ ln [] ++ ln (txt "#include<cstring>") ++ ln (txt "#include<stdexcept>") ++
      ln (txt "#include<vector>") ++ flat_map (fun f => ln (txt "#include """ ++ f ++ txt """")) (co_file c) ++ ln (txt "#include ""PLibrary.hh""") ++ ln [] ++
      ln (txt "namespace PRISMS") ++ ln (txt "{") ++ ln [] ++
      flat_map row_text (rows var c KSimpleFunction [TSimple] [TSimple; TPwSimple] false) ++ ln [] ++ flat_map row_text (rows var c KFunction [TFunc] [TFunc] false) ++ ln [] ++
      flat_map row_text (rows var c KBasisSet [TBasis] [TBasis] true) ++ ln [] ++ ln [] ++ ln [] ++
      flat_map row_text (rows var c KSimpleBase [TSimple; TPwSimple] [TSimple] false) ++ ln [] ++ flat_map row_text (rows var c KFuncBase [TFunc; TPwFunc] [TFunc] false) ++ ln [] ++
      flat_map row_text (rows var c KPwSimpleBase [TPwSimple] [TPwSimple] false) ++ ln [] ++ flat_map row_text (rows var c KPwFuncBase [TPwFunc] [TPwFunc] false) ++ ln [] ++
      flat_map row_text (rows var c KBasisSetBase [TBasis] [TBasis] true) ++
      ln [] ++ ln (txt "}") ++ ln [] ++ ln [] ++ ln (txt "#endif")) T (Plain [])).
  { unfold T. eapply lexes_app; [apply lexes_stamp; exact stamped|].
    repeat (match goal with |- lexes _ (_ ++ _) _ _ => eapply lexes_app; [first [apply lexes_includes; exact files | apply B; eapply I; [|reflexivity]; cbn; tauto | litp]|] | |- _ => litp end). }
  replace ([Word (txt "namespace"); Word (txt "PRISMS"); Punct "{"] ++ flat_map row_toks (rows_all var c) ++ [Punct "}"]) with T; [exact L|].
  unfold T, rows_all. rewrite !flat_map_app. cbn [app]. rewrite <- !app_assoc. reflexivity.
Qed.
End Files.

Lemma tokens_of : forall t T, lexes (Plain []) t T (Plain []) -> tokens t = Some T.
Proof. intros t T H. unfold tokens. rewrite (H []), app_nil_r. cbn [flush]. now rewrite rev_involutive. Qed.
Lemma flat_map_length_le : forall (A B : Type) (f : A -> list B) l, (forall a, f a <> []) -> (List.length l <= List.length (flat_map f l))%nat.
Proof.
  intros A B f l H. induction l as [|a l IH]; cbn; [lia|]. rewrite app_length. specialize (H a). destruct (f a); [congruence|]. cbn. lia.
Qed.

Lemma read_header_ok : forall t sigs, lexes (Plain []) t ([Word (txt "namespace"); Word (txt "PRISMS"); Punct "{"; Word (txt "namespace"); Word (txt "PLibrary"); Punct "{"] ++
    flat_map sig_toks sigs ++ [Punct "}"; Punct "}"]) (Plain []) ->
  (forall s, In s sigs -> closed 0 (pair_toks (sg_in s) (sg_out s)) = true) ->
  read_header t = Some (map (fun s => params_read (sg_kind s) (sg_in s) (sg_out s)) sigs).
Proof.
  intros t sigs L H. unfold read_header. rewrite (tokens_of t _ L).
  change (drop _ ([Word (txt "namespace"); Word (txt "PRISMS"); Punct "{"; Word (txt "namespace"); Word (txt "PLibrary"); Punct "{"] ++ ?l)) with (Some l). cbv beta iota.
  rewrite (read_many_ok _ _ read_decl sig_toks (fun s => params_read (sg_kind s) (sg_in s) (sg_out s))); auto.
  - intros s r Hs. apply read_decl_ok. auto.
  - rewrite app_length. pose proof (flat_map_length_le _ _ sig_toks sigs (fun s => ltac:(discriminate))). lia.
Qed.
Lemma read_source_ok : forall t rs, lexes (Plain []) t ([Word (txt "namespace"); Word (txt "PRISMS"); Punct "{"] ++ flat_map row_toks rs ++ [Punct "}"]) (Plain []) ->
  (forall r, In r rs -> closed 0 (pair_toks (r_in r) (r_out r)) = true /\ (forall v, r_arg r = Some v -> closed 0 (toks v) = true) /\ (r_kind r = KSimpleFunction -> r_names r <> [])) ->
  read_source t = Some (map (fun r => def_read (r_kind r) (r_in r) (r_out r) (r_arg r) (r_names r)) rs).
Proof.
  intros t rs L H. unfold read_source. rewrite (tokens_of t _ L).
  change (drop _ ([Word (txt "namespace"); Word (txt "PRISMS"); Punct "{"] ++ ?l)) with (Some l). cbv beta iota.
  rewrite (read_many_ok _ _ read_def row_toks (fun r => def_read (r_kind r) (r_in r) (r_out r) (r_arg r) (r_names r))); auto.
  - intros s r Hs. destruct (H s Hs) as (A & B & C). apply read_def_ok; auto.
  - rewrite app_length. pose proof (flat_map_length_le _ _ row_toks rs (fun s => ltac:(discriminate))). lia.
Qed.

Lemma Forall2_map_both : forall (A B C : Type) (R : B -> C -> Prop) (f : A -> B) (g : A -> C) l, (forall a, In a l -> R (f a) (g a)) -> Forall2 R (map f l) (map g l).
Proof. intros A B C R f g l. induction l as [|a l IH]; intros H; cbn; constructor; [apply H; now left | apply IH; intros; apply H; now right]. Qed.

Lemma row_def_of : forall r, def_of (row_def r) (def_read (r_kind r) (r_in r) (r_out r) (r_arg r) (r_names r)).
Proof.
  intros [k it ot arg ns]. split; [repeat split|]. cbn [row_def ck_cases ck_sig fn_branches def_read r_kind r_in r_out r_arg r_names].
  apply Forall2_map_both. intros n _. repeat split.
Qed.

(** Names are words. *)
Lemma entries_words : forall fs t it ot n, In (t, it, ot, n) (all_entries fs) -> Forall (fun c => word_char c = true) n.
Proof.
  intros fs t it ot n H. unfold all_entries in H. apply in_flat_map in H. destruct H as (f & _ & H). unfold file_entries in H. apply in_flat_map in H. destruct H as (line & _ & H).
  unfold entries in H.
  assert (G : forall ks, incl ks filing -> In (t, it, ot, n) (first_decl ks line) -> Forall (fun c => word_char c = true) n).
  { intros ks. induction ks as [|(cls, tabs) ks IH]; intros I D; [contradiction|]. cbn in D.
    destruct (find_class cls line) as [((n', i'), o')|] eqn:E.
    - apply in_map_iff in D. destruct D as (t' & [= -> -> -> ->] & _).
      apply (find_class_iff cls line n it ot) in E; [|apply (kinds_words (cls, tabs)), I; now left].
      destruct E as (pre & s & _ & D & _). inversion D. assumption.
    - apply IH; auto. intros x Hx. apply I. now right. }
  apply (G filing (incl_refl _) H).
Qed.

Lemma library_text : forall fs fuel c var st sigs defs, (forall f t, In (f, Some t) fs -> List.length t + 1 < fuel)%nat -> (0 < fuel)%nat ->
  collect fuel fs coll_empty = RRet c tt -> write_header var c = Ok sigs -> write_source var c = Ok defs ->
  writable_library var (all_entries fs) -> Forall one_line [st_created st; st_version st; st_url st; st_commit st] -> Forall (fun f => one_line (fst f)) fs ->
  exists ht src ds fds, header_text st var c = Ok ht /\ source_text st var c = Ok src /\ read_header ht = Some ds /\ Forall2 params_of sigs ds /\
    read_source src = Some fds /\ Forall2 def_of defs fds.
Proof.
  intros fs fuel c var st sigs defs Hf H0 E Wh Ws R St Fs. destruct (collected fs fuel c Hf H0 E) as (H & Hb & _).
  assert (Ff : Forall one_line (co_file c)).
  { destruct (collect_spec fs fuel Hf H0) as [[_ G]|[_ (c' & G & _ & _ & _ & G')]]; [congruence|]. assert (c' = c) by congruence. subst c'.
    apply Forall_forall. intros g Hg. apply G' in Hg. destruct Hg as (fc & Hin & -> & _). rewrite Forall_forall in Fs. auto. }
  rewrite (write_header_ok var c _ H) in Wh. injection Wh as <-. rewrite (write_source_ok var c _ H) in Ws. injection Ws as <-.
  destruct (header_file st var c _ H Hb R (entries_words fs) St) as (ht & Eh & Lh).
  destruct (source_file st var c _ H Hb R (entries_words fs) St Ff) as (src & Es & Ls).
  exists ht, src, (map (fun s => params_read (sg_kind s) (sg_in s) (sg_out s)) (header_all var c)),
    (map (fun r => def_read (r_kind r) (r_in r) (r_out r) (r_arg r) (r_names r)) (rows_all var c)).
  split; [exact Eh|]. split; [exact Es|]. split; [|split; [|split]].
  - apply read_header_ok; auto. intros s Hs. apply (sig_ready var c _ H Hb R (entries_words fs) s Hs).
  - rewrite <- (map_id (header_all var c)) at 1. apply Forall2_map_both. intros s _. repeat split.
  - apply read_source_ok; auto. intros r Hr. destruct (row_ready var c _ H Hb R (entries_words fs) r Hr) as (_ & _ & A & B & C & _). split; auto. split; auto.
    intros v Hv. apply (B v Hv).
  - rewrite <- rows_all_defs. apply Forall2_map_both. intros r _. apply row_def_of.
Qed.

(** Calling the function read from the text. *)
Lemma call_same : forall f d n, def_of f d ->
  (forall x, run_checkout f n = Ok x -> exists b, call_def d n = Ok b /\ hands_out (ck_sig f) (fn_params d) n x b) /\
  (run_checkout f n = Throw RuntimeError -> call_def d n = Throw RuntimeError).
Proof.
  intros f d n [_ F]. unfold run_checkout, call_def. induction F as [|[m x] b cs bs Hb F IH]; cbn; [split; [discriminate|auto]|].
  destruct Hb as (Nm & Hb). cbn in Nm. rewrite <- Nm. cbn. destruct (text_eqb n (br_name b)) eqn:E.
  - split; [|discriminate]. intros y [= <-]. exists b. split; auto. apply text_eqb_eq in E. subst n. split; auto.
  - exact IH.
Qed.
