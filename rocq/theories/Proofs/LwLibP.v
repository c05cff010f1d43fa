(** Proofs about the generated library as a whole: independence of order and layout, and what the C interface needs. *)
From Coq Require Import ZArith Lia List Bool Ascii String Permutation.
From Verif Require Import Model.Outcome Model.Stream Model.Lw Model.LwText Spec.Lw Spec.LwText Proofs.LwP Proofs.LwGenP Proofs.LwRegexP Proofs.LwTextP.
Import ListNotations.

(** *** Which functions there are *)
Lemma declared_iff : forall fs fuel c var sigs s, (forall f t, In (f, Some t) fs -> List.length t + 1 < fuel)%nat -> (0 < fuel)%nat ->
  collect fuel fs coll_empty = RRet c tt -> write_header var c = Ok sigs -> In s sigs <-> provided var (all_entries fs) s.
Proof.
  intros fs fuel c var sigs s Hf H0 E W. destruct (collected fs fuel c Hf H0 E) as (H & Hb & _).
  rewrite (write_header_ok var c _ H) in W. injection W as <-.
  assert (O : In s (header_all var c) <-> exists n x, offered var (all_entries fs) s n x).
  { rewrite <- (library_sigs var c _ H Hb). split.
    - rewrite <- rows_all_defs, map_map. intros G. apply in_map_iff in G. destruct G as (r & <- & Hr). apply (row_offered var c _ r H Hb Hr).
    - intros (n & x & G). destruct (library_complete var c _ s n x H G) as (f & Hin & <- & _). now apply in_map. }
  rewrite O. split.
  - intros (n & x & [A B|A B C]); exists n; [left | right]; auto.
  - intros (n & [[A B]|(A & B & C)]); exists n; eexists; [eapply offered_typed | eapply offered_container]; eauto.
Qed.

(** *** Order *)
Lemma offered_perm : forall var var' es es' s n x, Permutation var var' -> Permutation es es' -> offered var es s n x -> offered var' es' s n x.
Proof.
  intros var var' es es' s n x Pv Pe [A B|A B C]; [apply offered_typed | apply offered_container]; auto; eapply Permutation_in; eauto.
Qed.

Lemma collect_order : forall fs fs' fuel, (forall f t, In (f, Some t) (fs ++ fs') -> List.length t + 1 < fuel)%nat -> (0 < fuel)%nat -> Permutation (all_entries fs) (all_entries fs') ->
  (collect fuel fs coll_empty = RExit /\ collect fuel fs' coll_empty = RExit) \/
  (exists c c', collect fuel fs coll_empty = RRet c tt /\ collect fuel fs' coll_empty = RRet c' tt).
Proof.
  intros fs fs' fuel Hf H0 P.
  assert (F1 : forall f t, In (f, Some t) fs -> (List.length t + 1 < fuel)%nat) by (intros; eapply Hf; apply in_app_iff; eauto).
  assert (F2 : forall f t, In (f, Some t) fs' -> (List.length t + 1 < fuel)%nat) by (intros; eapply Hf; apply in_app_iff; eauto).
  destruct (collect_spec fs fuel F1 H0) as [[N G]|[N (c & G & _)]]; destruct (collect_spec fs' fuel F2 H0) as [[N' G']|[N' (c' & G' & _)]].
  - left. auto.
  - exfalso. apply N. eapply Permutation_NoDup; [apply Permutation_sym|]; eauto.
  - exfalso. apply N'. eapply Permutation_NoDup; eauto.
  - right. eauto.
Qed.

Lemma library_order : forall fs fs' fuel c c' var var' defs defs', (forall f t, In (f, Some t) (fs ++ fs') -> List.length t + 1 < fuel)%nat -> (0 < fuel)%nat ->
  Permutation (all_entries fs) (all_entries fs') -> Permutation var var' ->
  collect fuel fs coll_empty = RRet c tt -> collect fuel fs' coll_empty = RRet c' tt -> write_source var c = Ok defs -> write_source var' c' = Ok defs' ->
  NoDup var -> (forall v t ot n, In v var -> v <> txt "VarContainer" -> ~ In (t, v, ot, n) (all_entries fs)) ->
  Permutation (map ck_sig defs) (map ck_sig defs') /\
  forall f f' n, In f defs -> In f' defs' -> ck_sig f = ck_sig f' -> run_checkout f n = run_checkout f' n.
Proof.
  intros fs fs' fuel c c' var var' defs defs' Hf H0 P Pv E E' W W' Nv Hd.
  assert (F1 : forall f t, In (f, Some t) fs -> (List.length t + 1 < fuel)%nat) by (intros; eapply Hf; apply in_app_iff; eauto).
  assert (F2 : forall f t, In (f, Some t) fs' -> (List.length t + 1 < fuel)%nat) by (intros; eapply Hf; apply in_app_iff; eauto).
  assert (Nv' : NoDup var') by (eapply Permutation_NoDup; eauto).
  assert (Hd' : forall v t ot n, In v var' -> v <> txt "VarContainer" -> ~ In (t, v, ot, n) (all_entries fs')).
  { intros v t ot n Hv Hc G. eapply Hd; [eapply Permutation_in; [apply Permutation_sym|]; eauto | exact Hc | eapply Permutation_in; [apply Permutation_sym|]; eauto]. }
  destruct (checkout_exact fs fuel c var defs F1 H0 E W Nv Hd) as [N R]. destruct (checkout_exact fs' fuel c' var' defs' F2 H0 E' W' Nv' Hd') as [N' R'].
  destruct (library_spec fs fuel c var F1 H0 E) as (sg & df & Wh & Ws & Es). assert (df = defs) by congruence. subst df.
  destruct (library_spec fs' fuel c' var' F2 H0 E') as (sg' & df' & Wh' & Ws' & Es'). assert (df' = defs') by congruence. subst df'.
  split.
  - apply NoDup_Permutation; auto. intros s. rewrite Es, Es', (declared_iff fs fuel c var sg s F1 H0 E Wh), (declared_iff fs' fuel c' var' sg' s F2 H0 E' Wh').
    unfold provided. split; intros (n & [[A B]|(A & B & C)]); exists n.
    + left. split; auto. eapply Permutation_in; eauto.
    + right. split; [|split; auto]; eapply Permutation_in; eauto.
    + left. split; auto. eapply Permutation_in; [apply Permutation_sym|]; eauto.
    + right. split; [|split; auto]; (eapply Permutation_in; [apply Permutation_sym|]; eauto).
  - intros f f' n Hin Hin' Eq. destruct (R f n Hin) as [R1 R2]. destruct (R' f' n Hin') as [R1' R2'].
    destruct (checkout_spec fs fuel c var defs F1 H0 E W) as [_ Q]. destruct (Q f n Hin) as [(x & Ex & Hx)|Ex].
    + rewrite Ex. symmetry. apply R1'. rewrite <- Eq. eapply offered_perm; eauto.
    + rewrite Ex. symmetry. apply R2'. intros x Hx. rewrite <- Eq in Hx.
      assert (G : offered var (all_entries fs) (ck_sig f) n x) by (eapply offered_perm; [apply Permutation_sym| apply Permutation_sym|]; eauto).
      apply R1 in G. congruence.
Qed.

(** *** Everything handed out is included *)
Lemma library_included : forall fs fuel c var defs f n x, (forall f t, In (f, Some t) fs -> List.length t + 1 < fuel)%nat -> (0 < fuel)%nat ->
  collect fuel fs coll_empty = RRet c tt -> write_source var c = Ok defs -> In f defs -> run_checkout f n = Ok x ->
  exists file content t it ot, In (file, content) fs /\ In (t, it, ot, in_class x) (file_entries (file, content)) /\ In file (co_file c).
Proof.
  intros fs fuel c var defs f n x Hf H0 E W Hin R. destruct (checkout_spec fs fuel c var defs Hf H0 E W) as [_ Q].
  destruct (Q f n Hin) as [(y & Ey & Hy)|Ey]; [|congruence]. assert (y = x) by congruence. subst y.
  assert (G : exists t it ot, In (t, it, ot, in_class x) (all_entries fs)) by (destruct Hy; cbn; eauto).
  destruct G as (t & it & ot & G). unfold all_entries in G. apply in_flat_map in G. destruct G as ((file, content) & Hfile & G).
  exists file, content, t, it, ot. split; auto. split; auto.
  destruct (collect_spec fs fuel Hf H0) as [[_ K]|[_ (c' & K & _ & _ & _ & K')]]; [congruence|]. assert (c' = c) by congruence. subst c'.
  apply K'. exists (file, content). split; auto. split; auto. intros Z. rewrite Z in G. contradiction.
Qed.

(** *** The C interface *)
Lemma extern_subset : incl extern_called extern_declared.
Proof. intros s H. cbn in H. unfold extern_declared. destruct H as [<-|[<-|[<-|[<-|[<-|[]]]]]]; repeat (first [left; reflexivity | right]). Qed.

Lemma extern_iff : forall fs fuel c var sigs, (forall f t, In (f, Some t) fs -> List.length t + 1 < fuel)%nat -> (0 < fuel)%nat ->
  collect fuel fs coll_empty = RRet c tt -> write_header var c = Ok sigs ->
  incl extern_called sigs <->
  (exists n, In (TSimple, txt "double*", txt "double", n) (all_entries fs) \/ In (TSimple, txt "VarContainer", txt "double", n) (all_entries fs) /\ In (txt "double*") var) /\
  (exists n, In (TSimple, txt "double", txt "double", n) (all_entries fs) \/ In (TSimple, txt "VarContainer", txt "double", n) (all_entries fs) /\ In (txt "double") var) /\
  (exists n, In (TFunc, txt "double*", txt "double", n) (all_entries fs) \/ In (TFunc, txt "VarContainer", txt "double", n) (all_entries fs) /\ In (txt "double*") var) /\
  (exists n, In (TBasis, txt "double", txt "double", n) (all_entries fs)).
Proof.
  intros fs fuel c var sigs Hf H0 E W. assert (D := fun s => declared_iff fs fuel c var sigs s Hf H0 E W).
  assert (V1 : txt "double*" <> txt "VarContainer") by discriminate. assert (V2 : txt "double" <> txt "VarContainer") by discriminate.
  split.
  - intros I. repeat split.
    + destruct (proj1 (D _) (I _ (or_introl eq_refl))) as (n & [[A B]|(A & B & C)]); cbn in *; eauto.
    + destruct (proj1 (D _) (I _ (or_intror (or_introl eq_refl)))) as (n & [[A B]|(A & B & C)]); cbn in *; eauto.
    + destruct (proj1 (D _) (I _ (or_intror (or_intror (or_introl eq_refl))))) as (n & [[A B]|(A & B & C)]); cbn in *; eauto.
    + destruct (proj1 (D _) (I _ (or_intror (or_intror (or_intror (or_introl eq_refl)))))) as (n & [[A B]|(A & B & C)]); cbn in *; [eauto|congruence].
  - intros ((n1 & A1) & (n2 & A2) & (n3 & A3) & (n4 & A4)) s Hs. apply D. unfold provided. cbn in Hs.
    destruct Hs as [<-|[<-|[<-|[<-|[<-|[]]]]]]; cbn [sg_kind sg_in sg_out table_of].
    + exists n1. destruct A1 as [A|[A B]]; [left | right]; auto. split; [|split]; auto. discriminate.
    + exists n2. destruct A2 as [A|[A B]]; [left | right]; auto. split; [|split]; auto. discriminate.
    + exists n3. destruct A3 as [A|[A B]]; [left | right]; auto. split; [|split]; auto. discriminate.
    + exists n4. left. auto.
    + exists n4. left. auto.
Qed.

(** *** Layout *)
Lemma lex_blank : forall b w, blank b -> exists w', lexes (Plain w) b (if match b with [] => true | _ => false end then [] else flushed w) (Plain w') /\
  (b = [] -> w' = w) /\ (b <> [] -> w' = []).
Proof.
  intros b. induction b as [|c b IH]; intros w H.
  - exists w. split; [apply lexes_nil|]. split; [auto|congruence].
  - inversion H as [|? ? Hc Hb]; subst. destruct (IH [] Hb) as (w' & L & E1 & E2). exists [].
    assert (w' = []) by (destruct b; [apply E1; auto | apply E2; discriminate]). subst w'.
    split; [|split; [discriminate|auto]]. intros out. unfold lex. cbn [fold_left lex_step]. unfold lex_plain.
    assert (F : word_char c = false /\ Ascii.eqb c quote = false /\ Ascii.eqb c "/" = false /\ Ascii.eqb c "#" = false).
    { unfold space in Hc. destruct c as [[] [] [] [] [] [] [] []]; try discriminate Hc; repeat split. }
    destruct F as (-> & -> & -> & ->). rewrite Hc. unfold lexes, lex in L. rewrite L. rewrite flush_acc. destruct b; reflexivity.
Qed.

Lemma toks_parts : forall t, lexable t -> exists w ts, lexes (Plain []) t ts (Plain w) /\ toks t = ts ++ flushed w.
Proof.
  intros t W. destruct (lex_lexable t [] W) as (w & ts & L & E). exists w, ts. split; auto. unfold toks. rewrite E, flush_acc, rev_app_distr, !rev_involutive. reflexivity.
Qed.
Lemma toks_lexed : forall t ts w, lexes (Plain []) t ts (Plain w) -> toks t = ts ++ flushed w.
Proof. intros t ts w L. unfold toks. rewrite (L []), app_nil_r, flush_acc, rev_app_distr, !rev_involutive. reflexivity. Qed.

Lemma toks_blank_behind : forall t b, lexable t -> blank b -> toks (t ++ b) = toks t.
Proof.
  intros t b W B. destruct (toks_parts t W) as (w & ts & L & ->). destruct (lex_blank b w B) as (w' & Lb & E1 & E2).
  rewrite (toks_lexed (t ++ b) _ _ (lexes_app _ _ _ _ _ _ _ L Lb)). destruct b as [|c b].
  - rewrite (E1 eq_refl), app_nil_r. reflexivity.
  - rewrite E2; [|discriminate]. cbn [flushed flush rev]. now rewrite app_nil_r.
Qed.
Lemma toks_blank_before : forall t b, lexable t -> blank b -> toks (b ++ t) = toks t.
Proof.
  intros t b W B. destruct (lex_blank b [] B) as (w' & Lb & E1 & E2). assert (w' = []) by (destruct b; [now apply E1 | apply E2; discriminate]). subst w'.
  destruct (toks_parts t W) as (w & ts & L & ->). rewrite (toks_lexed (b ++ t) _ _ (lexes_app _ _ _ _ _ _ _ Lb L)). destruct b; reflexivity.
Qed.
Lemma toks_comma : forall a b, writable a -> lexable b -> toks (a ++ txt "," ++ b) = toks a ++ [Punct ","] ++ toks b.
Proof.
  intros a b Wa Wb. destruct (toks_parts b Wb) as (w & ts & L & ->). rewrite app_assoc.
  assert (S : sep (txt ",") [Punct ","]) by slit.
  rewrite (toks_lexed ((a ++ txt ",") ++ b) _ _ (lexes_app _ _ _ _ _ _ _ (lexes_type a (txt ",") [Punct ","] Wa S) L)). rewrite <- !app_assoc. reflexivity.
Qed.
Lemma writable_app : forall a b, writable (a ++ b) <-> writable a /\ writable b.
Proof.
  intros a b. unfold writable. split; [intros H; split; intros c Hc; apply H; apply in_app_iff; auto|]. intros [A B] c Hc. apply in_app_iff in Hc. destruct Hc; auto.
Qed.

Lemma last_comma : forall o, In ","%char o -> exists o1 o2, o = o1 ++ txt "," ++ o2 /\ ~ In ","%char o2.
Proof.
  intros o. induction o as [|c o IH]; [contradiction|]. intros H.
  destruct (in_dec ascii_dec ","%char o) as [G|G].
  - destruct (IH G) as (o1 & o2 & -> & N). exists (c :: o1), o2. split; [reflexivity|exact N].
  - destruct H as [-> |H]; [|contradiction]. exists [], o. split; [reflexivity|exact G].
Qed.

Lemma spelled_found_any : forall cls n i o w8 w9 line, starts_word cls -> writable i -> writable o -> spelled cls n i o [w8; w9] line ->
  exists it ot, find_class cls line = Some (n, it, ot) /\ pair_toks it ot = pair_toks i o /\
    (it = txt "VarContainer" <-> i = txt "VarContainer" /\ w8 = [] /\ ~ In ","%char o).
Proof.
  intros cls n i o w8 w9 line Hc Wi Wo Hs. destruct (spelled_cases cls n i o w8 w9 line Hc Hs) as [S1 S2].
  assert (B : blank w8 /\ blank w9 /\ ~ ends_blank i).
  { inversion Hs as [w0 w1 w2 w3 w4 w5 w6 w7 w8' w9' post Hb H1 H4 Hn Hn0 Hi Hie Hi0 Hos Hoe Ho0 Hp E8 E]; subst. rewrite Forall_forall in Hb.
    repeat split; auto; apply Hb; cbn; tauto. }
  destruct B as (B8 & B9 & Ie).
  destruct (in_dec ascii_dec ","%char o) as [G|G].
  - destruct (last_comma o G) as (o1 & o2 & -> & N). destruct (S2 o1 o2 eq_refl N) as (w7 & w & r & B7 & Er & Bw & Hr & F).
    exists (i ++ w8 ++ txt "," ++ w7 ++ o1), r. split; auto.
    apply writable_app in Wo. destruct Wo as [W1 W2]. apply (proj1 (writable_app (txt ",") o2)) in W2. destruct W2 as [_ W2].
    assert (P : toks (i ++ w8 ++ txt "," ++ w7 ++ o1) = toks i ++ [Punct ","] ++ toks o1).
    { destruct (toks_parts i (writable_lexable i Wi)) as (w' & ts & L & Ei). destruct (lex_blank w8 w' B8) as (w'' & Lb & E1 & E2).
      assert (S : sep (txt ",") [Punct ","]) by slit. destruct (lex_blank w7 [] B7) as (w3 & L7 & E3 & E4).
      assert (w3 = []) by (destruct w7; [now apply E3 | apply E4; discriminate]). subst w3.
      destruct (toks_parts o1 (writable_lexable o1 W1)) as (w4 & ts4 & L4 & E5).
      rewrite (toks_lexed _ _ _ (lexes_app _ _ _ _ _ _ _ L (lexes_app _ _ _ _ _ _ _ Lb (lexes_app _ _ _ _ _ _ _ (S w'') (lexes_app _ _ _ _ _ _ _ L7 L4))))).
      rewrite Ei, E5. rewrite <- !app_assoc. destruct w8; [rewrite (E1 eq_refl)|rewrite E2; [|discriminate]]; destruct w7; cbn; reflexivity. }
    assert (Q : toks r = toks o2).
    { rewrite <- (toks_blank_behind o2 w9 (writable_lexable o2 W2) B9), Er. symmetry. apply toks_blank_before; auto.
      assert (T : forall c, In c r -> In c (o2 ++ w9)) by (intros c Hin; rewrite Er; apply in_app_iff; auto).
      intros c Hin. apply T in Hin. apply in_app_iff in Hin. destruct Hin as [Hin|Hin]; [exact (writable_lexable o2 W2 c Hin)|].
      assert (Hsp : space c = true) by (unfold blank in B9; rewrite Forall_forall in B9; auto).
      repeat split; intros ->; discriminate. }
    split.
    + unfold pair_toks. rewrite P, Q, (toks_comma o1 o2 W1 (writable_lexable o2 W2)), <- !app_assoc. reflexivity.
    + split; [|intros (_ & _ & K); exfalso; auto]. intros K. exfalso.
      assert (In ","%char (txt "VarContainer")) by (rewrite <- K; rewrite !in_app_iff; right; right; left; now left). cbn in H. intuition discriminate.
  - exists (i ++ w8), (o ++ w9). split; auto. split.
    + unfold pair_toks. rewrite !toks_blank_behind; auto using writable_lexable.
    + split; [|intros (-> & -> & _); reflexivity]. intros K. destruct w8 as [|c w8] using rev_ind; [rewrite app_nil_r in K; auto|]. exfalso. clear IHw8.
      assert (Hsp : space c = true) by (unfold blank in B8; rewrite Forall_forall in B8; apply B8, in_app_iff; right; now left).
      rewrite app_assoc in K. apply (f_equal (@rev ascii)) in K. rewrite rev_app_distr in K. cbn in K. injection K as -> _. discriminate.
Qed.

Lemma Forall2_in_left : forall (A B : Type) (R : A -> B -> Prop) l l' a, Forall2 R l l' -> In a l -> exists b, In b l' /\ R a b.
Proof. intros A B R l l' a F. induction F as [|x y l l' H F IH]; [contradiction|]. intros [->|G]; [exists y; split; [now left|auto]|]. destruct (IH G) as (b & ? & ?). exists b. split; [now right|auto]. Qed.

Lemma only_entries : forall ks line k n it ot, In k ks -> NoDup (map fst ks) -> find_class (fst k) line = Some (n, it, ot) ->
  (forall k', In k' ks -> fst k' <> fst k -> find_class (fst k') line = None) -> first_decl ks line = map (fun t => (t, it, ot, n)) (snd k).
Proof.
  intros ks line k n it ot. induction ks as [|(cls, tabs) ks IH]; [contradiction|]. intros Hin N F O. cbn [first_decl].
  destruct (text_eq_dec cls (fst k)) as [E|E].
  - destruct Hin as [<-|Hin]; [cbn in F; now rewrite F|]. exfalso. cbn in N. inversion N as [|? ? Hn _]; subst. apply Hn. rewrite in_map_iff. exists k. auto.
  - pose proof (O (cls, tabs) (or_introl eq_refl) E) as G. cbn [fst] in G. rewrite G. apply IH; auto.
    + destruct Hin as [<-|Hin]; [exfalso; now apply E|auto].
    + cbn in N. now inversion N.
    + intros k' Hk'. apply O. now right.
Qed.
Lemma filing_nodup : NoDup (map fst filing).
Proof. repeat constructor; cbn; intuition discriminate. Qed.
Lemma filing_kind : forall k kd, In k filing -> base_kind (fst k) kd -> In (table_of kd) (snd k) /\ (sized kd = true <-> table_of kd = TBasis).
Proof.
  intros k kd Hk [P S]. cbn in Hk. destruct Hk as [<-|[<-|[<-|[<-|[<-|[]]]]]]; destruct kd; cbn in P, S; try discriminate P; try discriminate S; cbn; intuition discriminate.
Qed.

Lemma class_in_text : forall fs fuel c var st f0 content line k kd n i o w8 w9,
  (forall f t, In (f, Some t) fs -> List.length t + 1 < fuel)%nat -> (0 < fuel)%nat -> collect fuel fs coll_empty = RRet c tt ->
  writable_library var (all_entries fs) -> Forall one_line [st_created st; st_version st; st_url st; st_commit st] -> Forall (fun f => one_line (fst f)) fs ->
  In (f0, Some content) fs -> In line (lines_of (Some content)) -> In k filing -> base_kind (fst k) kd ->
  spelled (fst k) n i o [w8; w9] line -> writable i -> writable o ->
  (forall k', In k' filing -> fst k' <> fst k -> find_class (fst k') line = None) ->
  exists src fds, source_text st var c = Ok src /\ read_source src = Some fds /\
    (i <> txt "VarContainer" \/ sized kd = true ->
       exists d b, In d fds /\ pa_type (fn_params d) = mkType (fst k) (pair_toks i o) /\ pa_pointer (fn_params d) = true /\
         call_def d n = Ok b /\ br_var b = pa_var (fn_params d) /\ br_as b = None /\ br_object b = mkObject n None (sized kd)) /\
    (forall v, i = txt "VarContainer" -> sized kd = false -> w8 = [] -> ~ In ","%char o -> In v var ->
       exists d b, In d fds /\ pa_type (fn_params d) = mkType (fst k) (pair_toks v o) /\ pa_pointer (fn_params d) = true /\
         call_def d n = Ok b /\ br_var b = pa_var (fn_params d) /\ br_as b = None /\ br_object b = mkObject n (Some (toks v)) false).
Proof.
  intros fs fuel c var st f0 content line k kd n i o w8 w9 Hf H0 E R St Fs Hfile Hline Hk Hkd Hs Wi Wo Hoth.
  destruct (library_spec fs fuel c var Hf H0 E) as (sigs & defs & Wh & Ws & _).
  destruct (library_text fs fuel c var st sigs defs Hf H0 E Wh Ws R St Fs) as (ht & src & ds & fds & _ & Es & _ & _ & Er & F2).
  exists src, fds. split; auto. split; auto.
  destruct (spelled_found_any (fst k) n i o w8 w9 line (kinds_words k Hk) Wi Wo Hs) as (it & ot & Fc & Pt & Vc).
  destruct (filing_kind k kd Hk Hkd) as [Ht Hb].
  assert (En : In (table_of kd, it, ot, n) (all_entries fs)).
  { unfold all_entries. apply in_flat_map. exists (f0, Some content). split; auto. unfold file_entries. cbn [snd]. apply in_flat_map. exists line. split; auto.
    unfold entries. rewrite (only_entries filing line k n it ot Hk filing_nodup Fc Hoth). apply in_map_iff. exists (table_of kd). auto. }
  destruct Hkd as [Hp Hn]. destruct (checkout_spec fs fuel c var defs Hf H0 E Ws) as [C _].
  assert (G : forall s x, sg_kind s = kd -> offered var (all_entries fs) s n x -> exists d b, In d fds /\ pa_type (fn_params d) = mkType (fst k) (pair_toks (sg_in s) (sg_out s)) /\
    pa_pointer (fn_params d) = true /\ call_def d n = Ok b /\ br_var b = pa_var (fn_params d) /\ br_as b = None /\
    br_object b = mkObject (in_class x) (option_map toks (in_arg x)) (sized kd)).
  { intros s x Hk' Hof. destruct (C s n x Hof) as (f & Hin & Ef & Rf). destruct (Forall2_in_left _ _ _ _ _ f F2 Hin) as (d & Hd & Hdef).
    destruct (call_same f d n Hdef) as [Hc _]. destruct (Hc x Rf) as (b & Cb & Hb'). destruct Hdef as [(P1 & P2 & P3) _]. destruct Hb' as (_ & B2 & B3 & B4).
    rewrite Ef, Hk', ?Hp in *. exists d, b. split; auto. split; [rewrite P1; unfold type_of; now rewrite Hk', Hn|]. repeat split; auto. }
  split.
  - intros D. destruct (G (mkSig kd it ot) (mkInst n None) eq_refl) as (d & b & A1 & A2 & A3); [|exists d, b; cbn in *; rewrite Pt in A2; auto].
    apply offered_typed; cbn; auto. destruct D as [D|D]; [left | right; now apply Hb]. intros K. apply D. now apply Vc.
  - intros v -> Sz -> Hc Hv.
    assert (it = txt "VarContainer") by (apply Vc; auto). subst it.
    assert (To : toks ot = toks o).
    { destruct (spelled_cases (fst k) n _ o [] w9 line (kinds_words k Hk) Hs) as [S1 _]. rewrite (S1 Hc) in Fc. injection Fc as <-.
      apply toks_blank_behind; [apply writable_lexable; auto|]. inversion Hs as [w0 w1 w2 w3 w4 w5 w6 w7 w8' w9' post Hbl]; subst. rewrite Forall_forall in Hbl. apply Hbl. cbn. tauto. }
    destruct (G (mkSig kd v ot) (mkInst n (Some v)) eq_refl) as (d & b & A1 & A2 & A3 & A4 & A5 & A6 & A7).
    + apply offered_container; cbn; auto. intros K. apply Hb in K. congruence.
    + exists d, b. cbn in *. unfold pair_toks in *. rewrite To in A2. rewrite Sz in A7. auto 10.
Qed.

(** *** Examples and witnesses *)

(** Part of tests/testlib, with the containers of its Makefile. *)
Definition sample_lib : list (text * option text) :=
  [ (txt "Monomial.hh", Some (txt "    class Monomial_0 : public PSimpleBase< double, double>" ++ [nl] ++ txt "    {" ++ [nl] ++ txt "    class Monomial : public PBasisSetBase<double, double>" ++ [nl]));
    (txt "MyFunc.hh", Some (txt "    template< class VarContainer>" ++ [nl] ++ txt "    class MyFunc_f : public PSimpleBase< VarContainer, double>" ++ [nl] ++
       txt "    class MyFunc : public PFuncBase< VarContainer, double>" ++ [nl]));
    (txt "MyPieceWiseFunc.hh", Some (txt "    class MyPieceWiseFunc : public PPieceWiseFuncBase<VarContainer, double>" ++ [nl])) ].
Definition sample_var : list text := [txt "std::vector<double>"; txt "double*"].
Definition sample_stamp : stamp := mkStamp (txt "2014-9-12 10:02:03") (txt "0.1") (txt "https://github.com/prisms-center/IntegrationTools") (txt "6eb6ccb").

Lemma sample_fuel : forall f t, In (f, Some t) sample_lib -> (List.length t + 1 < 300)%nat.
Proof. intros f t [[= <- <-]|[[= <- <-]|[[= <- <-]|[]]]]; vm_compute; lia. Qed.
Lemma sample_entries : all_entries sample_lib =
  [ (TSimple, txt "double", txt "double", txt "Monomial_0"); (TBasis, txt "double", txt "double", txt "Monomial");
    (TSimple, txt "VarContainer", txt "double", txt "MyFunc_f"); (TFunc, txt "VarContainer", txt "double", txt "MyFunc");
    (TFunc, txt "VarContainer", txt "double", txt "MyPieceWiseFunc"); (TPwFunc, txt "VarContainer", txt "double", txt "MyPieceWiseFunc") ].
Proof. vm_compute. reflexivity. Qed.

Definition writableb (t : text) : bool :=
  forallb (fun c => negb (Ascii.eqb c quote) && negb (Ascii.eqb c "/") && negb (Ascii.eqb c "#") && negb (Ascii.eqb c "\") && negb (Ascii.eqb c nl)) t.
Lemma writableb_ok : forall t, writableb t = true -> writable t.
Proof.
  intros t H c Hc. unfold writableb in H. rewrite forallb_forall in H. apply H in Hc. rewrite !andb_true_iff, !negb_true_iff, !Ascii.eqb_neq in Hc. tauto.
Qed.
Lemma sample_writable : writable_library sample_var (all_entries sample_lib).
Proof.
  rewrite sample_entries. split.
  - intros t it ot n H. cbn in H. intuition (match goal with E : (_, _, _, _) = _ |- _ => injection E as <- <- <- <- end; discriminate).
  - intros [k it ot] n x H. cbn [sg_in sg_out].
    assert (G : (it = txt "double" \/ it = txt "double*" \/ it = txt "std::vector<double>") /\ ot = txt "double").
    { destruct H as [A B|A B C]; cbn [sg_kind sg_in sg_out] in *; cbn in A.
      - repeat (destruct A as [A|A]); try contradiction; injection A as Et <- <- <-; split; auto; exfalso; destruct B as [B|B]; try (apply B; reflexivity); rewrite B in Et; discriminate.
      - assert (ot = txt "double") by (repeat (destruct A as [A|A]); try contradiction; now injection A). split; auto. cbn in B. destruct B as [<-|[<-|[]]]; auto. }
    destruct G as [[->|[->| ->]] ->]; (split; [|split]); try (apply writableb_ok; vm_compute; reflexivity); vm_compute; reflexivity.
  - intros v [<-|[<-|[]]]; (split; [apply writableb_ok|]); vm_compute; reflexivity.
Qed.
Lemma one_lineb_ok : forall t, forallb (fun c => negb (Ascii.eqb c nl)) t = true -> one_line t.
Proof. intros t H G. rewrite forallb_forall in H. apply H in G. rewrite negb_true_iff, Ascii.eqb_neq in G. congruence. Qed.
Lemma sample_lines : Forall one_line [st_created sample_stamp; st_version sample_stamp; st_url sample_stamp; st_commit sample_stamp] /\ Forall (fun f => one_line (fst f)) sample_lib.
Proof. split; repeat constructor; apply one_lineb_ok; vm_compute; reflexivity. Qed.

Lemma sample_provides : exists c sigs, collect 300 sample_lib coll_empty = RRet c tt /\ write_header sample_var c = Ok sigs /\ incl extern_declared sigs.
Proof.
  eexists. eexists. split; [vm_compute; reflexivity|]. split; [vm_compute; reflexivity|].
  intros s H. cbn in H. repeat (destruct H as [<-|H]; [repeat (first [left; reflexivity | right])|]). contradiction.
Qed.

Lemma sample_text : def_text KSimpleFunction (txt "double*") (txt "double") (Some (txt "double*")) [txt "MyFunc_f"] =
  txt "        void PLibrary::checkout( std::string name, PSimpleFunction< double*, double > &simplefunc)" ++ [nl] ++
  txt "        {" ++ [nl] ++
  txt "            typedef PSimpleFunction< double*, double > psf;" ++ [nl] ++
  txt "            if( name == ""MyFunc_f"") { simplefunc = psf( MyFunc_f< double* >() ); return;}" ++ [nl] ++
  txt "            else throw std::runtime_error( ""PSimpleFunction< double*, double > "" + name + "" was not found in the PLibrary"");" ++ [nl] ++
  txt "        }" ++ [nl].
Proof. vm_compute. reflexivity. Qed.

Definition sample_coll : coll := match collect 300 sample_lib coll_empty with RRet c _ => c | _ => coll_empty end.
Lemma sample_read : exists c src fds d, collect 300 sample_lib coll_empty = RRet c tt /\ source_text sample_stamp sample_var c = Ok src /\ read_source src = Some fds /\
  List.length fds = 14%nat /\ In d fds /\ pa_type (fn_params d) = mkType (txt "PFuncBase") [Word (txt "double"); Punct "*"; Punct ","; Word (txt "double")] /\
  call_def d (txt "MyFunc") = Ok (mkBranch (txt "MyFunc") (txt "func") None (mkObject (txt "MyFunc") (Some [Word (txt "double"); Punct "*"]) false)) /\
  call_def d (txt "Monomial") = Throw RuntimeError.
Proof.
  assert (X : match source_text sample_stamp sample_var sample_coll with Ok src => match read_source src with Some fds => Some (List.length fds, nth_error fds 10) | None => None end | _ => None end =
    Some (14%nat, Some (mkFunc (mkParams (mkType (txt "PFuncBase") [Word (txt "double"); Punct "*"; Punct ","; Word (txt "double")]) true (txt "func") false)
      [mkBranch (txt "MyFunc") (txt "func") None (mkObject (txt "MyFunc") (Some [Word (txt "double"); Punct "*"]) false);
       mkBranch (txt "MyPieceWiseFunc") (txt "func") None (mkObject (txt "MyPieceWiseFunc") (Some [Word (txt "double"); Punct "*"]) false)]))).
  { vm_compute. reflexivity. }
  destruct (source_text sample_stamp sample_var sample_coll) as [src| | | |] eqn:Es; [|discriminate X..]. destruct (read_source src) as [fds|] eqn:Er; [|discriminate X].
  injection X as L N. exists sample_coll, src, fds.
  match type of N with _ = Some ?d => exists d end. split; [vm_compute; reflexivity|]. split; [exact Es|]. split; [exact Er|]. split; [exact L|].
  split; [exact (nth_error_In fds 10 N)|]. split; [reflexivity|]. split; vm_compute; reflexivity.
Qed.

(** The same types, written differently. *)
Definition two_layouts : list (text * option text) :=
  [ (txt "A.hh", Some (txt "class A : public PSimpleBase<double, double>" ++ [nl])); (txt "B.hh", Some (txt "class B : public PSimpleBase<double , double>" ++ [nl])) ].
Definition layouts_coll : coll := match collect 300 two_layouts coll_empty with RRet c _ => c | _ => coll_empty end.
Definition layouts_sigs : list sig :=
  [ mkSig KSimpleFunction (txt "double") (txt "double"); mkSig KSimpleFunction (txt "double ") (txt "double");
    mkSig KSimpleBase (txt "double") (txt "double"); mkSig KSimpleBase (txt "double ") (txt "double") ].
Lemma layouts_twice : exists c sigs src fds, collect 300 two_layouts coll_empty = RRet c tt /\ write_header [] c = Ok sigs /\ NoDup sigs /\
  source_text sample_stamp [] c = Ok src /\ read_source src = Some fds /\ ~ NoDup (map fn_params fds).
Proof.
  assert (X : match source_text sample_stamp [] layouts_coll with Ok src => match read_source src with Some fds => Some (map fn_params fds) | None => None end | _ => None end =
    Some (let t k := mkType k [Word (txt "double"); Punct ","; Word (txt "double")] in
          [mkParams (t (txt "PSimpleFunction")) false (txt "simplefunc") false; mkParams (t (txt "PSimpleFunction")) false (txt "simplefunc") false;
           mkParams (t (txt "PSimpleBase")) true (txt "simplefunc") false; mkParams (t (txt "PSimpleBase")) true (txt "simplefunc") false])) by (vm_compute; reflexivity).
  destruct (source_text sample_stamp [] layouts_coll) as [src| | | |] eqn:Es; [|discriminate X..]. destruct (read_source src) as [fds|] eqn:Er; [|discriminate X].
  injection X as X. exists layouts_coll, layouts_sigs, src, fds. split; [vm_compute; reflexivity|]. split; [vm_compute; reflexivity|].
  split; [repeat constructor; cbn; intuition discriminate|]. split; [exact Es|]. split; [exact Er|]. rewrite X. intros N. inversion N as [|? ? H _]. apply H. now left.
Qed.

(** A class template whose output type has a comma: the container is not recognised. *)
Definition comma_template : list (text * option text) :=
  [ (txt "A.hh", Some (txt "template< class VarContainer>" ++ [nl] ++ txt "class A : public PSimpleBase< VarContainer, std::map<int,int> >" ++ [nl])) ].
Definition comma_coll : coll := match collect 300 comma_template coll_empty with RRet c _ => c | _ => coll_empty end.
Lemma comma_container : exists c src fds d, collect 300 comma_template coll_empty = RRet c tt /\ source_text sample_stamp sample_var c = Ok src /\ read_source src = Some fds /\
  In d fds /\ In (Word (txt "VarContainer")) (ty_args (pa_type (fn_params d))).
Proof.
  assert (X : match source_text sample_stamp sample_var comma_coll with Ok src => match read_source src with Some fds => Some (option_map fn_params (nth_error fds 0)) | None => None end | _ => None end =
    Some (Some (mkParams (mkType (txt "PSimpleFunction")
      [Word (txt "VarContainer"); Punct ","; Word (txt "std"); Punct ":"; Punct ":"; Word (txt "map"); Punct "<"; Word (txt "int"); Punct ","; Word (txt "int"); Punct ">"]) false (txt "simplefunc") false)))
    by (vm_compute; reflexivity).
  destruct (source_text sample_stamp sample_var comma_coll) as [src| | | |] eqn:Es; [|discriminate X..]. destruct (read_source src) as [fds|] eqn:Er; [|discriminate X].
  destruct fds as [|d fds]; [discriminate X|]. cbn [nth_error option_map] in X. injection X as X.
  exists comma_coll, src, (d :: fds), d. split; [vm_compute; reflexivity|]. split; [exact Es|]. split; [exact Er|]. split; [now left|]. rewrite X. now left.
Qed.

(** Two classes of one name in different tables. *)
Definition same_name : list (text * option text) :=
  [ (txt "A.hh", Some (txt "class A : public PSimpleBase<double, double>" ++ [nl])); (txt "B.hh", Some (txt "class A : public PBasisSetBase<double, double>" ++ [nl])) ].
Lemma same_name_accepted : exists c, collect 300 same_name coll_empty = RRet c tt /\ co_file c = [txt "A.hh"; txt "B.hh"] /\
  In (TSimple, txt "double", txt "double", txt "A") (file_entries (nth 0 same_name (txt "", None))) /\ In (TBasis, txt "double", txt "double", txt "A") (file_entries (nth 1 same_name (txt "", None))).
Proof. eexists. split; [vm_compute; reflexivity|]. repeat split; vm_compute; auto. Qed.

(** A library without what the C interface calls. *)
Lemma two_not_extern : exists c sigs, collect 100 two_classes coll_empty = RRet c tt /\ write_header sample_var c = Ok sigs /\ ~ incl extern_called sigs.
Proof.
  eexists. eexists. split; [vm_compute; reflexivity|]. split; [vm_compute; reflexivity|].
  intros I. assert (G := I (mkSig KBasisSet (txt "double") (txt "double")) ltac:(repeat (first [left; reflexivity | right]))). cbn in G. intuition discriminate.
Qed.

(** The files in another order. *)
Lemma sample_order : Permutation (all_entries sample_lib) (all_entries (rev sample_lib)) /\
  (forall f t, In (f, Some t) (sample_lib ++ rev sample_lib) -> List.length t + 1 < 300)%nat /\
  NoDup sample_var /\ (forall v t ot n, In v sample_var -> v <> txt "VarContainer" -> ~ In (t, v, ot, n) (all_entries sample_lib)) /\
  exists c c', collect 300 sample_lib coll_empty = RRet c tt /\ collect 300 (rev sample_lib) coll_empty = RRet c' tt /\ co_in c = [txt "double"; txt "VarContainer"] /\ co_in c' = [txt "VarContainer"; txt "double"].
Proof.
  split; [|split; [|split; [|split]]].
  - apply Permutation_flat_map, Permutation_rev.
  - intros f t H. apply (sample_fuel f t). apply in_app_iff in H. destruct H as [H|H]; auto. now apply in_rev in H.
  - repeat constructor; cbn; intuition discriminate.
  - intros v t ot n Hv _ G. rewrite sample_entries in G. cbn in G, Hv.
    destruct Hv as [<-|[<-|[]]]; repeat (destruct G as [G|G]; [discriminate G|]); contradiction.
  - eexists. eexists. split; [vm_compute; reflexivity|]. split; [vm_compute; reflexivity|]. split; vm_compute; reflexivity.
Qed.

(** A class spelled in the sample. *)
Definition sample_line : text := txt "    class MyFunc : public PFuncBase< VarContainer, double>".
Lemma sample_spelled : (exists content, In (txt "MyFunc.hh", Some content) sample_lib /\ In sample_line (lines_of (Some content))) /\
  In (txt "PFuncBase", [TFunc]) filing /\ base_kind (txt "PFuncBase") KFuncBase /\
  spelled (txt "PFuncBase") (txt "MyFunc") (txt "VarContainer") (txt "double") [[]; []] sample_line /\ writable (txt "VarContainer") /\ writable (txt "double") /\
  (forall k', In k' filing -> fst k' <> txt "PFuncBase" -> find_class (fst k') sample_line = None).
Proof.
  split; [|split; [|split; [|split; [|split; [|split]]]]].
  - eexists. split; [right; left; reflexivity|]. vm_compute. auto.
  - cbn. auto.
  - split; reflexivity.
  - apply (Spelled (txt "PFuncBase") (txt "MyFunc") (txt "VarContainer") (txt "double") (txt "    ") (txt " ") (txt " ") (txt " ") (txt " ") [] (txt " ") (txt " ") [] [] []);
      try discriminate; try (now repeat constructor); try (intros (c & s & [= <- <-] & E); discriminate).
  - apply writableb_ok. vm_compute. reflexivity.
  - apply writableb_ok. vm_compute. reflexivity.
  - intros k' Hk Hne. unfold filing in Hk. cbn [In] in Hk. destruct Hk as [<-|[<-|[<-|[<-|[<-|[]]]]]]; try (vm_compute; reflexivity). now contradiction Hne.
Qed.
Lemma two_included : exists c defs f, collect 100 two_classes coll_empty = RRet c tt /\ write_source [txt "Vec"] c = Ok defs /\
  In f defs /\ run_checkout f (txt "B") = Ok (mkInst (txt "B") (Some (txt "Vec"))) /\ co_file c = [txt "A.hh"; txt "B.hh"].
Proof.
  eexists. eexists. eexists. split; [vm_compute; reflexivity|]. split; [vm_compute; reflexivity|]. split; [|split].
  - right. left. reflexivity.
  - vm_compute. reflexivity.
  - vm_compute. reflexivity.
Qed.
