(** Printing and reading coefficients. *)
From Coq Require Import ZArith List Bool Ascii Lia ZifyBool.
From Verif Require Import Model.Outcome Model.Num Model.PNDArray Model.PSimple Model.BasisSet Model.Series Model.Stream Model.SeriesIO.
From Verif Require Import Spec.Tensor Spec.NDHistory Spec.Vtk Spec.SeriesIO.
From Verif Require Import Proofs.OutcomeP Proofs.PNDArrayP Proofs.StreamP.
Import ListNotations.
Local Open Scope Z_scope.

(** ** Integers *)
Lemma print_digits_ok : forall fuel n, 0 <= n < 2 ^ Z.of_nat fuel -> (0 < fuel)%nat -> decimal (print_digits fuel n) n.
Proof.
  induction fuel as [|f IH]; intros n Hn Hf; [lia|]. cbn [print_digits].
  assert (Hm := Z.mod_pos_bound n 10 ltac:(lia)). assert (Hd := Z.div_mod n 10 ltac:(lia)).
  assert (Hq : 0 <= n / 10) by (apply Z.div_pos; lia).
  change (ascii_of_nat (48 + Z.to_nat (n mod 10))) with (numeral (n mod 10)). destruct (n <? 10) eqn:E.
  - cbn [app]. assert (n mod 10 = n) as -> by (apply Z.mod_small; lia). apply DecDigit. lia.
  - replace (decimal (print_digits f (n / 10) ++ [numeral (n mod 10)]) n)
      with (decimal (print_digits f (n / 10) ++ [numeral (n mod 10)]) (10 * (n / 10) + n mod 10)) by (f_equal; lia).
    apply DecMore; [|lia]. apply IH.
    + rewrite Nat2Z.inj_succ, Z.pow_succ_r in Hn by lia. lia.
    + destruct f; [|lia]. cbn in Hn. lia.
Qed.

Lemma print_int_ok : forall z, int_text (print_int z) z.
Proof.
  intros z. unfold print_int. cbn zeta.
  assert (D : decimal (print_digits (Datatypes.S (Z.to_nat (Z.log2 (Z.abs z)))) (Z.abs z)) (Z.abs z)).
  { apply print_digits_ok; [|lia]. rewrite Nat2Z.inj_succ, Z2Nat.id by apply Z.log2_nonneg.
    destruct (Z.eq_dec (Z.abs z) 0) as [E|E]; [rewrite E; cbn; lia|].
    destruct (Z.log2_spec (Z.abs z)) as [_ H]; [lia|]. lia. }
  destruct (z <? 0) eqn:E.
  - cbn [app]. apply IntNeg in D. replace (- Z.abs z) with z in D by lia. exact D.
  - cbn [app]. apply IntPos in D. replace (Z.abs z) with z in D at 3 by lia. exact D.
Qed.

Lemma int_reader : number_reader (fun t z => int_text t z /\ fits_int z) int_scanner.
Proof.
  intros t z [[t' n H|t' n H] Hz].
  - split; [eapply decimal_word; eauto|]. intros r Hr. unfold int_scanner.
    rewrite (scan_signed_decimal _ _ _ H (blank_no_digit _ Hr)). cbn [negb]. unfold fits_int in Hz.
    replace (n <? INT_MIN) with false by (unfold INT_MIN; lia). replace (INT_MAX <? n) with false by (unfold INT_MAX; lia). reflexivity.
  - destruct (decimal_word _ _ H) as [_ W]. split.
    + split; [discriminate|]. constructor; [|exact W]. intros B. cbn in B. repeat (destruct B as [B|B]; [discriminate|]). exact B.
    + intros r Hr. unfold int_scanner, scan_signed. cbn [app]. change (Ascii.eqb "-" "-") with true. cbn iota.
      rewrite (scan_decimal _ _ _ H (blank_no_digit _ Hr)). cbn [negb]. unfold fits_int in Hz.
      replace (- n <? INT_MIN) with false by (unfold INT_MIN; lia). replace (INT_MAX <? - n) with false by (unfold INT_MAX; lia). reflexivity.
Qed.

Lemma lset_split : forall (B : Type) (l : list B) k a, (k < List.length l)%nat -> lset l k a = firstn k l ++ a :: skipn (Datatypes.S k) l.
Proof.
  induction l as [|x l IH]; intros [|k] a H; cbn [List.length] in H; try lia; [reflexivity|].
  cbn [lset firstn app skipn]. f_equal. apply IH. lia.
Qed.

Lemma firstn_set : forall (B : Type) (l : list B) k a r, (k < List.length l)%nat -> firstn (Datatypes.S k) (firstn k l ++ a :: r) = firstn k l ++ [a].
Proof.
  induction l as [|x l IH]; intros [|k] a r H; cbn [List.length] in H; try lia; [reflexivity|].
  cbn [firstn app]. f_equal. apply (IH k a r). lia.
Qed.

Section IO.
Context {S : SerOps} (print_num : sa S -> text) (num_scanner : scanner (sa S)).
Local Notation A := (sa S).

(** ** Printing *)
Lemma wf_order : forall c : nd A, nd_wf c -> Z.to_nat (nd_order c) = List.length (nd_dim c).
Proof. intros c [(E1 & _ & _ & E4 & _)|(_ & _ & E4 & _)]; [rewrite E1, E4; reflexivity|rewrite E4; apply Nat2Z.id]. Qed.

Lemma print_loop_ok : forall (c : nd A) value vals, nd_wf c -> Z.of_nat (List.length vals) = nd_volume c ->
  (forall tm, nd_dim c <> [] -> valid_index (nd_dim c) tm -> exists a, value (row_major (nd_dim c) tm) tm = Ok a /\
     nth_error vals (Z.to_nat (row_major (nd_dim c) tm)) = Some a) ->
  forall n k term out, (k + n = List.length vals)%nat -> List.length term = List.length (nd_dim c) ->
  exists term' t,
    ofold (fun st i => let* term := tensor_indices c i (fst st) in let* a := value i term in Ok (term, snd st ++ print_line print_num term a))
      (map Z.of_nat (seq k n)) (term, out) = Ok (term', out ++ t) /\
    table (fun w a => w = print_num a) (nd_dim c) (Z.of_nat k) (skipn k vals) t.
Proof.
  intros c value vals W Hlen Hv. induction n as [|n IH]; intros k term out Hk Hl.
  - exists term, []. cbn. rewrite app_nil_r. split; [reflexivity|]. rewrite skipn_all2 by lia. constructor.
  - destruct (row_major_surj _ c (Z.of_nat k) W ltac:(lia)) as (Hne & tm & V & R).
    destruct (Hv tm Hne V) as (a & Ea & En). rewrite R, Nat2Z.id in En. rewrite R in Ea.
    cbn [seq map ofold fst snd]. rewrite <- R, (tensor_indices_wf _ c tm term W Hne V Hl), R. cbn [obind]. rewrite Ea. cbn [obind].
    destruct (IH (Datatypes.S k) tm (out ++ print_line print_num tm a) ltac:(lia) (valid_index_length _ _ V)) as (term' & t & E & T).
    exists term', (print_line print_num tm a ++ t). rewrite app_assoc. split; [exact E|].
    replace (skipn k vals) with (a :: skipn (Datatypes.S k) vals).
    + unfold print_line. assert (E1 : map (fun z => print_int z ++ [" "%char]) tm = map (fun w => w ++ [" "%char]) (map print_int tm)).
      { rewrite map_map. reflexivity. }
      rewrite E1, <- !app_assoc. change ([nl] ++ t) with (newline :: t). apply TableLine with (term := tm); auto.
      * clear. induction tm; constructor; auto. apply print_int_ok.
      * replace (Z.of_nat k + 1) with (Z.of_nat (Datatypes.S k)) by lia. exact T.
    + clear - En. revert k En. induction vals as [|v vals IH]; intros [|k] En; cbn in *; try discriminate; [congruence|]. apply IH. exact En.
Qed.

Lemma print_table_ok : forall (c : nd A) value vals, nd_wf c -> Z.of_nat (List.length vals) = nd_volume c ->
  (forall tm, nd_dim c <> [] -> valid_index (nd_dim c) tm -> exists a, value (row_major (nd_dim c) tm) tm = Ok a /\
     nth_error vals (Z.to_nat (row_major (nd_dim c) tm)) = Some a) ->
  exists t, print_table print_num c value = Ok t /\ table (fun w a => w = print_num a) (nd_dim c) 0 vals t.
Proof.
  intros c value vals W Hlen Hv. unfold print_table, zseq. replace (Z.to_nat (nd_volume c)) with (List.length vals) by lia.
  destruct (print_loop_ok c value vals W Hlen Hv (List.length vals) 0 (repeat 0 (Z.to_nat (nd_order c))) [] eq_refl) as (term' & t & E & T).
  - rewrite repeat_length. apply wf_order; auto.
  - rewrite E. exists t. split; [reflexivity|exact T].
Qed.

Lemma print_coeff_ok : forall s : @series S, nd_wf (se_coeff s) ->
  exists t, se_print_coeff print_num s = Ok t /\ table (fun w a => w = print_num a) (nd_dim (se_coeff s)) 0 (nd_val (se_coeff s)) t.
Proof.
  intros s W. apply print_table_ok; auto; [apply nd_wf_length; auto|]. intros tm Hne V.
  destruct (linear_index_wf _ _ tm W Hne V) as [_ B]. assert (L := nd_wf_length _ _ W).
  unfold nd_get, vget. destruct (nth_error (nd_val (se_coeff s)) (Z.to_nat (row_major (nd_dim (se_coeff s)) tm))) as [a|] eqn:E.
  - exists a. split; auto. replace (0 <=? row_major (nd_dim (se_coeff s)) tm) with true by lia. reflexivity.
  - apply nth_error_None in E. lia.
Qed.

(** Any quantity of the index tuple. *)
Lemma print_values_ok : forall (c : nd A) value f, nd_wf c ->
  (forall tm, valid_index (nd_dim c) tm -> value tm = Ok (f tm)) ->
  exists t vals, print_table print_num c (fun _ tm => value tm) = Ok t /\ table (fun w a => w = print_num a) (nd_dim c) 0 vals t /\
    Z.of_nat (List.length vals) = nd_volume c /\
    forall tm, nd_dim c <> [] -> valid_index (nd_dim c) tm -> nth_error vals (Z.to_nat (row_major (nd_dim c) tm)) = Some (f tm).
Proof.
  intros c value f W Hv.
  assert (Hvals : exists vals, Z.of_nat (List.length vals) = nd_volume c /\
    forall tm, nd_dim c <> [] -> valid_index (nd_dim c) tm -> nth_error vals (Z.to_nat (row_major (nd_dim c) tm)) = Some (f tm)).
  { assert (G : forall n, (n <= Z.to_nat (nd_volume c))%nat -> exists vals, List.length vals = n /\
      forall tm, nd_dim c <> [] -> valid_index (nd_dim c) tm -> (Z.to_nat (row_major (nd_dim c) tm) < n)%nat ->
        nth_error vals (Z.to_nat (row_major (nd_dim c) tm)) = Some (f tm)).
    { induction n as [|n IH]; intros Hn; [exists []; split; [reflexivity|intros; lia]|].
      destruct (IH ltac:(lia)) as (vals & L & Hvl). destruct (row_major_surj _ c (Z.of_nat n) W ltac:(lia)) as (Hne & tm & V & R).
      exists (vals ++ [f tm]). split; [rewrite app_length; cbn; lia|]. intros tm' _ V' Hlt.
      destruct (linear_index_wf _ c tm' W Hne V') as [_ B'].
      destruct (Z.eq_dec (row_major (nd_dim c) tm') (row_major (nd_dim c) tm)) as [Eq|Neq].
      - assert (tm' = tm) as -> by (rewrite !row_major_dotp in Eq by (apply valid_index_length; auto); eapply dotp_inj; eauto).
        rewrite nth_error_app2 by lia. replace (Z.to_nat (row_major (nd_dim c) tm) - List.length vals)%nat with 0%nat by lia. reflexivity.
      - rewrite nth_error_app1 by lia. apply Hvl; auto. lia. }
    destruct (G _ (le_n _)) as (vals & L & Hvl). exists vals. assert (L' := nd_wf_length _ _ W). split; [lia|].
    intros tm Hne V. destruct (linear_index_wf _ c tm W Hne V) as [_ B]. apply Hvl; auto. lia. }
  destruct Hvals as (vals & L & Hvl). destruct (print_table_ok c (fun _ tm => value tm) vals W L) as (t & E & T).
  - intros tm Hne V. exists (f tm). split; auto.
  - exists t, vals. auto.
Qed.

(** ** Reading *)
Lemma tokens_blank : forall (B : Type) (tok : text -> B -> Prop) c t l, blank c -> l <> [] -> tokens tok t l -> tokens tok (c :: t) l.
Proof.
  intros B tok c t l Hc Hl H. inversion H as [|b u a r l' Hb Hu Hr H']; subst; [congruence|].
  change (c :: b ++ u ++ r) with ((c :: b) ++ u ++ r). constructor; auto. constructor; auto.
Qed.
Lemma blank_space : blank " "%char.
Proof. left. reflexivity. Qed.
Lemma blank_newline : blank newline.
Proof. right. right. left. reflexivity. Qed.

Lemma index_tokens : forall (num_text : text -> A -> Prop) its term t l, Forall2 int_text its term -> Forall fits_int term -> l <> [] ->
  tokens (entry_text num_text) t l ->
  tokens (entry_text num_text) (List.concat (map (fun w => w ++ [" "%char]) its) ++ t) (map inl term ++ l).
Proof.
  intros num_text its term t l H. induction H as [|w z its term Hw H IH]; intros Hf Hl Ht; [exact Ht|].
  inversion Hf as [|? ? Hz Hf']; subst. cbn [map List.concat app]. rewrite <- !app_assoc. cbn [app].
  change (w ++ " "%char :: List.concat (map (fun w => w ++ [" "%char]) its) ++ t)
    with ([] ++ w ++ (" "%char :: List.concat (map (fun w => w ++ [" "%char]) its) ++ t)).
  constructor; [constructor|split; auto| |].
  - right. eexists _, _. split; [reflexivity|apply blank_space].
  - apply tokens_blank; [apply blank_space| |apply IH; auto]. destruct term; [exact Hl|discriminate].
Qed.

Lemma table_tokens : forall (num_text : text -> A -> Prop) dims i vals t, Forall fits_int dims ->
  table num_text dims i vals t -> exists rows, map snd rows = vals /\ Forall (fun r => List.length (fst r) = List.length dims) rows /\
    (vals = [] /\ t = [] \/ exists d, t = d ++ [newline] /\ tokens (entry_text num_text) d (entries rows)).
Proof.
  intros num_text dims i vals t Hd H. induction H as [i|i a vals term its nt t V R F N H (rows & E1 & E2 & IH)].
  - exists []. split; [reflexivity|]. split; [constructor|]. left; auto.
  - exists ((term, a) :: rows). split; [cbn; congruence|]. split; [constructor; auto; apply valid_index_length; exact V|]. right.
    assert (Hf : Forall fits_int term).
    { clear - V Hd. induction V as [|d k dims term Hk V IH]; inversion Hd; subst; constructor; auto. unfold fits_int in *. lia. }
    unfold entries. cbn [map List.concat fst snd]. rewrite <- !app_assoc. destruct IH as [[-> ->]|(d & -> & T)].
    + destruct rows; [|discriminate]. exists (List.concat (map (fun w => w ++ [" "%char]) its) ++ nt). rewrite <- !app_assoc. split; [reflexivity|].
      apply index_tokens; auto; [discriminate|]. cbn [app map List.concat]. rewrite <- (app_nil_r nt).
      change (nt ++ []) with ([] ++ nt ++ []). constructor; [constructor|exact N|left; reflexivity|constructor].
    + exists (List.concat (map (fun w => w ++ [" "%char]) its) ++ nt ++ newline :: d). rewrite <- !app_assoc. split; [reflexivity|].
      apply index_tokens; auto; [discriminate|]. cbn [app]. change (nt ++ newline :: d) with ([] ++ nt ++ newline :: d).
      constructor; [constructor|exact N|right; eexists _, _; split; [reflexivity|apply blank_newline]|].
      destruct rows as [|[term' a'] rows].
      * inversion T; subst. inversion H. 
      * apply tokens_blank; [apply blank_newline| |exact T]. cbn [entries map List.concat fst snd]. destruct term'; discriminate.
Qed.

(** One entry. *)
Lemma extract_entry : forall (B C : Type) (tok : text -> B -> Prop) (tok' : text -> C -> Prop) sc old d e a l rest,
  number_reader tok sc -> (forall w, tok' w e -> tok w a) -> (forall w x, tok' w x -> word w) ->
  tokens tok' d (e :: l) -> (l = [] -> ends_word rest) ->
  exists r, tokens tok' r l /\ extract sc old (in_text (d ++ rest)) = (Some a, at_text (r ++ rest)) /\
    (l <> [] -> at_text (r ++ rest) = in_text (r ++ rest)).
Proof.
  intros B C tok tok' sc old d e a l rest Hn He Hw H Hs. inversion H as [|b t a' r l' Hb Ht Hr Hl]; subst. exists r. split; auto.
  assert (Hne : l <> [] -> r <> []).
  { intros Hl0. inversion Hl as [|b' t' a' r' l' Hb' Ht' Hr' Hl']; subst; [congruence|].
    destruct (Hw _ _ Ht') as [Hw' _]. intros Hnil. apply app_eq_nil in Hnil. destruct Hnil as [_ Hnil]. apply app_eq_nil in Hnil. tauto. }
  split.
  - rewrite <- !app_assoc. eapply extract_tok; eauto. destruct l as [|x l].
    + apply ends_app; auto.
    + destruct Hr as [->|(c & u & -> & Hc)]; [destruct (Hne ltac:(discriminate)); reflexivity|]. right. exists c, (u ++ rest). auto.
  - intros Hl0. apply at_in. intros E. apply app_eq_nil in E. destruct E as [E _]. apply (Hne Hl0 E).
Qed.

Context (num_text : text -> A -> Prop) (Hnum : number_reader num_text num_scanner).

Lemma entry_word : forall w e, entry_text num_text w e -> word w.
Proof. intros w [z|a] H; [apply (int_reader w z H)|apply (Hnum w a H)]. Qed.

Lemma read_term_ok : forall zs term d l rest, List.length term = List.length zs -> l <> [] ->
  tokens (entry_text num_text) d (map inl zs ++ l) ->
  exists r, tokens (entry_text num_text) r l /\ read_term term (in_text (d ++ rest)) = (zs, in_text (r ++ rest)).
Proof.
  induction zs as [|z zs IH]; intros term d l rest Hlen Hl H; destruct term as [|k term]; try discriminate.
  - exists d. split; auto.
  - cbn [map app] in H. assert (Hl' : map inl zs ++ l <> []) by (destruct zs; [exact Hl|discriminate]).
    destruct (extract_entry _ _ _ _ int_scanner (Some k) d (inl z) z _ rest int_reader (fun w Hw => Hw) entry_word H
      ltac:(intros E; contradiction)) as (r & T & E & Ea).
    destruct (IH term r l rest ltac:(cbn in Hlen; lia) Hl T) as (r' & T' & E'). exists r'. split; auto.
    cbn [read_term]. rewrite E, (Ea Hl'). rewrite E'. reflexivity.
Qed.

Definition with_vals (c : nd A) (v : list A) : nd A := mkNd (nd_dim c) (nd_unroll c) v (nd_order c) (nd_volume c).
Definition end_of (rows : list (list Z * A)) (rest : text) : istr := match rows with [] => in_text rest | _ => at_text rest end.

Lemma read_rows_ok : forall rows k term c d rest,
  (k + List.length rows = List.length (nd_val c))%nat -> Forall (fun r => List.length (fst r) = List.length term) rows ->
  tokens (entry_text num_text) d (entries rows) -> separated rows rest ->
  read_rows num_scanner (map Z.of_nat (seq k (List.length rows))) term c (in_text (d ++ rest)) =
    Ok (with_vals c (firstn k (nd_val c) ++ map snd rows), end_of rows rest).
Proof.
  induction rows as [|[zs a] rows IH]; intros k term c d rest Hk Hf H Hs.
  - cbn [entries map List.concat] in H. apply tokens_nil in H. subst d. cbn. rewrite app_nil_r, firstn_all2 by (cbn in Hk; lia).
    destruct c; reflexivity.
  - inversion Hf as [|? ? Hlen Hf']; subst. cbn [fst] in Hlen.
    assert (Hsep : ends_word rest) by (destruct Hs as [Hs|Hs]; [discriminate|exact Hs]).
    unfold entries in H. cbn [map List.concat fst snd] in H. rewrite <- app_assoc in H. fold (entries rows) in H. cbn [app] in H.
    destruct (read_term_ok zs term d (inr a :: entries rows) rest (eq_sym Hlen) ltac:(discriminate) H) as (r & T & E).
    cbn [List.length seq map read_rows]. rewrite E.
    unfold nd_get, vget. replace (0 <=? Z.of_nat k) with true by lia. rewrite Nat2Z.id.
    destruct (nth_error (nd_val c) k) as [old|] eqn:En; [|apply nth_error_None in En; cbn in Hk; lia]. cbn [obind].
    destruct (extract_entry _ _ _ _ num_scanner (Some old) r (inr a) a _ rest Hnum (fun w Hw => Hw) entry_word T (fun _ => Hsep))
      as (r' & T' & E' & Ea). rewrite E'.
    assert (Hset : nd_set c (Z.of_nat k) a = Ok (with_vals c (firstn k (nd_val c) ++ a :: skipn (Datatypes.S k) (nd_val c)))).
    { unfold nd_set. rewrite vset_ok by (cbn in Hk; lia). cbn [obind]. rewrite Nat2Z.id, lset_split by (cbn in Hk; lia). reflexivity. }
    rewrite Hset. cbn [obind]. destruct rows as [|row rows].
    + cbn [entries map List.concat] in T'. apply tokens_nil in T'. subst r'. rewrite skipn_all2 by (cbn [List.length] in Hk; lia). reflexivity.
    + rewrite (Ea ltac:(destruct row as [[|? ?] ?]; discriminate)).
      rewrite IH with (d := r') (rest := rest); auto.
      * unfold with_vals. cbn [nd_dim nd_unroll nd_val nd_order nd_volume end_of]. f_equal. f_equal. f_equal. cbn [map snd].
        rewrite firstn_set by (cbn in Hk; lia). rewrite <- app_assoc. reflexivity.
      * cbn [with_vals nd_val]. rewrite app_length, firstn_length. cbn [List.length] in *. rewrite skipn_length. lia.
      * eapply Forall_impl; [|exact Hf']. intros x Hx. cbn beta in Hx. congruence.
      * right; auto.
Qed.

Definition with_coeff (s : @series S) (c : nd A) : @series S :=
  mkSeries c (se_one s) (se_zero s) (se_basis s) (se_val s) (se_grad s) (se_hess s).

Lemma read_coeff_ok : forall (s : @series S) rows d rest, nd_wf (se_coeff s) ->
  Z.of_nat (List.length rows) = nd_volume (se_coeff s) -> Forall (fun r => List.length (fst r) = List.length (nd_dim (se_coeff s))) rows ->
  tokens (entry_text num_text) d (entries rows) -> separated rows rest ->
  se_read_coeff num_scanner (s, in_text (d ++ rest)) = RRet (with_coeff s (with_vals (se_coeff s) (map snd rows)), end_of rows rest) tt.
Proof.
  intros s rows d rest W Hlen Hf H Hs. unfold se_read_coeff, zseq. rewrite <- Hlen, Nat2Z.id. assert (L := nd_wf_length _ _ W).
  rewrite (read_rows_ok rows 0); auto; [lia|].
  eapply Forall_impl; [|exact Hf]. intros r Hr. cbn beta in Hr. rewrite repeat_length, (wf_order _ W). exact Hr.
Qed.

Lemma wf_dims_fit : forall c : nd A, nd_wf c -> 0 < nd_volume c -> Forall fits_int (nd_dim c).
Proof.
  intros c W H. assert (Hne : nd_dim c <> []) by (destruct W as [(_ & _ & _ & _ & E)|(U & _)]; [lia|apply U]).
  assert (P := nd_wf_pos _ c W Hne H). destruct W as [(E & _)|(U & _)]; [congruence|]. assert (B := usable_zprod_le _ U).
  apply Forall_forall. intros d Hd. assert (d <= zprod (nd_dim c)).
  { clear - P Hd. induction (nd_dim c) as [|e l IH]; [destruct Hd|]. inversion P; subst. rewrite zprod_cons. assert (Q := zprod_pos l ltac:(auto)).
    destruct Hd as [->|Hd]; [nia|]. specialize (IH ltac:(auto) Hd). nia. }
  rewrite Forall_forall in P. specialize (P d Hd). unfold fits_int. unfold INT_MAX in B. lia.
Qed.

Lemma table_length : forall (nt : text -> A -> Prop) dims i vals t, table nt dims i vals t -> vals = [] -> t = [].
Proof. intros nt dims i vals t H E. destruct H; [reflexivity|discriminate]. Qed.

(** Reading a printed table. *)
Lemma read_table_ok : forall (s : @series S) vals t rest, nd_wf (se_coeff s) -> Z.of_nat (List.length vals) = nd_volume (se_coeff s) ->
  table num_text (nd_dim (se_coeff s)) 0 vals t ->
  se_read_coeff num_scanner (s, in_text (t ++ rest)) =
    RRet (with_coeff s (with_vals (se_coeff s) vals), in_text (match vals with [] => rest | _ => newline :: rest end)) tt.
Proof.
  intros s vals t rest W L H. destruct vals as [|a vals].
  - rewrite (table_length _ _ _ _ _ H eq_refl). apply (read_coeff_ok s [] [] rest W L); [constructor|constructor|left; reflexivity].
  - destruct (table_tokens _ _ _ _ _ (wf_dims_fit _ W ltac:(cbn in L; lia)) H) as (rows & E & F & [[? _]|(d & -> & T)]); [discriminate|].
    rewrite <- app_assoc. cbn [app]. rewrite (read_coeff_ok s rows d (newline :: rest) W); auto.
    + rewrite E. destruct rows; [discriminate|]. reflexivity.
    + rewrite <- L, <- E, map_length. reflexivity.
    + right. right. eexists _, _. split; [reflexivity|apply blank_newline].
Qed.
End IO.

Lemma print_read_ok : forall (S : SerOps) (print_num : sa S -> text) num_scanner, number_reader (fun w a => w = print_num a) num_scanner ->
  forall (s s' : @series S) rest, nd_wf (se_coeff s) -> nd_wf (se_coeff s') -> nd_dim (se_coeff s') = nd_dim (se_coeff s) ->
  exists t, se_print_coeff print_num s = Ok t /\
    se_read_coeff num_scanner (s', in_text (t ++ rest)) =
      RRet (with_coeff s' (with_vals (se_coeff s') (nd_val (se_coeff s))), in_text (match nd_val (se_coeff s) with [] => rest | _ => newline :: rest end)) tt.
Proof.
  intros S pn ns Hn s s' rest W W' Hd. destruct (print_coeff_ok pn s W) as (t & E & T). exists t. split; auto.
  apply (read_table_ok ns (fun w a => w = pn a) Hn); auto; [|rewrite Hd; exact T].
  rewrite (nd_wf_length _ _ W). destruct W as [(D & _ & _ & _ & V)|(U & _ & _ & V & _)]; destruct W' as [(D' & _ & _ & _ & V')|(U' & _ & _ & V' & _)].
  - lia.
  - destruct U'. congruence.
  - destruct U. congruence.
  - congruence.
Qed.

(** ** The property statements *)
Lemma print_coeff_table : forall (S : SerOps) (print_num : sa S -> text) (s : @series S), nd_reachable (sdflt S) (se_coeff s) ->
  exists t, se_print_coeff print_num s = Ok t /\ table (fun w a => w = print_num a) (nd_dim (se_coeff s)) 0 (nd_val (se_coeff s)) t.
Proof. intros S pn s H. apply print_coeff_ok. eapply nd_reachable_wf; eauto. Qed.

Lemma read_coeff_rows : forall (S : SerOps) (num_text : text -> sa S -> Prop) num_scanner, number_reader num_text num_scanner ->
  forall (s : @series S) rows d rest, nd_reachable (sdflt S) (se_coeff s) ->
  Z.of_nat (List.length rows) = nd_volume (se_coeff s) -> Forall (fun r => List.length (fst r) = List.length (nd_dim (se_coeff s))) rows ->
  tokens (entry_text num_text) d (entries rows) -> separated rows rest ->
  exists i, se_read_coeff num_scanner (s, is_open (Some (d ++ rest))) = RRet (with_values s (map snd rows), i) tt /\
    is_rest i = rest /\ is_fail i = false.
Proof.
  intros S nt ns Hn s rows d rest H L F T Hs. exists (end_of rows rest). split.
  - apply (read_coeff_ok ns nt Hn s rows d rest); auto. eapply nd_reachable_wf; eauto.
  - destruct rows; split; reflexivity.
Qed.

Lemma print_read : forall (S : SerOps) (print_num : sa S -> text) num_scanner, number_reader (fun w a => w = print_num a) num_scanner ->
  forall (s s' : @series S) rest, nd_reachable (sdflt S) (se_coeff s) -> nd_reachable (sdflt S) (se_coeff s') ->
  nd_dim (se_coeff s') = nd_dim (se_coeff s) ->
  exists t r s2, se_print_coeff print_num s = Ok t /\ se_read_coeff num_scanner (s', is_open (Some (t ++ rest))) = RRet (s2, is_open (Some r)) tt /\
    se_coeff s2 = se_coeff s /\ s2 = with_values s' (nd_val (se_coeff s)) /\
    (r = newline :: rest \/ r = rest /\ nd_val (se_coeff s) = []).
Proof.
  intros S pn ns Hn s s' rest H H' Hd. assert (W := nd_reachable_wf _ _ _ H). assert (W' := nd_reachable_wf _ _ _ H').
  destruct (print_read_ok S pn ns Hn s s' rest W W' Hd) as (t & E & R).
  eexists t, _, _. split; [exact E|]. split; [exact R|]. split; [|split; [reflexivity|destruct (nd_val (se_coeff s)); auto]].
  cbn [with_coeff with_vals se_coeff].
  destruct (se_coeff s) as [d u v o vol], (se_coeff s') as [d' u' v' o' vol']. cbn in *. subst d'.
  destruct W as [(D & E1 & E2 & E3 & E4)|(U & E1 & E2 & E3 & E4)]; destruct W' as [(D' & E1' & E2' & E3' & E4')|(U' & E1' & E2' & E3' & E4')]; cbn in *.
  - subst. reflexivity.
  - destruct U'. congruence.
  - destruct U. congruence.
  - subst. reflexivity.
Qed.

Lemma print_products : forall (S : SerOps) (print_num : sa S -> text) (s : @series S), nd_reachable (sdflt S) (se_coeff s) ->
  forall print value f,
  (print = se_print_basis print_num s /\ value = se_get_product s) \/
  (exists di, print = se_print_basis_grad print_num s di /\ value = fun tm => se_get_product_grad s tm di) \/
  (exists di dj, print = se_print_basis_hess print_num s di dj /\ value = fun tm => se_get_product_hess s tm di dj) ->
  (forall tm, valid_index (nd_dim (se_coeff s)) tm -> value tm = Ok (f tm)) ->
  exists t vals, print = Ok t /\ table (fun w a => w = print_num a) (nd_dim (se_coeff s)) 0 vals t /\
    Z.of_nat (List.length vals) = nd_volume (se_coeff s) /\
    forall tm, nd_dim (se_coeff s) <> [] -> valid_index (nd_dim (se_coeff s)) tm ->
      nth_error vals (Z.to_nat (row_major (nd_dim (se_coeff s)) tm)) = Some (f tm).
Proof.
  intros S pn s H print value f C Hv. assert (W := nd_reachable_wf _ _ _ H).
  destruct (print_values_ok pn (se_coeff s) value f W Hv) as (t & vals & E & R). exists t, vals. split; [|exact R].
  destruct C as [[-> ->]|[(di & -> & ->)|(di & dj & -> & ->)]]; exact E.
Qed.
