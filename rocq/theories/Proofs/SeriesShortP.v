(** Reading coefficients from a text that is too short or breaks off. *)
From Coq Require Import ZArith List Bool Ascii Lia ZifyBool.
From Verif Require Import Model.Outcome Model.Num Model.PNDArray Model.PSimple Model.BasisSet Model.Series Model.Stream Model.SeriesIO.
From Verif Require Import Spec.Tensor Spec.NDHistory Spec.Vtk Spec.SeriesIO.
From Verif Require Import Proofs.OutcomeP Proofs.PNDArrayP Proofs.StreamP Proofs.SeriesIOP.
Import ListNotations.
Local Open Scope Z_scope.

Lemma extract_bad (A : Type) (sc : scanner A) old s : is_good s = false -> exists s', extract sc old s = (old, s') /\ is_fail s' = true.
Proof. intros H. unfold extract. rewrite H. eexists. split; reflexivity. Qed.
Lemma fail_bad s : is_fail s = true -> is_good s = false.
Proof. intros H. unfold is_good. rewrite H. apply andb_false_r. Qed.

Lemma skip_all b : blanks b -> skip_space b = [].
Proof. intros H. rewrite <- (app_nil_r b), skip_blanks; auto. Qed.

Lemma no_digit_char c : (forall d, 0 <= d <= 9 -> c <> numeral d) -> digit c = None.
Proof.
  intros H. unfold digit. destruct (andb _ _) eqn:E; [|reflexivity]. exfalso.
  apply (H (Z.of_nat (nat_of_ascii c) - 48)); [lia|]. unfold numeral.
  replace (48 + Z.to_nat (Z.of_nat (nat_of_ascii c) - 48))%nat with (nat_of_ascii c) by lia. now rewrite ascii_nat_embedding.
Qed.

(** The next index cannot be read. *)
Lemma extract_no_index old u : no_index u -> forall s, s = in_text u \/ s = at_text u -> is_fail (snd (extract int_scanner old s)) = true.
Proof.
  intros H s Hs.
  assert (G : is_fail (snd (extract int_scanner old (in_text u))) = true).
  { destruct H as [b Hb|b w z r Hb Hw Hz Hr|b c r Hb Hc Hsign Hd].
    - unfold extract, in_text. cbn [is_good is_eof is_fail negb andb is_rest]. unfold is_good. cbn [is_eof is_fail negb andb]. rewrite skip_all by exact Hb. reflexivity.
    - assert (Ww : word w).
      { destruct Hw as [t n Hn|t n Hn]; destruct (decimal_word _ _ Hn) as [N W]; [split; assumption|]. split; [discriminate|]. constructor; [|exact W].
        intros B. cbn in B. repeat (destruct B as [B|B]; [discriminate|]). exact B. }
      unfold extract, in_text, is_good. cbn [is_eof is_fail negb andb is_rest]. rewrite skip_blanks, skip_word by auto.
      assert (Hwr : exists c t, w ++ r = c :: t) by (destruct Ww as [Ww _]; destruct w as [|c w]; [congruence|eexists _, _; reflexivity]).
      destruct Hwr as (c & t & E). rewrite E. cbn match. rewrite <- E. clear E c t Hs.
      assert (B : snd (fst (int_scanner (w ++ r))) = false).
      { unfold int_scanner. destruct Hw as [t n Hn|t n Hn].
        - rewrite (scan_signed_decimal _ _ _ Hn (blank_no_digit _ Hr)). cbn [negb].
          destruct (n <? INT_MIN) eqn:E1; [reflexivity|]. destruct (INT_MAX <? n) eqn:E2; [reflexivity|]. exfalso. apply Hz. unfold fits_int, INT_MIN, INT_MAX in *. lia.
        - unfold scan_signed. cbn [app]. change (Ascii.eqb "-" "-") with true. cbn iota. rewrite (scan_decimal _ _ _ Hn (blank_no_digit _ Hr)). cbn [negb].
          destruct (- n <? INT_MIN) eqn:E1; [reflexivity|]. destruct (INT_MAX <? - n) eqn:E2; [reflexivity|]. exfalso. apply Hz. unfold fits_int, INT_MIN, INT_MAX in *. lia. }
      destruct (int_scanner (w ++ r)) as [[v ok] q]. cbn [fst snd] in B. subst ok. reflexivity.
    - unfold extract, in_text, is_good. cbn [is_eof is_fail negb andb is_rest]. rewrite skip_blanks by exact Hb.
      change (c :: r) with ([c] ++ r). rewrite skip_word by (split; [discriminate|constructor; [exact Hc|constructor]]). cbn [app].
      unfold int_scanner, scan_signed.
      destruct (Ascii.eqb_spec c "-") as [->|_]; [destruct Hsign; simpl; auto|]. destruct (Ascii.eqb_spec c "+") as [->|_]; [destruct Hsign; simpl; auto|].
      cbn [scan_digits]. rewrite no_digit_char by exact Hd. reflexivity. }
  destruct Hs as [->| ->]; [exact G|]. destruct u as [|c t]; [reflexivity|exact G].
Qed.

Lemma skipn_skipn' (B : Type) : forall a b (l : list B), skipn a (skipn b l) = skipn (b + a) l.
Proof. intros a b. induction b as [|b IH]; intros l; [reflexivity|]. destruct l as [|x l]; [rewrite !skipn_nil; reflexivity|]. cbn [skipn Nat.add]. apply IH. Qed.

Section Short.
Context {S : SerOps}.
Local Notation A := (sa S).
Context (num_scanner : scanner A) (num_text : text -> A -> Prop) (Hnum : number_reader num_text num_scanner).

Lemma read_term_failed : forall term s, is_fail s = true -> exists s', read_term term s = (term, s') /\ is_fail s' = true.
Proof.
  induction term as [|k term IH]; intros s H; [exists s; auto|]. cbn [read_term].
  destruct (extract_bad _ int_scanner (Some k) s (fail_bad _ H)) as (s1 & -> & F). destruct (IH s1 F) as (s2 & -> & F2). exists s2. split; auto.
Qed.

Lemma read_rows_failed : forall is term (c : nd A) s, is_fail s = true -> Forall (fun i => exists k, i = Z.of_nat k /\ (k < List.length (nd_val c))%nat) is ->
  exists s', read_rows num_scanner is term c s = Ok (c, s') /\ is_fail s' = true.
Proof.
  induction is as [|i is IH]; intros term c s H F; [exists s; auto|]. inversion F as [|? ? (k & -> & Hk) F']; subst. cbn [read_rows].
  destruct (read_term_failed term s H) as (s1 & -> & F1).
  unfold nd_get, vget. replace (0 <=? Z.of_nat k) with true by lia. rewrite Nat2Z.id.
  destruct (nth_error (nd_val c) k) as [old|] eqn:En; [|apply nth_error_None in En; lia]. cbn [obind].
  destruct (extract_bad _ num_scanner (Some old) s1 (fail_bad _ F1)) as (s2 & -> & F2).
  assert (E : nd_set c (Z.of_nat k) old = Ok c).
  { unfold nd_set. rewrite vset_ok by lia. cbn [obind]. rewrite Nat2Z.id. destruct c as [d u v o vol]. cbn [nd_val nd_dim nd_unroll nd_order nd_volume] in *. do 2 f_equal.
    clear - En. revert k En. induction v as [|x v IH]; intros [|k] En; cbn in *; try discriminate; [congruence|]. f_equal. apply IH. exact En. }
  rewrite E. cbn [obind]. apply IH; assumption.
Qed.

Lemma read_rows_app : forall is1 term (c : nd A) s c' s', read_rows num_scanner is1 term c s = Ok (c', s') ->
  exists term', List.length term' = List.length term /\ forall is2, read_rows num_scanner (is1 ++ is2) term c s = read_rows num_scanner is2 term' c' s'.
Proof.
  assert (L : forall term s, List.length (fst (read_term term s)) = List.length term).
  { induction term as [|k term IH]; intros s; [reflexivity|]. cbn [read_term]. destruct (extract int_scanner (Some k) s) as [a s1]. specialize (IH s1).
    destruct (read_term term s1) as [l s2]. cbn [fst List.length] in *. congruence. }
  induction is1 as [|i is1 IH]; intros term c s c' s' H; cbn [read_rows app] in *.
  - injection H as <- <-. exists term. auto.
  - specialize (L term s). destruct (read_term term s) as [term1 s1]. cbn [fst] in L. destruct (nd_get c i) as [old| | | |]; try discriminate. cbn [obind] in *.
    destruct (extract num_scanner (Some old) s1) as [a s2]. destruct (nd_set c i _) as [c1| | | |]; try discriminate. cbn [obind] in *.
    destruct (IH _ _ _ _ _ H) as (term' & L' & E). exists term'. split; [congruence|exact E].
Qed.

Lemma read_term_short : forall zs term d u s, (List.length zs < List.length term)%nat -> tokens (fun w z => int_text w z /\ fits_int z) d zs ->
  separated zs u -> no_index u -> s = in_text (d ++ u) \/ s = at_text (d ++ u) -> is_fail (snd (read_term term s)) = true.
Proof.
  induction zs as [|z zs IH]; intros term d u s Hl T Hs Hu Hst; (destruct term as [|k term]; [cbn in Hl; lia|]).
  - apply tokens_nil in T. subst d. cbn [app] in Hst. cbn [read_term]. pose proof (extract_no_index (Some k) u Hu s Hst) as F.
    destruct (extract int_scanner (Some k) s) as [a s1]. cbn [snd] in F. destruct (read_term_failed term s1 F) as (s2 & -> & F2). exact F2.
  - assert (Hsep : ends_word u) by (destruct Hs as [Hs|Hs]; [discriminate|exact Hs]).
    destruct (extract_entry _ _ _ _ int_scanner (Some k) d z z zs u int_reader (fun w Hw => Hw) (fun w x Hw => proj1 (int_reader w x Hw)) T (fun _ => Hsep)) as (r & T' & E & _).
    assert (Hd : d ++ u <> []) by (intros N; rewrite N in E; cbv in E; discriminate).
    assert (s = in_text (d ++ u)) as -> by (destruct Hst as [->| ->]; [reflexivity|apply at_in, Hd]).
    cbn [read_term]. rewrite E. specialize (IH term r u (at_text (r ++ u)) ltac:(cbn in Hl; lia) T' (or_intror Hsep) Hu (or_intror eq_refl)).
    destruct (read_term term (at_text (r ++ u))) as [l s2]. exact IH.
Qed.

Lemma read_rows_cut : forall is i term (c : nd A) s, is_fail (snd (read_term term s)) = true ->
  Forall (fun i => exists k, i = Z.of_nat k /\ (k < List.length (nd_val c))%nat) (i :: is) ->
  exists s', read_rows num_scanner (i :: is) term c s = Ok (c, s') /\ is_fail s' = true.
Proof.
  intros is i term c s H F. destruct (read_term term s) as [term1 s1] eqn:E. cbn [snd] in H.
  destruct (read_rows_failed (i :: is) [] c s1 H F) as (s2 & E2 & F2). 
  cbn [read_rows] in *. rewrite E. inversion F as [|? ? (k & -> & Hk) F']; subst. cbn [read_term] in E2.
  unfold nd_get, vget in *. replace (0 <=? Z.of_nat k) with true in * by lia. rewrite Nat2Z.id in *.
  destruct (nth_error (nd_val c) k) as [old|] eqn:En; [|apply nth_error_None in En; lia]. cbn [obind] in *.
  destruct (extract_bad _ num_scanner (Some old) s1 (fail_bad _ H)) as (s3 & Ex & F3). rewrite Ex in *.
  assert (E4 : nd_set c (Z.of_nat k) old = Ok c).
  { unfold nd_set. rewrite vset_ok by lia. cbn [obind]. rewrite Nat2Z.id. destruct c as [d u v o vol]. cbn [nd_val nd_dim nd_unroll nd_order nd_volume] in *. do 2 f_equal.
    clear - En. revert k En. induction v as [|x v IH]; intros [|k] En; cbn in *; try discriminate; [congruence|]. f_equal. apply IH. exact En. }
  rewrite E4. cbn [obind]. exact (read_rows_failed is term1 c s3 F3 F').
Qed.

(** The rows that are there. *)
Lemma read_rows_some : forall rows k term (c : nd A) d rest,
  (k + List.length rows <= List.length (nd_val c))%nat -> Forall (fun r => List.length (fst r) = List.length term) rows ->
  tokens (entry_text num_text) d (entries rows) -> separated rows rest ->
  read_rows num_scanner (map Z.of_nat (seq k (List.length rows))) term c (in_text (d ++ rest)) =
    Ok (with_vals c (firstn k (nd_val c) ++ map snd rows ++ skipn (k + List.length rows) (nd_val c)), end_of rows rest).
Proof.
  induction rows as [|[zs a] rows IH]; intros k term c d rest Hk Hf H Hs.
  - cbn [entries map List.concat] in H. apply tokens_nil in H. subst d. cbn [List.length seq map read_rows app end_of].
    replace (k + 0)%nat with k by lia. rewrite firstn_skipn. destruct c; reflexivity.
  - inversion Hf as [|? ? Hlen Hf']; subst. cbn [fst] in Hlen.
    assert (Hsep : ends_word rest) by (destruct Hs as [Hs|Hs]; [discriminate|exact Hs]).
    unfold entries in H. cbn [map List.concat fst snd] in H. rewrite <- app_assoc in H. fold (entries rows) in H. cbn [app] in H.
    destruct (read_term_ok num_scanner num_text Hnum zs term d (inr a :: entries rows) rest (eq_sym Hlen) ltac:(discriminate) H) as (r & T & E).
    cbn [List.length seq map read_rows]. rewrite E.
    unfold nd_get, vget. replace (0 <=? Z.of_nat k) with true by lia. rewrite Nat2Z.id.
    destruct (nth_error (nd_val c) k) as [old|] eqn:En; [|apply nth_error_None in En; cbn in Hk; lia]. cbn [obind].
    destruct (extract_entry _ _ _ _ num_scanner (Some old) r (inr a) a _ rest Hnum (fun w Hw => Hw) (entry_word num_scanner num_text Hnum) T (fun _ => Hsep))
      as (r' & T' & E' & Ea). rewrite E'.
    assert (Hset : nd_set c (Z.of_nat k) a = Ok (with_vals c (firstn k (nd_val c) ++ a :: skipn (Datatypes.S k) (nd_val c)))).
    { unfold nd_set. rewrite vset_ok by (cbn in Hk; lia). cbn [obind]. rewrite Nat2Z.id, lset_split by (cbn in Hk; lia). reflexivity. }
    rewrite Hset. cbn [obind]. destruct rows as [|row rows].
    + cbn [entries map List.concat] in T'. apply tokens_nil in T'. subst r'. cbn [List.length seq map snd app].
      replace (k + 1)%nat with (Datatypes.S k) by lia. reflexivity.
    + rewrite (Ea ltac:(destruct row as [[|? ?] ?]; discriminate)).
      rewrite IH with (d := r') (rest := rest); auto.
      * unfold with_vals. cbn [nd_dim nd_unroll nd_val nd_order nd_volume end_of]. f_equal. f_equal. f_equal. cbn [List.length] in Hk.
        rewrite firstn_set by lia. rewrite <- app_assoc. f_equal. cbn [map snd app]. f_equal. f_equal. f_equal.
        rewrite skipn_app, skipn_all2 by (rewrite firstn_length; lia). cbn [app]. rewrite firstn_length, Nat.min_l by lia. cbn [List.length].
        replace (Datatypes.S k + Datatypes.S (List.length rows) - k)%nat with (Datatypes.S (Datatypes.S (List.length rows))) by lia.
        rewrite skipn_cons, skipn_skipn'. f_equal. lia.
      * cbn [with_vals nd_val]. rewrite app_length, firstn_length. cbn [List.length] in *. rewrite skipn_length. lia.
      * eapply Forall_impl; [|exact Hf']. intros x Hx. cbn beta in Hx. congruence.
      * right; auto.
Qed.
End Short.

Lemma read_short : forall (S : SerOps) (num_text : text -> sa S -> Prop) num_scanner, number_reader num_text num_scanner ->
  forall (s : @series S) rows zs d1 d2 u, nd_reachable (sdflt S) (se_coeff s) ->
  Z.of_nat (List.length rows) < nd_volume (se_coeff s) -> Forall (fun r => List.length (fst r) = List.length (nd_dim (se_coeff s))) rows ->
  (List.length zs < List.length (nd_dim (se_coeff s)))%nat ->
  tokens (entry_text num_text) d1 (entries rows) -> separated rows (d2 ++ u) ->
  tokens (fun w z => int_text w z /\ fits_int z) d2 zs -> separated zs u -> no_index u ->
  exists i, se_read_coeff num_scanner (s, is_open (Some (d1 ++ d2 ++ u))) =
      RRet (with_values s (map snd rows ++ skipn (List.length rows) (nd_val (se_coeff s))), i) tt /\ is_fail i = true.
Proof.
  intros S nt ns Hn s rows zs d1 d2 u R Hv F Hz T1 S1 T2 S2 Hu. pose proof (nd_reachable_wf _ _ _ R) as W. pose proof (nd_wf_length _ _ W) as L.
  unfold se_read_coeff, zseq. change (is_open (Some (d1 ++ d2 ++ u))) with (in_text (d1 ++ d2 ++ u)).
  set (c := se_coeff s) in *. set (n := List.length rows) in *.
  assert (Hlen : (n <= List.length (nd_val c))%nat) by lia.
  assert (Hseq : seq 0 (Z.to_nat (nd_volume c)) = seq 0 n ++ seq n (Z.to_nat (nd_volume c) - n)).
  { replace (Z.to_nat (nd_volume c)) with (n + (Z.to_nat (nd_volume c) - n))%nat at 1 by lia. rewrite seq_app. reflexivity. }
  rewrite Hseq, map_app.
  assert (Hlt : List.length (repeat 0 (Z.to_nat (nd_order c))) = List.length (nd_dim c)) by (rewrite repeat_length, (wf_order _ W); lia).
  pose proof (read_rows_some ns nt Hn rows 0 (repeat 0 (Z.to_nat (nd_order c))) c d1 (d2 ++ u)) as E.
  destruct (read_rows_app ns _ _ _ _ _ _ (E Hlen ltac:(eapply Forall_impl; [|exact F]; intros r Hr; congruence) T1 S1)) as (term' & Lt & Ea).
  change (map Z.of_nat (seq 0 (List.length rows))) with (map Z.of_nat (seq 0 n)) in Ea. rewrite Ea. clear Ea E.
  set (c1 := with_vals c _). assert (L1 : List.length (nd_val c1) = List.length (nd_val c)).
  { unfold c1, with_vals. cbn [nd_val firstn app]. rewrite app_length, map_length, skipn_length. lia. }
  destruct (Z.to_nat (nd_volume c) - n)%nat as [|m] eqn:Em; [lia|]. cbn [seq map].
  destruct (read_rows_cut ns (map Z.of_nat (seq (Datatypes.S n) m)) (Z.of_nat n) term' c1 (end_of rows (d2 ++ u))) as (i & Ei & Fi).
  - apply (read_term_short zs term' d2 u); auto; [lia|]. destruct rows; [left|right]; reflexivity.
  - apply Forall_forall. intros x Hx. change (Z.of_nat n :: map Z.of_nat (seq (Datatypes.S n) m)) with (map Z.of_nat (seq n (Datatypes.S m))) in Hx.
    apply in_map_iff in Hx. destruct Hx as (k & <- & Hk). apply in_seq in Hk. exists k. split; [reflexivity|]. lia.
  - rewrite Ei. exists i. split; [|exact Fi]. reflexivity.
Qed.
