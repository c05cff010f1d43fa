(** Lemmas about input streams. *)
From Coq Require Import ZArith List Bool Ascii String Lia ZifyBool.
From Verif Require Import Model.Outcome Model.Stream Model.Vtk Spec.Tensor Spec.Vtk.
Import ListNotations.
Local Open Scope Z_scope.

Definition isnil {A : Type} (l : list A) : bool := match l with [] => true | _ => false end.
(** A stream without failure, at the end or not. *)
Definition at_text (t : text) : istr := mkIstr t (isnil t) false.
Definition in_text (t : text) : istr := mkIstr t false false.

Lemma nl_newline : nl = newline.
Proof. reflexivity. Qed.

Lemma space_blank : forall c, space c = true <-> blank c.
Proof.
  intros c. unfold blank, newline. destruct c as [[] [] [] [] [] [] [] []]; vm_compute; split; intros H;
    try discriminate; try reflexivity; try tauto; repeat (destruct H as [H|H]; [discriminate|]); contradiction.
Qed.

Lemma space_not_blank : forall c, ~ blank c -> space c = false.
Proof. intros c H. destruct (space c) eqn:E; auto. apply space_blank in E. contradiction. Qed.

Lemma cut_line_one : forall l r, one_line l -> cut_line (l ++ nl :: r) = (l, Some r).
Proof.
  induction l as [|c l IH]; intros r H; simpl.
  - reflexivity.
  - destruct (Ascii.eqb_spec c nl) as [->|Hc]; [exfalso; apply H; left; apply nl_newline|].
    rewrite IH; auto. intros Hin. apply H. right; auto.
Qed.

Lemma cut_line_end : forall l, one_line l -> cut_line l = (l, None).
Proof.
  induction l as [|c l IH]; intros H; simpl; [reflexivity|].
  destruct (Ascii.eqb_spec c nl) as [->|Hc]; [exfalso; apply H; left; apply nl_newline|].
  rewrite IH; auto. intros Hin. apply H. right; auto.
Qed.

Lemma getline_one : forall old l r, one_line l -> getline old (in_text (l ++ newline :: r)) = (l, in_text r).
Proof. intros. unfold getline, in_text. simpl. rewrite <- nl_newline, cut_line_one; auto. Qed.

Lemma getline_end : forall old l, one_line l -> getline old (in_text l) = (l, mkIstr [] true (isnil l)).
Proof. intros. unfold getline, in_text. simpl. rewrite cut_line_end; auto. Qed.

Lemma skip_blanks : forall b t, blanks b -> skip_space (b ++ t) = skip_space t.
Proof.
  induction b as [|c b IH]; intros t H; [reflexivity|]. inversion H; subst. simpl.
  replace (space c) with true by (symmetry; apply space_blank; auto). auto.
Qed.

Lemma skip_word : forall w t, word w -> skip_space (w ++ t) = w ++ t.
Proof.
  intros [|c w] t [H1 H2]; [congruence|]. inversion H2; subst. simpl. rewrite space_not_blank; auto.
Qed.

(** One token is extracted. *)
Lemma extract_tok : forall (A : Type) (tok : text -> A -> Prop) sc old b t a r,
  number_reader tok sc -> blanks b -> tok t a -> ends_word r -> extract sc old (in_text (b ++ t ++ r)) = (Some a, at_text r).
Proof.
  intros A tok sc old b t a r H Hb Ht Hr. destruct (H t a Ht) as [Hw Hs]. unfold extract, in_text. simpl.
  rewrite skip_blanks, skip_word; auto.
  destruct (t ++ r) as [|c u] eqn:E.
  - destruct t; [destruct Hw as [Hw _]; congruence|discriminate].
  - rewrite <- E, (Hs r Hr). reflexivity.
Qed.

Lemma ends_app : forall r s, ends_word r -> ends_word s -> ends_word (r ++ s).
Proof.
  intros r s [->|(c & t & -> & H)] Hs; [exact Hs|]. right. exists c, (t ++ s). auto.
Qed.

Lemma tokens_nil : forall (A : Type) (tok : text -> A -> Prop) t, tokens tok t [] -> t = [].
Proof. intros. inversion H; auto. Qed.

Lemma at_in : forall t, t <> [] -> at_text t = in_text t.
Proof. intros [|c t] H; [congruence|reflexivity]. Qed.

Lemma tokens_cons_ne : forall (A : Type) (tok : text -> A -> Prop) sc t l, number_reader tok sc -> l <> [] -> tokens tok t l -> t <> [].
Proof.
  intros A tok sc t l Hn Hl H. inversion H as [|b u a r l' H1 H2 H3 H4]; subst; [congruence|].
  destruct (Hn u a H2) as [[Hu _] _]. destruct b; simpl; [destruct u; [congruence|discriminate]|discriminate].
Qed.

Lemma tokens_ne : forall (A : Type) (tok : text -> A -> Prop) sc t a l, number_reader tok sc -> tokens tok t (a :: l) -> t <> [].
Proof. intros. eapply tokens_cons_ne; eauto. discriminate. Qed.

(** The first of a list of tokens is extracted; the stream is then at the others. *)
Lemma extract_first : forall (A : Type) (tok : text -> A -> Prop) sc old d a l s,
  number_reader tok sc -> tokens tok d (a :: l) -> ends_word s ->
  exists r, tokens tok r l /\ extract sc old (in_text (d ++ s)) = (Some a, at_text (r ++ s)).
Proof.
  intros A tok sc old d a l s Hn H Hs. inversion H as [|b t a' r l' Hb Ht Hr Hl]; subst.
  exists r. split; auto. rewrite <- !app_assoc. eapply extract_tok; eauto. apply ends_app; auto.
Qed.

(** ** Decimal numbers *)

Lemma digit_numeral : forall d, 0 <= d <= 9 -> digit (numeral d) = Some d.
Proof.
  intros d H. assert (d = 0 \/ d = 1 \/ d = 2 \/ d = 3 \/ d = 4 \/ d = 5 \/ d = 6 \/ d = 7 \/ d = 8 \/ d = 9) as C by lia.
  repeat (destruct C as [->|C]; [reflexivity|]). subst; reflexivity.
Qed.

Lemma numeral_word : forall d, 0 <= d <= 9 -> ~ blank (numeral d).
Proof.
  intros d H B. apply space_blank in B. revert B.
  assert (d = 0 \/ d = 1 \/ d = 2 \/ d = 3 \/ d = 4 \/ d = 5 \/ d = 6 \/ d = 7 \/ d = 8 \/ d = 9) as C by lia.
  repeat (destruct C as [->|C]; [discriminate|]). subst; discriminate.
Qed.

Lemma decimal_digits : forall t n, decimal t n -> Forall (fun c => exists d, 0 <= d <= 9 /\ c = numeral d) t /\ t <> [] /\ 0 <= n.
Proof.
  intros t n H. induction H as [d Hd|t n d H (IH1 & IH2 & IH3) Hd].
  - split; [constructor; eauto|]. split; [discriminate|lia].
  - split; [apply Forall_app; split; auto; constructor; eauto|]. split; [|lia]. destruct t; discriminate.
Qed.

Lemma decimal_word : forall t n, decimal t n -> word t.
Proof.
  intros t n H. destruct (decimal_digits t n H) as (H1 & H2 & _). split; auto.
  eapply Forall_impl; [|exact H1]. intros c (d & Hd & ->). apply numeral_word; auto.
Qed.

Definition no_digit (r : text) : Prop := match r with [] => True | c :: _ => digit c = None end.

Lemma blank_no_digit : forall r, ends_word r -> no_digit r.
Proof.
  intros r [->|(c & t & -> & H)]; [exact I|]. simpl. unfold blank, newline in H. simpl in H.
  repeat (destruct H as [<-|H]; [reflexivity|]). contradiction.
Qed.

Lemma scan_digits_stop : forall r acc any, no_digit r -> scan_digits acc any r = (acc, any, r).
Proof. intros [|c r] acc any H; [reflexivity|]. simpl in *. now rewrite H. Qed.

(** Scanning a numeral in the middle of an accumulation. *)
Lemma scan_digits_app : forall t acc any r, Forall (fun c => exists d, 0 <= d <= 9 /\ c = numeral d) t -> t <> [] ->
  exists v, scan_digits acc any (t ++ r) = scan_digits v true r /\ scan_digits acc any t = (v, true, []).
Proof.
  induction t as [|c t IH]; intros acc any r H Hne; [congruence|]. inversion H as [|? ? (d & Hd & ->) Ht]; subst.
  cbn [scan_digits app]. rewrite digit_numeral; auto.
  destruct t as [|c' t'].
  - eexists. split; reflexivity.
  - destruct (IH (acc * 10 + d) true r Ht ltac:(discriminate)) as (v & E1 & E2). exists v. split; auto.
Qed.

Lemma scan_decimal : forall t n r, decimal t n -> no_digit r -> scan_digits 0 false (t ++ r) = (n, true, r).
Proof.
  intros t n r H. revert r. induction H as [d Hd|t n d H IH Hd]; intros r Hr.
  - cbn [scan_digits app]. rewrite digit_numeral; auto. now rewrite scan_digits_stop.
  - rewrite <- app_assoc. destruct (decimal_digits t n H) as (Hf & Hne & _).
    destruct (scan_digits_app t 0 false ([numeral d] ++ r) Hf Hne) as (v & E1 & E2). rewrite E1.
    specialize (IH [] I). rewrite app_nil_r, E2 in IH. injection IH as ->.
    cbn [scan_digits app]. rewrite digit_numeral by auto. rewrite scan_digits_stop by auto. f_equal. f_equal. lia.
Qed.

Lemma scan_signed_decimal : forall t n r, decimal t n -> no_digit r -> scan_signed (t ++ r) = (false, (n, true, r)).
Proof.
  intros t n r H Hr. rewrite <- (scan_decimal t n r H Hr). destruct (decimal_digits t n H) as (Hf & Hne & _).
  destruct t as [|c t]; [congruence|]. inversion Hf as [|? ? (d & Hd & ->) _]; subst. cbn [app scan_signed].
  assert (Ascii.eqb (numeral d) "-" = false /\ Ascii.eqb (numeral d) "+" = false) as [-> ->]; [|reflexivity].
  assert (d = 0 \/ d = 1 \/ d = 2 \/ d = 3 \/ d = 4 \/ d = 5 \/ d = 6 \/ d = 7 \/ d = 8 \/ d = 9) as C by lia.
  repeat (destruct C as [->|C]; [split; reflexivity|]). subst; split; reflexivity.
Qed.

(** Unsigned numerals. *)
Lemma plain_ulong : forall t n, decimal t n -> n <= ulong_max -> ulong_text t n.
Proof. intros t n H Hn. exists t, n. split; [exact H|]. split; [exact Hn|]. left. auto. Qed.

Lemma ulong_nonneg : forall t n, ulong_text t n -> 0 <= n.
Proof.
  intros t n (d & k & H & Hk & [[_ ->]|[_ ->]]); pose proof (proj2 (proj2 (decimal_digits _ _ H))); [lia|].
  destruct (k =? 0); [lia|]. unfold ulong_max in Hk. lia.
Qed.

Lemma ulong_reader : number_reader ulong_text ulong_scanner.
Proof.
  intros t n (d & k & H & Hk & C). destruct (decimal_word d k H) as [Hw Hne].
  assert (Hp : ~ blank "+" /\ ~ blank "-") by (split; intros B; unfold blank, newline in B; simpl in B; repeat (destruct B as [B|B]; [discriminate|]); contradiction).
  split. { destruct C as [[[->| ->] _]|[-> _]]; split; auto; try discriminate; constructor; tauto. }
  intros r Hr. unfold ulong_scanner. pose proof (blank_no_digit r Hr) as Hr'.
  assert (E : (ULONG_MAX <? k) = false) by (unfold ULONG_MAX, ulong_max in *; lia).
  destruct C as [[[->| ->] ->]|[-> ->]].
  - rewrite (scan_signed_decimal d k r H Hr'). cbn [negb]. now rewrite E.
  - cbn [app scan_signed Ascii.eqb Bool.eqb]. rewrite (scan_decimal d k r H Hr'). cbn [negb]. now rewrite E.
  - cbn [app scan_signed Ascii.eqb Bool.eqb]. rewrite (scan_decimal d k r H Hr'). cbn [negb]. rewrite E.
    pose proof (proj2 (proj2 (decimal_digits _ _ H))). destruct (Z.eqb_spec k 0) as [->|Hk0]; [reflexivity|].
    rewrite Z.mod_opp_l_nz; rewrite ?Z.mod_small by (unfold ULONG_MAX, ulong_max in *; lia); [reflexivity|unfold ULONG_MAX; lia|assumption].
Qed.

(** ** Words *)
Lemma scan_word_ok : forall w r, Forall (fun c => ~ blank c) w -> ends_word r -> scan_word (w ++ r) = (w, r).
Proof.
  induction w as [|c w IH]; intros r H Hr.
  - destruct Hr as [->|(c & t & -> & Hc)]; [reflexivity|]. simpl. replace (space c) with true; auto. symmetry. apply space_blank; auto.
  - inversion H; subst. simpl. rewrite space_not_blank by auto. now rewrite IH.
Qed.

Lemma word_reader : number_reader (fun t a => t = a /\ word t) word_scanner.
Proof.
  intros t a [<- Hw]. split; auto. intros r Hr. unfold word_scanner. rewrite scan_word_ok; auto; [|apply Hw].
  destruct t; [destruct Hw; congruence|reflexivity].
Qed.

(** ** Prefixes *)
Lemma prefix_of_spec : forall w l, prefix_of (txt w) l = true <-> starts_with w l.
Proof.
  unfold starts_with, txt. intros w. induction (list_ascii_of_string w) as [|a t IH]; intros l.
  - split; [exists l; reflexivity|reflexivity].
  - destruct l as [|c l]; simpl.
    + split; [discriminate|intros (r & H); discriminate].
    + rewrite andb_true_iff, IH. destruct (Ascii.eqb_spec a c) as [->|Hne].
      * split; [intros [_ (r & ->)]; exists r; reflexivity|]. intros (r & H). injection H as ->. eauto.
      * split; [intros [? _]; discriminate|]. intros (r & H). injection H as ? ?. congruence.
Qed.

Lemma prefix_of_not : forall w l, ~ starts_with w l -> prefix_of (txt w) l = false.
Proof. intros w l H. destruct (prefix_of (txt w) l) eqn:E; auto. apply prefix_of_spec in E. contradiction. Qed.
