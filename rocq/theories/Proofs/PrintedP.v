(** Printed forms of pieces and piecewise functions. *)
From Coq Require Import List Bool String Lia Arith.
From Verif Require Import Model.Outcome Model.Piecewise Spec.Piecewise.
Import ListNotations.
Local Open Scope string_scope.

Lemma sapp_assoc : forall a b c : string, (a ++ b) ++ c = a ++ (b ++ c).
Proof. induction a; intros; cbn; congruence. Qed.

Lemma sapp_nil : forall a : string, a ++ "" = a.
Proof. induction a; cbn; congruence. Qed.

Lemma concat_cons : forall x l, String.concat "" (x :: l) = x ++ String.concat "" l.
Proof. intros x [|y l]; cbn; auto. now rewrite sapp_nil. Qed.

Section Loop.
Context {X : Type} (first last mid : X -> outcome string).

Lemma print_rest : forall m ms z sz n i str, Forall2 (fun c s => mid c = Ok s) m ms -> last z = Ok sz -> i <> 0 -> n = i + List.length m + 1 ->
  print_from first last mid n i (app m [z]) str = Ok (str ++ String.concat "" ms ++ sz).
Proof.
  intros m ms z sz n i str H. revert n i str. induction H as [|c s m ms Hc H IH]; intros n i str Hz Hi Hn.
  - cbn [app print_from]. destruct (Nat.eqb_spec i 0); [congruence|]. cbn in Hn. destruct (Nat.eqb_spec i (n - 1)); [|lia]. rewrite Hz. reflexivity.
  - cbn [app print_from]. destruct (Nat.eqb_spec i 0); [congruence|]. cbn in Hn. destruct (Nat.eqb_spec i (n - 1)); [lia|].
    rewrite Hc. cbn [obind]. rewrite IH by (auto; lia). now rewrite concat_cons, !sapp_assoc.
Qed.

Lemma print_many : forall c m z sc ms sz str, first c = Ok sc -> Forall2 (fun c s => mid c = Ok s) m ms -> last z = Ok sz ->
  print_from first last mid (List.length (c :: app m [z])) 0 (c :: app m [z]) str = Ok (str ++ sc ++ String.concat "" ms ++ sz).
Proof.
  intros c m z sc ms sz str Hc Hm Hz. cbn [print_from]. cbn [Nat.eqb]. rewrite Hc. cbn [obind].
  rewrite (print_rest m ms z sz); auto.
  - now rewrite !sapp_assoc.
  - cbn. rewrite app_length. cbn. lia.
Qed.

Lemma print_throws : forall n c1 c c2 e i str, (forall x, In x c1 -> (exists s, first x = Ok s) /\ (exists s, last x = Ok s) /\ (exists s, mid x = Ok s)) ->
  first c = Throw e -> last c = Throw e -> mid c = Throw e ->
  print_from first last mid n i (app c1 (c :: c2)) str = Throw e.
Proof.
  induction c1 as [|x c1 IH]; intros c c2 e i str H H1 H2 H3; cbn [app print_from].
  - destruct (Nat.eqb i 0); [now rewrite H1|]. destruct (Nat.eqb i (n - 1)); [now rewrite H2 | now rewrite H3].
  - destruct (H x (or_introl eq_refl)) as ([s1 E1] & [s2 E2] & [s3 E3]).
    destruct (Nat.eqb i 0); [rewrite E1 | destruct (Nat.eqb i (n - 1)); [rewrite E2 | rewrite E3]]; cbn [obind]; apply IH; auto; intros y Hy; apply H; now right.
Qed.
End Loop.

Lemma after_ok : forall sep t s, t = Ok s -> after sep t = Ok (sep ++ s).
Proof. intros sep t s ->. reflexivity. Qed.

Lemma after_ok2 : forall (X : Type) (f : X -> outcome string) sep l ss, Forall2 (fun c s => f c = Ok s) l ss ->
  Forall2 (fun c s => after sep (f c) = Ok s) l (map (fun y => sep ++ y) ss).
Proof. induction 1; cbn; constructor; auto. now apply after_ok. Qed.

Lemma Forall2_snoc : forall (X Y : Type) (R : X -> Y -> Prop) l z ss, Forall2 R (app l [z]) ss ->
  exists ms s, ss = app ms [s] /\ Forall2 R l ms /\ R z s.
Proof.
  intros X Y R l z. induction l as [|x l IH]; intros ss H; inversion H as [|a b l1 l2 Ha Hl]; subst; cbn.
  - inversion Hl; subst. exists [], b. auto.
  - destruct (IH _ Hl) as (ms & s & -> & Hm & Hs). exists (b :: ms), s. auto.
Qed.

(** A list printed with one form throughout. *)
Lemma print_listed : forall (X : Type) (f : X -> outcome string) s1 s2 s3 l ss str, Forall2 (fun c s => f c = Ok s) l ss ->
  exists t, print_from (fun c => after s1 (f c)) (fun c => after s2 (f c)) (fun c => after s3 (f c)) (List.length l) 0 l str = Ok (str ++ t) /\
    listed s1 s2 s3 ss t.
Proof.
  intros X f s1 s2 s3 l ss str H. destruct H as [|c s l ss Hc H].
  - exists "". cbn. rewrite sapp_nil. auto.
  - destruct l as [|x l] using rev_ind.
    + inversion H; subst. exists (s1 ++ s). cbn. rewrite Hc. auto.
    + clear IHl. destruct (Forall2_snoc _ _ _ _ _ _ H) as (ms & sz & -> & Hm & Hz).
      exists ((s1 ++ s) ++ String.concat "" (map (fun y => s3 ++ y) ms) ++ (s2 ++ sz)). split.
      * apply print_many; auto using after_ok, after_ok2.
      * destruct (app ms [sz]) as [|y r] eqn:E; [destruct ms; discriminate|]. cbn. exists ms, sz. split; auto. now rewrite sapp_assoc.
Qed.

Lemma piece_csrc : forall e cs se ss, pr_csrc e = Ok se -> Forall2 (fun c s => pr_csrc c = Ok s) cs ss ->
  exists t, sq_csrc e cs = Ok (se ++ t) /\ listed " if " " and " ", " ss t.
Proof. intros e cs se ss He H. unfold sq_csrc. rewrite He. cbn [obind]. now apply print_listed. Qed.

Lemma piece_sym : forall e cs se ss, pr_sym e = Ok se -> Forall2 (fun c s => pr_sym c = Ok s) cs ss ->
  exists t, sq_sym e cs = Ok (se ++ t) /\ listed " if " " and " ", " ss t.
Proof. intros e cs se ss He H. unfold sq_sym. rewrite He. cbn [obind]. now apply print_listed. Qed.

Lemma piece_latex : forall e c m z se sc ms sz, pr_latex e = Ok se -> pr_latex c = Ok sc -> Forall2 (fun x s => pr_sym x = Ok s) m ms -> pr_latex z = Ok sz ->
  sq_latex e (c :: app m [z]) = Ok (se ++ (" & \mbox{ if } " ++ sc) ++ String.concat "" (map (fun y => " \mbox{, } " ++ y) ms) ++ (" \mbox{ and } " ++ sz)).
Proof.
  intros e c m z se sc ms sz He Hc Hm Hz. unfold sq_latex. rewrite He. cbn [obind]. apply print_many; auto using after_ok.
  apply after_ok2. exact Hm.
Qed.

Lemma piece_latex_one : forall e c se sc, pr_latex e = Ok se -> pr_latex c = Ok sc -> sq_latex e [c] = Ok (se ++ " & \mbox{ if } " ++ sc).
Proof. intros e c se sc He Hc. unfold sq_latex. rewrite He. cbn. now rewrite Hc. Qed.

Lemma piece_latex_none : forall e se, pr_latex e = Ok se -> sq_latex e [] = Ok se.
Proof. intros e se He. unfold sq_latex. now rewrite He. Qed.

(** The first entry of the piecewise forms has no separator before it. *)
Lemma print_first : forall (X : Type) (f : X -> outcome string) g h n l str,
  print_from f g h n 0 l str = print_from (fun c => after "" (f c)) g h n 0 l str.
Proof.
  intros X f g h n l str. assert (G : forall l i str, i <> 0 -> print_from f g h n i l str = print_from (fun c => after "" (f c)) g h n i l str).
  { clear. induction l as [|x l IH]; intros i str Hi; cbn [print_from]; auto. destruct (Nat.eqb_spec i 0); [congruence|].
    destruct (if Nat.eqb i (n - 1) then g x else h x); cbn [obind]; auto. }
  destruct l as [|x l]; auto. cbn [print_from Nat.eqb]. unfold after at 1. destruct (f x); cbn [obind]; auto.
Qed.

Lemma whole_csrc : forall l ss, Forall2 (fun c s => pr_csrc c = Ok s) l ss -> exists t, ps_csrc l = Ok t /\ listed "" "; and " "; " ss t.
Proof. intros l ss H. unfold ps_csrc. rewrite print_first. exact (print_listed _ pr_csrc "" "; and " "; " l ss "" H). Qed.

Lemma whole_sym : forall l ss, Forall2 (fun c s => pr_sym c = Ok s) l ss -> exists t, ps_sym l = Ok t /\ listed "" "; and " "; " ss t.
Proof. intros l ss H. unfold ps_sym. rewrite print_first. exact (print_listed _ pr_sym "" "; and " "; " l ss "" H). Qed.

Lemma whole_latex : forall l ss, Forall2 (fun c s => pr_latex c = Ok s) l ss ->
  exists t, ps_latex l = Ok (t ++ " \end{array} \right.") /\ listed "\left\{ \begin{array}{ll} " " \\ " " \\ " ss t.
Proof.
  intros l ss H. unfold ps_latex. destruct (print_listed _ pr_latex "\left\{ \begin{array}{ll} " " \\ " " \\ " l ss "" H) as (t & E & Ht).
  rewrite E. exists t. split; auto.
Qed.

Lemma piece_throws : forall e se c1 c c2 x, 
  (pr_csrc e = Ok se -> (forall y, In y c1 -> exists s, pr_csrc y = Ok s) -> pr_csrc c = Throw x -> sq_csrc e (app c1 (c :: c2)) = Throw x) /\
  (pr_sym e = Ok se -> (forall y, In y c1 -> exists s, pr_sym y = Ok s) -> pr_sym c = Throw x -> sq_sym e (app c1 (c :: c2)) = Throw x).
Proof.
  intros e se c1 c c2 x. split; intros He H Hc; [unfold sq_csrc | unfold sq_sym]; rewrite He; cbn [obind]; apply print_throws;
    try (now rewrite Hc); intros y Hy; destruct (H y Hy) as [s Es]; repeat split; eexists; apply after_ok; exact Es.
Qed.

(** *** Examples *)
Definition word (s : string) : printed := mkPrinted (Ok ("c:" ++ s)) (Ok ("s:" ++ s)) (Ok ("l:" ++ s)).

Lemma latex_mixed :
  pr_latex (word "e") = Ok "l:e" /\ Forall2 (fun c s => pr_latex c = Ok s) [word "a"; word "b"; word "c"] ["l:a"; "l:b"; "l:c"] /\
  forall t, sq_latex (word "e") [word "a"; word "b"; word "c"] = Ok ("l:e" ++ t) ->
    ~ listed " & \mbox{ if } " " \mbox{ and } " " \mbox{, } " ["l:a"; "l:b"; "l:c"] t.
Proof.
  split; [reflexivity|]. split; [repeat constructor|]. intros t E. vm_compute in E. injection E as <-.
  cbn [listed]. intros (m & z & Hr & Hs).
  destruct m as [|y [|w m]]; cbn in Hr; try discriminate.
  - injection Hr as <- <-. vm_compute in Hs. discriminate.
  - destruct m; discriminate.
Qed.

Lemma latex_empty : ps_latex [] = Ok " \end{array} \right." /\ occurrences "\end{array}" " \end{array} \right." = 1 /\
  occurrences "\begin{array}" " \end{array} \right." = 0.
Proof. vm_compute. auto. Qed.
