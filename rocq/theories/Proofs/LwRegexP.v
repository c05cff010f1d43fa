(** What the library writer's regular expression finds. *)
From Coq Require Import ZArith List Bool Ascii String Lia.
From Verif Require Import Model.Outcome Model.Stream Model.Lw Spec.Lw.
Import ListNotations.

Definition all (c : ascii -> bool) (a : text) : Prop := Forall (fun x => c x = true) a.

(** *** Repetitions *)
Lemma star_eq : forall g c r x s, match_at (Star g c :: r) (x :: s) =
  match (if c x then match_at (Star g c :: r) s else None) with
  | Some ((_, t) :: m) => Some ((g, x :: t) :: m)
  | _ => option_map (cons (g, [])) (match_at r (x :: s))
  end.
Proof. reflexivity. Qed.
Lemma star_nil : forall g c r, match_at (Star g c :: r) [] = option_map (cons (g, [])) (match_at r []).
Proof. reflexivity. Qed.

Lemma star_head : forall g c r s m, match_at (Star g c :: r) s = Some m -> exists t m', m = (g, t) :: m'.
Proof.
  intros g c r s. induction s as [|x s IH]; intros m H.
  - rewrite star_nil in H. destruct (match_at r []); [|discriminate]. injection H as <-. eauto.
  - rewrite star_eq in H. destruct (c x).
    + destruct (match_at (Star g c :: r) s) as [[|[g' t] m']|].
      * destruct (match_at r (x :: s)); [|discriminate]. injection H as <-. eauto.
      * injection H as <-. eauto.
      * destruct (match_at r (x :: s)); [|discriminate]. injection H as <-. eauto.
    + destruct (match_at r (x :: s)); [|discriminate]. injection H as <-. eauto.
Qed.

Lemma star_none : forall g c r s, (forall a b, s = a ++ b -> all c a -> match_at r b = None) -> match_at (Star g c :: r) s = None.
Proof.
  intros g c r s. induction s as [|x s IH]; intros H.
  - rewrite star_nil, (H [] []); auto. constructor.
  - rewrite star_eq. rewrite (H [] (x :: s)) by (auto; constructor). cbn [option_map].
    destruct (c x) eqn:E; auto. rewrite IH; auto. intros a b -> Ha. apply (H (x :: a) b); auto. now constructor.
Qed.

Lemma star_some : forall g c r a b m, all c a -> match_at r b = Some m ->
  (forall d e, b = d ++ e -> d <> [] -> all c d -> match_at r e = None) -> match_at (Star g c :: r) (a ++ b) = Some ((g, a) :: m).
Proof.
  intros g c r a b m Ha Hm Hd. induction Ha as [|x a Hx Ha IH]; cbn [app].
  - destruct b as [|y b]; [now rewrite star_nil, Hm|]. rewrite star_eq, Hm. cbn [option_map]. destruct (c y) eqn:E; auto.
    rewrite star_none; auto. intros d e -> Hall. apply (Hd (y :: d) e); auto; [discriminate | now constructor].
  - rewrite star_eq, Hx, IH. reflexivity.
Qed.

Lemma star_inv : forall g c r s, match_at (Star g c :: r) s <> None -> exists a b, s = a ++ b /\ all c a /\ match_at r b <> None.
Proof.
  intros g c r s. induction s as [|x s IH]; intros H.
  - rewrite star_nil in H. exists [], []. repeat split; [constructor|]. intros E. rewrite E in H. auto.
  - rewrite star_eq in H. destruct (match_at r (x :: s)) eqn:E.
    + exists [], (x :: s). repeat split; [constructor | congruence].
    + destruct (c x) eqn:Ex; [|exfalso; auto]. destruct IH as (a & b & -> & Ha & Hb).
      * intros G. rewrite G in H. auto.
      * exists (x :: a), b. repeat split; auto. now constructor.
Qed.

(** *** Atoms that cannot start with a given class of characters *)
Definition blk (c : ascii -> bool) (r : list atom) : Prop := forall y s, c y = true -> match_at r (y :: s) = None.

Lemma blk_lit : forall c g x p r, c x = false -> blk c (lit g (x :: p) ++ r).
Proof. intros c g x p r H y s Hy. cbn. destruct (Ascii.eqb_spec x y); auto. congruence. Qed.

Lemma blk_star : forall c g d r, blk c r -> (forall y, c y = true -> d y = false) -> blk c (Star g d :: r).
Proof. intros c g d r H Hd y s Hy. rewrite star_eq, (Hd y Hy), (H y s Hy). reflexivity. Qed.

Lemma star_blk : forall g c r a b m, blk c r -> all c a -> match_at r b = Some m -> match_at (Star g c :: r) (a ++ b) = Some ((g, a) :: m).
Proof.
  intros g c r a b m H Ha Hm. apply star_some; auto. intros [|y d] e -> Hd Hall; [congruence|].
  inversion Hall as [|y' d' Hy Hd']; subst. cbn in Hm. rewrite (H y (d ++ e) Hy) in Hm. discriminate.
Qed.

Lemma plus_blk : forall g c r a b m, blk c r -> all c a -> a <> [] -> match_at r b = Some m ->
  match_at (One g c :: Star g c :: r) (a ++ b) = Some ((g, firstn 1 a) :: (g, skipn 1 a) :: m).
Proof.
  intros g c r [|x a] b m H Ha Hne Hm; [congruence|]. inversion Ha as [|x' a' Hx Ha']; subst.
  change (match_at (One g c :: Star g c :: r) ((x :: a) ++ b)) with (if c x then option_map (cons (g, [x])) (match_at (Star g c :: r) (a ++ b)) else None).
  rewrite Hx, (star_blk g c r a b m H Ha' Hm). reflexivity.
Qed.

Lemma plus_inv : forall g c r s, match_at (One g c :: Star g c :: r) s <> None -> exists a b, s = a ++ b /\ all c a /\ a <> [] /\ match_at r b <> None.
Proof.
  intros g c r [|x s] H; [cbn in H; congruence|].
  change (match_at (One g c :: Star g c :: r) (x :: s)) with (if c x then option_map (cons (g, [x])) (match_at (Star g c :: r) s) else None) in H.
  destruct (c x) eqn:E; [|exfalso; apply H; reflexivity]. destruct (star_inv g c r s) as (a & b & -> & Ha & Hb).
  - intros G. rewrite G in H. auto.
  - exists (x :: a), b. repeat split; auto; [now constructor | discriminate].
Qed.

(** *** Literals *)
Definition lits (g : nat) (p : text) : list (nat * text) := map (fun x => (g, [x])) p.

Lemma lit_some : forall g p r s m, match_at r s = Some m -> match_at (lit g p ++ r) (p ++ s) = Some (lits g p ++ m).
Proof.
  intros g p r s m H. induction p as [|x p IH]; auto. cbn [lit map app match_at]. rewrite Ascii.eqb_refl.
  change (map (fun x0 => One g (Ascii.eqb x0)) p) with (lit g p). rewrite IH. reflexivity.
Qed.

Lemma lit_inv : forall g p r s, match_at (lit g p ++ r) s <> None -> exists s', s = p ++ s' /\ match_at r s' <> None.
Proof.
  intros g p r. induction p as [|x p IH]; intros s H; [exists s; auto|].
  destruct s as [|y s]; [cbn in H; congruence|]. cbn [lit map app match_at] in H. destruct (Ascii.eqb_spec x y) as [<-|E]; [|congruence].
  change (map (fun x0 => One g (Ascii.eqb x0)) p) with (lit g p) in H. destruct (IH s) as (s' & -> & Hs).
  - intros G. rewrite G in H. auto.
  - exists s'. auto.
Qed.

(** *** Characters *)
Lemma space_word : forall y, space y = true -> word_char y = false.
Proof. intros y. destruct y as [[] [] [] [] [] [] [] []]; vm_compute; congruence. Qed.
Lemma word_space : forall y, word_char y = true -> space y = false.
Proof. intros y. destruct (space y) eqn:E; auto. rewrite (space_word y E). congruence. Qed.

(** *** The tail of the expression: types *)
Definition R7 : list atom := [Star 7 space] ++ lit 7 (txt ">").
Definition R6 : list atom := [Star 6 any_char] ++ R7.
Definition R5 : list atom := [Star 5 space] ++ R6.
Definition R4 : list atom := [Star 5 space] ++ lit 5 (txt ",") ++ R5.
Definition R3 : list atom := [Star 4 any_char] ++ R4.
Definition R2 : list atom := [Star 3 space] ++ R3.

Lemma all_any : forall a, all any_char a.
Proof. intros a. apply Forall_forall. reflexivity. Qed.

Lemma R7_inv : forall s, match_at R7 s <> None -> exists w s', s = w ++ ">"%char :: s' /\ all space w.
Proof.
  intros s H. apply star_inv in H. destruct H as (a & b & -> & Ha & Hb). rewrite <- (app_nil_r (lit 7 (txt ">"))) in Hb. apply lit_inv in Hb. destruct Hb as (s' & -> & _).
  exists a, s'. auto.
Qed.

Lemma R6_some : forall o post, ~ In ">"%char post -> match_at R6 (o ++ ">"%char :: post) = Some [(6, o); (7, []); (7, [">"%char])].
Proof.
  intros o post Hp. apply star_some; [apply all_any| |].
  - change (">"%char :: post) with ([] ++ ">"%char :: post). apply star_blk; [apply (blk_lit space 7 ">"%char [] []); reflexivity | constructor|]. reflexivity.
  - intros d e E Hd _. destruct (match_at R7 e) eqn:M; auto. exfalso. destruct (R7_inv e) as (w & s' & -> & _); [congruence|].
    destruct d as [|y d]; [congruence|]. injection E as _ E. apply Hp. rewrite E. apply in_or_app. right. apply in_or_app. right. now left.
Qed.

Lemma split_last : forall (x : ascii) s, In x s -> exists a b, s = a ++ x :: b /\ ~ In x b.
Proof.
  intros x s. induction s as [|y s IH]; intros H; [contradiction|].
  destruct (in_dec ascii_dec x s) as [G|G].
  - destruct (IH G) as (a & b & -> & Hb). exists (y :: a), b. auto.
  - destruct H as [->|H]; [|contradiction]. exists [], s. auto.
Qed.

Lemma R6_inv : forall s, match_at R6 s <> None -> In ">"%char s.
Proof.
  intros s H. apply star_inv in H. destruct H as (a & b & -> & _ & Hb). apply R7_inv in Hb. destruct Hb as (w & s' & -> & _).
  apply in_or_app. right. apply in_or_app. right. now left.
Qed.

Lemma split_blank : forall s, exists w s', s = w ++ s' /\ blank w /\ ~ starts_blank s'.
Proof.
  induction s as [|y s (w & s' & -> & Hw & Hs)].
  - exists [], []. repeat split; [constructor|]. intros (c & s' & E & _). discriminate.
  - destruct (space y) eqn:E.
    + exists (y :: w), s'. repeat split; auto. now constructor.
    + exists [], (y :: w ++ s'). repeat split; [constructor|]. intros (c & t & [= <- _] & Hc). congruence.
Qed.

Lemma R5_some : forall w o post, blank w -> ~ starts_blank o -> ~ In ">"%char post ->
  match_at R5 (w ++ o ++ ">"%char :: post) = Some [(5, w); (6, o); (7, []); (7, [">"%char])].
Proof.
  intros w o post Hw Ho Hp. apply star_some; auto; [now apply R6_some|].
  intros d e E Hd Hall. exfalso. destruct d as [|y d]; [congruence|]. inversion Hall as [|y' d' Hy Hd']; subst.
  destruct o as [|x o].
  - injection E as <- _. discriminate.
  - injection E as <- _. apply Ho. exists x, o. auto.
Qed.

Lemma R5_inv : forall s, match_at R5 s <> None -> In ">"%char s.
Proof. intros s H. apply star_inv in H. destruct H as (a & b & -> & _ & Hb). apply in_or_app. right. now apply R6_inv. Qed.

Lemma R4_some : forall w o post, blank w -> ~ starts_blank o -> ~ In ">"%char post ->
  match_at R4 (","%char :: w ++ o ++ ">"%char :: post) = Some [(5, []); (5, [","%char]); (5, w); (6, o); (7, []); (7, [">"%char])].
Proof.
  intros w o post Hw Ho Hp. change (","%char :: w ++ o ++ ">"%char :: post) with ([] ++ txt "," ++ w ++ o ++ ">"%char :: post).
  apply star_blk; [apply (blk_lit space 5 ","%char [] R5); reflexivity | constructor|].
  exact (lit_some 5 (txt ",") R5 _ _ (R5_some w o post Hw Ho Hp)).
Qed.

Lemma R4_inv : forall s, match_at R4 s <> None -> exists w s', s = w ++ ","%char :: s' /\ In ">"%char s'.
Proof.
  intros s H. apply star_inv in H. destruct H as (a & b & -> & _ & Hb). apply lit_inv in Hb. destruct Hb as (s' & -> & Hs).
  exists a, s'. split; auto. now apply R5_inv.
Qed.

Lemma R3_some : forall i w o post, blank w -> ~ starts_blank o -> ~ In ","%char o -> ~ In ">"%char post ->
  match_at R3 (i ++ ","%char :: w ++ o ++ ">"%char :: post) = Some [(4, i); (5, []); (5, [","%char]); (5, w); (6, o); (7, []); (7, [">"%char])].
Proof.
  intros i w o post Hw Ho Hc Hp. apply star_some; [apply all_any | now apply R4_some |].
  intros d e E Hd _. destruct (match_at R4 e) eqn:M; auto. exfalso. destruct (R4_inv e) as (w' & s' & -> & Hin); [congruence|].
  destruct d as [|y d]; [congruence|]. injection E as _ E.
  assert (P : forall (a p q r : text), a ++ ">"%char :: p = q ++ ","%char :: r -> ~ In ","%char a -> In ">"%char r -> In ">"%char p).
  { clear. induction a as [|x a IH]; intros p q r E Ha Hr.
    - destruct q as [|z q]; [discriminate|]. injection E as _ E. rewrite E. apply in_or_app. right. now right.
    - destruct q as [|z q]; injection E as E1 E2.
      + subst. exfalso. apply Ha. now left.
      + apply (IH p q r); auto. intros G. apply Ha. now right. }
  apply Hp, (P (w ++ o) post (d ++ w') s'); auto.
  - rewrite <- !app_assoc. exact E.
  - intros G. apply in_app_or in G. destruct G as [G|G]; auto. unfold blank in Hw. rewrite Forall_forall in Hw. apply Hw in G. discriminate.
Qed.

Lemma R3_inv : forall s, match_at R3 s <> None -> exists i w o post, s = i ++ ","%char :: w ++ o ++ ">"%char :: post /\
  blank w /\ ~ starts_blank o /\ ~ In ","%char o /\ ~ In ">"%char post.
Proof.
  intros s H. apply star_inv in H. destruct H as (a & b & -> & _ & Hb). apply R4_inv in Hb. destruct Hb as (w & s' & -> & Hin).
  destruct (split_last _ _ Hin) as (t & post & -> & Hp). rewrite app_assoc. set (h := a ++ w). clearbody h. clear a w.
  assert (C : exists i o, h ++ ","%char :: t = i ++ ","%char :: o /\ ~ In ","%char o).
  { apply split_last. apply in_or_app. right. now left. }
  destruct C as (i & o & E & Ho). destruct (split_blank o) as (w & o' & -> & Hw & Hs).
  exists i, w, o', post. repeat split; auto.
  - rewrite app_comm_cons, app_assoc, E, <- app_assoc. cbn. now rewrite <- app_assoc.
  - intros G. apply Ho. apply in_or_app. now right.
Qed.

Lemma R2_some : forall w6 i w o post, blank w6 -> ~ starts_blank i -> blank w -> ~ starts_blank o -> ~ In ","%char o -> ~ In ">"%char post ->
  match_at R2 (w6 ++ i ++ ","%char :: w ++ o ++ ">"%char :: post) =
  Some [(3, w6); (4, i); (5, []); (5, [","%char]); (5, w); (6, o); (7, []); (7, [">"%char])].
Proof.
  intros w6 i w o post H6 Hi Hw Ho Hc Hp. apply star_some; auto; [now apply R3_some|].
  intros d e E Hd Hall. exfalso. destruct d as [|y d]; [congruence|]. inversion Hall as [|y' d' Hy Hd']; subst.
  destruct i as [|x i].
  - injection E as <- _. discriminate.
  - injection E as <- _. apply Hi. exists x, i. auto.
Qed.

Lemma R2_inv : forall s, match_at R2 s <> None -> exists w6 i w o post, s = w6 ++ i ++ ","%char :: w ++ o ++ ">"%char :: post /\
  blank w6 /\ ~ starts_blank i /\ blank w /\ ~ starts_blank o /\ ~ In ","%char o /\ ~ In ">"%char post.
Proof.
  intros s H. apply star_inv in H. destruct H as (a & b & -> & Ha & Hb). apply R3_inv in Hb. destruct Hb as (i & w & o & post & -> & H1 & H2 & H3 & H4).
  destruct (split_blank i) as (w' & i' & -> & Hw & Hi). exists (a ++ w'), i', w, o, post. rewrite <- !app_assoc. repeat split; auto.
  apply Forall_app. split; auto.
Qed.

(** *** The whole expression *)
Definition regex_head (cls : text) (r : list atom) : list atom :=
  lit 1 (txt "class") ++ One 1 space :: Star 1 space :: Star 2 word_char :: Star 3 space :: lit 3 (txt ":") ++ Star 3 space :: lit 3 (txt "public") ++
  One 3 space :: Star 3 space :: lit 3 cls ++ Star 3 space :: lit 3 (txt "<") ++ r.

Lemma regex_eq : forall cls, class_regex cls = regex_head cls R2.
Proof. intros cls. unfold class_regex, regex_head, R2, R3, R4, R5, R6, R7. reflexivity. Qed.

Definition found (m : list (nat * text)) : text * text * text := (group 2 m, group 4 m, group 6 m).

Lemma group_cons : forall g h t m, group g ((h, t) :: m) = (if Nat.eqb h g then t else []) ++ group g m.
Proof. intros. unfold group. cbn [filter fst map snd]. destruct (Nat.eqb h g); reflexivity. Qed.
Lemma group_lits : forall g h p m, h <> g -> group g (lits h p ++ m) = group g m.
Proof.
  intros g h p m H. induction p as [|x p IH]; auto. cbn [lits map app]. rewrite group_cons. change (map (fun x0 => (h, [x0])) p) with (lits h p).
  rewrite IH. destruct (Nat.eqb_spec h g); [congruence | reflexivity].
Qed.

Definition starts_word (cls : text) : Prop := exists x p, cls = x :: p /\ word_char x = true.

Lemma plus_some : forall g c r a b m, all c a -> a <> [] -> match_at r b = Some m -> (forall y s, b = y :: s -> c y = false) ->
  exists m', match_at (One g c :: Star g c :: r) (a ++ b) = Some m' /\ forall h, h <> g -> group h m' = group h m.
Proof.
  intros g c r [|x a] b m Ha Hne Hm Hb; [congruence|]. inversion Ha as [|x' a' Hx Ha']; subst.
  assert (E : match_at (Star g c :: r) (a ++ b) = Some ((g, a) :: m)).
  { apply star_some; auto. intros [|y d] e -> Hd Hall; [congruence|]. inversion Hall as [|y' d' Hy Hd']; subst. rewrite (Hb y (d ++ e) eq_refl) in Hy. discriminate. }
  exists ((g, [x]) :: (g, a) :: m). split.
  - change (match_at (One g c :: Star g c :: r) ((x :: a) ++ b)) with (if c x then option_map (cons (g, [x])) (match_at (Star g c :: r) (a ++ b)) else None).
    now rewrite Hx, E.
  - intros h Hh. rewrite !group_cons. destruct (Nat.eqb_spec g h); [congruence | reflexivity].
Qed.

Lemma match_complete0 : forall cls n i o w1 w2 w3 w4 w5 w6 w7 post, starts_word cls ->
  blank w1 -> w1 <> [] -> blank w2 -> blank w3 -> blank w4 -> w4 <> [] -> blank w5 -> blank w6 -> blank w7 ->
  Forall (fun c => word_char c = true) n -> ~ starts_blank i -> ~ starts_blank o -> ~ In ","%char o -> ~ In ">"%char post -> (n <> [] \/ w2 = []) ->
  exists m, match_at (class_regex cls) (txt "class" ++ w1 ++ n ++ w2 ++ txt ":" ++ w3 ++ txt "public" ++ w4 ++ cls ++ w5 ++ txt "<" ++ w6 ++ i ++ txt "," ++ w7 ++ o ++ txt ">" ++ post) = Some m /\
    found m = (n, i, o).
Proof.
  intros cls n i o w1 w2 w3 w4 w5 w6 w7 post (x & p & Hc & Hx) H1 H1n H2 H3 H4 H4n H5 H6 H7 Hn Hi Ho Hoc Hp Hor.
  rewrite regex_eq. unfold regex_head.
  pose proof (R2_some w6 i w7 o post H6 Hi H7 Ho Hoc Hp) as M.
  apply (lit_some 3 (txt "<")) in M. apply (star_blk 3 space _ w5 _ _ (blk_lit space 3 "<"%char [] R2 eq_refl) H5) in M.
  apply (lit_some 3 cls) in M.
  assert (B : blk space (lit 3 cls ++ Star 3 space :: lit 3 (txt "<") ++ R2)) by (rewrite Hc; apply blk_lit, word_space, Hx).
  apply (plus_blk 3 space _ w4 _ _ B H4 H4n) in M. clear B.
  apply (lit_some 3 (txt "public")) in M.
  apply (star_blk 3 space _ w3 _ _ (blk_lit space 3 "p"%char (txt "ublic") _ eq_refl) H3) in M.
  apply (lit_some 3 (txt ":")) in M.
  match type of M with match_at (lit 3 (txt ":") ++ ?r) _ = _ =>
    pose proof (blk_lit space 3 ":"%char [] r eq_refl) as B1; pose proof (blk_lit word_char 3 ":"%char [] r eq_refl) as B2 end.
  apply (star_blk 3 space _ w2 _ _ B1 H2) in M.
  pose proof (blk_star word_char 3 space _ B2 word_space) as B3.
  apply (star_blk 2 word_char _ n _ _ B3 Hn) in M.
  destruct (plus_some 1 space _ w1 _ _ H1 H1n M) as (m1 & E1 & E1f).
  { destruct n as [|y n].
    - destruct Hor as [Hor| ->]; [congruence|]. intros y s [= <-]. reflexivity.
    - intros z s [= <- _]. inversion Hn as [|y' n' Hy Hn']; subst. now apply word_space. }
  apply (lit_some 1 (txt "class")) in E1. exists (lits 1 (txt "class") ++ m1). split; [exact E1|].
  unfold found. rewrite !group_lits by discriminate. rewrite !(E1f _) by discriminate.
  pose proof group_lits as GL. unfold group in *. cbn. rewrite !GL by discriminate. cbn. now rewrite !app_nil_r.
Qed.

Lemma match_complete : forall cls n i o s, starts_word cls -> declares_at cls n i o s -> exists m, match_at (class_regex cls) s = Some m /\ found m = (n, i, o).
Proof.
  intros cls n i o s Hc [w1 w2 w3 w4 w5 w6 w7 post H1 H1n H2 H3 H4 H4n H5 H6 H7 Hn Hi Ho Hoc Hp].
  destruct n as [|y n].
  - pose proof (match_complete0 cls [] i o (w1 ++ w2) [] w3 w4 w5 w6 w7 post Hc) as M. cbn [app] in *. rewrite <- app_assoc in M. apply M; auto.
    + apply Forall_app. split; auto.
    + destruct w1; [congruence | discriminate].
    + constructor.
  - apply match_complete0; auto. left. discriminate.
Qed.

Lemma match_sound : forall cls s, match_at (class_regex cls) s <> None -> exists n i o, declares_at cls n i o s.
Proof.
  intros cls s H. rewrite regex_eq in H. unfold regex_head in H.
  apply lit_inv in H. destruct H as (s1 & -> & H). apply plus_inv in H. destruct H as (w1 & s2 & -> & H1 & H1n & H).
  apply star_inv in H. destruct H as (n & s3 & -> & Hn & H). apply star_inv in H. destruct H as (w2 & s4 & -> & H2 & H).
  apply lit_inv in H. destruct H as (s5 & -> & H). apply star_inv in H. destruct H as (w3 & s6 & -> & H3 & H).
  apply lit_inv in H. destruct H as (s7 & -> & H). apply plus_inv in H. destruct H as (w4 & s8 & -> & H4 & H4n & H).
  apply lit_inv in H. destruct H as (s9 & -> & H). apply star_inv in H. destruct H as (w5 & s10 & -> & H5 & H).
  apply lit_inv in H. destruct H as (s11 & -> & H). apply R2_inv in H. destruct H as (w6 & i & w7 & o & post & -> & H6 & Hi & H7 & Ho & Hoc & Hp).
  exists n, i, o. exact (Declares cls n i o w1 w2 w3 w4 w5 w6 w7 post H1 H1n H2 H3 H4 H4n H5 H6 H7 Hn Hi Ho Hoc Hp).
Qed.

(** *** The search *)
Lemma search_some : forall r s m, search r s = Some m <-> exists pre s', s = pre ++ s' /\ match_at r s' = Some m /\
  forall pre' s'', s = pre' ++ s'' -> match_at r s'' <> None -> (List.length pre <= List.length pre')%nat.
Proof.
  intros r s m. induction s as [|x s IH].
  - cbn [search]. destruct (match_at r []) eqn:E.
    + split; [intros [= ->]; exists [], []; repeat split; auto; cbn; lia|].
      intros (pre & s' & G & M & _). symmetry in G. apply app_eq_nil in G. destruct G as [-> ->]. congruence.
    + split; [discriminate|]. intros (pre & s' & G & M & _). symmetry in G. apply app_eq_nil in G. destruct G as [-> ->]. congruence.
  - cbn [search]. destruct (match_at r (x :: s)) eqn:E.
    + split; [intros [= ->]; exists [], (x :: s); repeat split; auto; cbn; lia|].
      intros (pre & s' & G & M & L). specialize (L [] (x :: s) eq_refl). destruct pre; [cbn in G; subst; congruence|]. cbn in L. assert (Some l <> None) by discriminate. rewrite E in L. apply L in H. lia.
    + rewrite IH. split; intros (pre & s' & G & M & L).
      * subst. exists (x :: pre), s'. repeat split; auto. intros pre' s'' G M'. destruct pre' as [|y pre']; [cbn in G; subst; congruence|].
        injection G as -> G. specialize (L _ _ G M'). cbn. lia.
      * destruct pre as [|y pre]; [cbn in G; subst; congruence|]. injection G as -> G. subst. exists pre, s'. repeat split; auto.
        intros pre' s'' G M'. rewrite G in L. specialize (L (y :: pre') s'' eq_refl M'). cbn in L. lia.
Qed.

Theorem find_class_iff : forall cls line n i o, starts_word cls -> find_class cls line = Some (n, i, o) <-> declares cls line n i o.
Proof.
  intros cls line n i o Hc. unfold find_class.
  assert (S : forall m, search (class_regex cls) line = Some m -> declares cls line (group 2 m) (group 4 m) (group 6 m)).
  { intros m E. apply search_some in E. destruct E as (pre & s & -> & M & L). destruct (match_sound cls s) as (n' & i' & o' & D); [congruence|].
    destruct (match_complete cls _ _ _ _ Hc D) as (m' & M' & F). assert (m' = m) by congruence. subst m'. injection F as <- <- <-.
    exists pre, s. repeat split; auto. intros pre' s' n1 i1 o1 E D'. apply (L pre' s' E). destruct (match_complete cls _ _ _ _ Hc D') as (m1 & M1 & _). congruence. }
  split.
  - destruct (search (class_regex cls) line) as [m|] eqn:E; [|discriminate]. intros [= <- <- <-]. auto.
  - intros (pre & s & E & D & L). destruct (match_complete cls _ _ _ _ Hc D) as (m & M & F).
    assert (search (class_regex cls) line = Some m) as ->.
    { apply search_some. exists pre, s. repeat split; auto. intros pre' s' E' M'. destruct (match_sound cls s' M') as (n' & i' & o' & D'). eauto. }
    unfold found in F. congruence.
Qed.

Lemma find_class_none : forall cls line, starts_word cls -> find_class cls line = None <-> forall pre s n i o, line = pre ++ s -> ~ declares_at cls n i o s.
Proof.
  intros cls line Hc. split.
  - intros N pre s n i o -> D. destruct (match_complete cls _ _ _ _ Hc D) as (m & M & _).
    unfold find_class in N. destruct (search (class_regex cls) (pre ++ s)) eqn:E; [discriminate|]. clear N.
    assert (X : match_at (class_regex cls) s <> None) by congruence. clear M D. revert E. induction pre as [|x pre IH]; cbn [app search]; intros E.
    + destruct s; cbn [search] in E; destruct (match_at (class_regex cls) _); congruence.
    + destruct (match_at (class_regex cls) (x :: pre ++ s)); [discriminate|]. auto.
  - intros N. destruct (find_class cls line) as [[[n i] o]|] eqn:E; auto. apply find_class_iff in E; auto. destruct E as (pre & s & -> & D & _).
    exfalso. exact (N pre s n i o eq_refl D).
Qed.

Lemma spelled_found : forall cls n i o line, starts_word cls -> ~ In ","%char o -> spelled cls n i o [[]; []] line -> find_class cls line = Some (n, i, o).
Proof.
  intros cls n i o line Hc Ho Hs. apply find_class_iff; auto.
  inversion Hs as [w0 w1 w2 w3 w4 w5 w6 w7 w8 w9 post Hb H1 H4 Hn Hn0 Hi Hie Hi0 Hos Hoe Ho0 Hp E8 E]; subst w8 w9.
  repeat match goal with H : Forall blank (_ :: _) |- _ => let A := fresh "B" in let B := fresh in inversion H as [|? ? A B]; subst; clear H end.
  exists w0. eexists. split; [reflexivity|]. split; [now constructor|].
  intros pre' s' n' i' o' E' D. destruct D. cbn [app] in E'. clear - E' B.
  revert pre' E'. induction w0 as [|x w0 IH]; intros pre' E'; cbn [List.length]; [lia|]. inversion B as [|x' w' Hx Hw]; subst.
  destruct pre' as [|y pre'].
  - exfalso. injection E' as -> _. discriminate.
  - injection E' as _ E'. apply IH in E'; auto. cbn. lia.
Qed.

(** What is found, for every layout and every output type. *)
Lemma declared_first : forall cls n i o w0 s, starts_word cls -> blank w0 -> declares_at cls n i o s -> find_class cls (w0 ++ s) = Some (n, i, o).
Proof.
  intros cls n i o w0 s Hc B D. apply find_class_iff; auto. exists w0, s. split; [reflexivity|]. split; [exact D|].
  intros pre' s' n' i' o' E' D'. assert (exists r, s = txt "class" ++ r) as (r & ->) by (destruct D; eexists; reflexivity). destruct D'. cbn [app] in E'. clear - E' B.
  revert pre' E'. induction w0 as [|x w0 IH]; intros pre' E'; cbn [List.length]; [lia|]. inversion B as [|x' w' Hx Hw]; subst.
  destruct pre' as [|y pre'].
  - exfalso. injection E' as -> _. discriminate.
  - injection E' as _ E'. apply IH in E'; auto. cbn. lia.
Qed.
Lemma blank_no_comma : forall w, blank w -> ~ In ","%char w.
Proof. intros w H Hi. unfold blank in H. rewrite Forall_forall in H. specialize (H _ Hi). discriminate. Qed.
Lemma starts_blank_app : forall s w, s <> [] -> ~ starts_blank s -> ~ starts_blank (s ++ w).
Proof. intros [|c s] w H N (d & s' & E & D); [congruence|]. injection E as <- E. apply N. exists c, s. auto. Qed.
Lemma spelled_cases : forall cls n i o w8 w9 line, starts_word cls -> spelled cls n i o [w8; w9] line ->
  (~ In ","%char o -> find_class cls line = Some (n, i ++ w8, o ++ w9)) /\
  (forall o1 o2, o = o1 ++ txt "," ++ o2 -> ~ In ","%char o2 ->
     exists w7 w r, blank w7 /\ o2 ++ w9 = w ++ r /\ blank w /\ ~ starts_blank r /\ find_class cls line = Some (n, i ++ w8 ++ txt "," ++ w7 ++ o1, r)).
Proof.
  intros cls n i o w8' w9' line Hc Hs.
  inversion Hs as [w0 w1 w2 w3 w4 w5 w6 w7 w8 w9 post Hb H1 H4 Hn Hn0 Hi Hie Hi0 Hos Hoe Ho0 Hp E8 E]; subst.
  repeat match goal with H : Forall blank (_ :: _) |- _ => let A := fresh "B" in let B := fresh in inversion H as [|? ? A B]; subst; clear H end.
  split.
  - intros Nc. apply declared_first; [exact Hc|assumption|].
    replace (i ++ w8' ++ txt "," ++ w7 ++ o ++ w9' ++ txt ">" ++ post) with ((i ++ w8') ++ txt "," ++ w7 ++ (o ++ w9') ++ txt ">" ++ post) by (now rewrite <- !app_assoc).
    constructor; auto using starts_blank_app. rewrite in_app_iff. intros [X|X]; [exact (Nc X)|]. revert X. apply blank_no_comma. assumption.
  - intros o1 o2 -> Nc. destruct (split_blank (o2 ++ w9')) as (w & r & Er & Bw & Nr). exists w7, w, r.
    split; [assumption|]. split; [exact Er|]. split; [exact Bw|]. split; [exact Nr|]. apply declared_first; [exact Hc|assumption|].
    replace (i ++ w8' ++ txt "," ++ w7 ++ (o1 ++ txt "," ++ o2) ++ w9' ++ txt ">" ++ post) with ((i ++ w8' ++ txt "," ++ w7 ++ o1) ++ txt "," ++ w ++ r ++ txt ">" ++ post).
    2:{ rewrite (app_assoc w r), <- Er. rewrite <- !app_assoc. reflexivity. }
    constructor; auto using starts_blank_app.
    intros X. assert (Y : In ","%char (o2 ++ w9')) by (rewrite Er; apply in_or_app; now right). apply in_app_or in Y.
    destruct Y as [Y|Y]; [exact (Nc Y)|]. revert Y. apply blank_no_comma. assumption.
Qed.
Lemma last_comma : forall o : text, In ","%char o -> exists o1 o2, o = o1 ++ txt "," ++ o2 /\ ~ In ","%char o2.
Proof.
  induction o as [|c o IH]; intros H; [destruct H|]. destruct (in_dec Ascii.ascii_dec ","%char o) as [Y|N].
  - destruct (IH Y) as (o1 & o2 & -> & No). exists (c :: o1), o2. auto.
  - destruct H as [->|H]; [|contradiction]. exists [], o. auto.
Qed.
Lemma spelled_iff : forall cls n i o w8 w9 line, starts_word cls -> spelled cls n i o [w8; w9] line ->
  find_class cls line = Some (n, i, o) <-> w8 = [] /\ w9 = [] /\ ~ In ","%char o.
Proof.
  intros cls n i o w8 w9 line Hc Hs. destruct (spelled_cases _ _ _ _ _ _ _ Hc Hs) as [A B]. split.
  - intros E. destruct (in_dec Ascii.ascii_dec ","%char o) as [Y|N].
    + exfalso. destruct (last_comma o Y) as (o1 & o2 & Eo & No). destruct (B _ _ Eo No) as (w7 & w & r & _ & _ & _ & _ & F). rewrite F in E. injection E as E _.
      apply (f_equal (@List.length ascii)) in E. rewrite !app_length in E. simpl in E. lia.
    + rewrite (A N) in E. injection E as E1 E2. split; [|split; [|exact N]].
      * rewrite <- (app_nil_r i) in E1 at 2. now apply app_inv_head in E1.
      * rewrite <- (app_nil_r o) in E2 at 2. now apply app_inv_head in E2.
  - intros (-> & -> & N). rewrite (A N), !app_nil_r. reflexivity.
Qed.

Lemma kinds_words : forall k, In k filing -> starts_word (fst k).
Proof. intros k [<-|[<-|[<-|[<-|[<-|[]]]]]]; do 2 eexists; split; reflexivity. Qed.

(** *** The headers scanned *)
Lemma ends_with_iff : forall e s, ends_with e s = true <-> exists p, s = p ++ e.
Proof.
  assert (T : forall a b, text_eqb a b = true <-> a = b).
  { induction a as [|x a IH]; intros [|y b]; cbn; try (split; congruence). rewrite andb_true_iff, IH, Ascii.eqb_eq. split; [intros [-> ->] | intros [= -> ->]]; auto. }
  intros e s. unfold ends_with. destruct (Nat.ltb_spec (List.length s) (List.length e)) as [L|L].
  - split; [discriminate|]. intros [p ->]. rewrite app_length in L. lia.
  - rewrite T. split.
    + intros E. exists (firstn (List.length s - List.length e) s). rewrite <- E at 2. now rewrite firstn_skipn.
    + intros [p ->]. rewrite app_length, Nat.add_sub. rewrite skipn_app, skipn_all, Nat.sub_diag. reflexivity.
Qed.

Lemma header_iff : forall s, is_generated_header s = true <-> scanned_header s.
Proof.
  assert (T : forall a b, text_eqb a b = true <-> a = b).
  { induction a as [|x a IH]; intros [|y b]; cbn; try (split; congruence). rewrite andb_true_iff, IH, Ascii.eqb_eq. split; [intros [-> ->] | intros [= -> ->]]; auto. }
  intros s. unfold is_generated_header, scanned_header, is_header. rewrite <- ends_with_iff. destruct (ends_with (txt ".hh") s); cbn [negb]; [|split; [discriminate | intros [G _]; discriminate]].
  cbn [map In].
  repeat match goal with |- (if text_eqb s ?u then false else _) = true <-> _ =>
    let E := fresh "E" in destruct (text_eqb s u) eqn:E;
      [apply T in E; subst; split; [discriminate | intros [_ G]; exfalso; apply G; tauto]
      |assert (s <> u) by (intros ->; rewrite (proj2 (T u u) eq_refl) in E; discriminate); clear E] end.
  split; auto. intros _. split; auto. intros G. repeat destruct G as [G|G]; congruence.
Qed.

(** *** Where layout matters *)
Lemma spelled_trailing : exists w line, spelled (txt "PSimpleBase") (txt "A") (txt "double") (txt "double") w line /\
  find_class (txt "PSimpleBase") line = Some (txt "A", txt "double ", txt "double").
Proof.
  exists [txt " "; []]. eexists. split.
  - apply (Spelled (txt "PSimpleBase") (txt "A") (txt "double") (txt "double") [] (txt " ") (txt " ") (txt " ") (txt " ") [] [] [] (txt " ") [] []);
      try discriminate; try (now repeat constructor); try (intros (c & s & [= <- <-] & E); discriminate); auto.
  - vm_compute. reflexivity.
Qed.

Lemma spelled_comma : exists line, spelled (txt "PSimpleBase") (txt "A") (txt "double") (txt "std::map<int,int>") [[]; []] line /\
  find_class (txt "PSimpleBase") line = Some (txt "A", txt "double,std::map<int", txt "int>").
Proof.
  eexists. split.
  - apply (Spelled (txt "PSimpleBase") (txt "A") (txt "double") (txt "std::map<int,int>") [] (txt " ") (txt " ") (txt " ") (txt " ") [] [] [] [] [] []);
      try discriminate; try (now repeat constructor); try (intros (c & s & [= <- <-] & E); discriminate); auto.
  - vm_compute. reflexivity.
Qed.

Lemma spelled_example : exists line, spelled (txt "PFuncBase") (txt "My_Func") (txt "VarContainer") (txt "double") [[]; []] line /\
  find_class (txt "PFuncBase") line = Some (txt "My_Func", txt "VarContainer", txt "double").
Proof.
  eexists. split.
  - apply (Spelled (txt "PFuncBase") (txt "My_Func") (txt "VarContainer") (txt "double") (txt "    ") (txt " ") (txt "  ") [] (txt " ") [] (txt " ") (txt " ") [] [] (txt " {"));
      try discriminate; try (now repeat constructor); try (intros (c & s & [= <- <-] & E); discriminate).
    intros [E|[E|[]]]; discriminate.
  - vm_compute. reflexivity.
Qed.
