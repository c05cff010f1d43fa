(** Lifetimes of bodies, interpolators and fields: C49. *)
From Coq Require Import ZArith List Bool Lia Arith.
From Verif Require Import Model.Outcome Model.Wrapper Model.Life Spec.Life Proofs.OutcomeP Proofs.WrapperP.
Import ListNotations.

(** ** Lists of addresses *)

Lemma del_all : forall (X : Type) l (h : heap X), NoDup l -> (forall p, In p l -> exists x, nth_error h p = Some (Some x)) ->
  exists h', ofold h_delete l h = Ok h' /\ length h' = length h /\
    forall p, nth_error h' p = if in_dec Nat.eq_dec p l then Some None else nth_error h p.
Proof.
  intros X l. induction l as [|q l IH]; intros h Hn Hl.
  - exists h. split; [reflexivity|]. split; [reflexivity|]. intros p. reflexivity.
  - inversion Hn as [|? ? Hq Hn']; subst. destruct (Hl q (or_introl eq_refl)) as (x & Hx).
    cbn [ofold]. unfold h_delete at 1. rewrite Hx. cbn [obind].
    destruct (IH (lset h q None) Hn') as (h' & E & L & Hh).
    { intros p Hp. rewrite nth_lset. destruct (Nat.eqb_spec q p) as [-> |_]; [contradiction|]. apply Hl. right. exact Hp. }
    exists h'. split; [exact E|]. split; [rewrite L, length_lset; reflexivity|].
    intros p. rewrite Hh, nth_lset. destruct (in_dec Nat.eq_dec p l) as [Hp|Hp], (in_dec Nat.eq_dec p (q :: l)) as [Hp'|Hp']; auto.
    + exfalso. apply Hp'. right. exact Hp.
    + destruct Hp' as [-> |Hp']; [|contradiction]. rewrite Nat.eqb_refl, Hx. reflexivity.
    + destruct (Nat.eqb_spec q p) as [-> |_]; [|reflexivity]. exfalso. apply Hp'. left. reflexivity.
Qed.

(** The objects of one class alive are those listed by the bodies alive, each by one body and once. *)
Record own {X : Type} (hb : heap lbody) (proj : lbody -> list nat) (h : heap X) : Prop := mkOwn {
  ow_live : forall a b p, nth_error hb a = Some (Some b) -> In p (proj b) -> exists x, nth_error h p = Some (Some x);
  ow_once : forall a b, nth_error hb a = Some (Some b) -> NoDup (proj b);
  ow_one : forall a a' b b' p, nth_error hb a = Some (Some b) -> nth_error hb a' = Some (Some b') -> In p (proj b) -> In p (proj b') -> a = a';
  ow_all : forall p x, nth_error h p = Some (Some x) -> exists a b, nth_error hb a = Some (Some b) /\ In p (proj b) }.

Lemma own_new : forall (X : Type) hb proj (h : heap X) b0, own hb proj h -> proj b0 = [] -> own (h_new b0 hb) proj h.
Proof.
  intros X hb proj h b0 [H1 H2 H3 H4] E. unfold h_new.
  assert (G : forall a b, nth_error (hb ++ [Some b0]) a = Some (Some b) -> nth_error hb a = Some (Some b) \/ b = b0).
  { intros a b. rewrite nth_snoc. destruct (Nat.eqb a (length hb)); [|auto]. intros Q. injection Q as <-. auto. }
  constructor.
  - intros a b p Hb Hp. destruct (G _ _ Hb) as [Hb' | ->]; [eauto|]. rewrite E in Hp. destruct Hp.
  - intros a b Hb. destruct (G _ _ Hb) as [Hb' | ->]; [eauto|]. rewrite E. constructor.
  - intros a a' b b' p Hb Hb' Hp Hp'. destruct (G _ _ Hb) as [Gb | ->]; [|rewrite E in Hp; destruct Hp].
    destruct (G _ _ Hb') as [Gb' | ->]; [eauto|rewrite E in Hp'; destruct Hp'].
  - intros p x Hp. destruct (H4 p x Hp) as (a & b & Ha & Hi). exists a, b. split; [|exact Hi]. rewrite nth_snoc.
    destruct (Nat.eqb_spec a (length hb)) as [-> |_]; [|exact Ha]. apply nth_len in Ha. lia.
Qed.

Lemma own_grow : forall (X : Type) hb proj (h : heap X) a b b' x n, own hb proj h -> nth_error hb a = Some (Some b) ->
  proj b' = proj b ++ seq (length h) n -> own (lset hb a (Some b')) proj (h ++ repeat (Some x) n).
Proof.
  intros X hb proj h a b b' x n [H1 H2 H3 H4] Ha E.
  assert (Hlt : forall c d p, nth_error hb c = Some (Some d) -> In p (proj d) -> p < length h).
  { intros c d p Hc Hp. destruct (H1 c d p Hc Hp) as (y & Hy). apply nth_len in Hy. exact Hy. }
  assert (Hnew : forall p, p < length h + n -> length h <= p -> nth_error (h ++ repeat (Some x) n) p = Some (Some x)).
  { intros p L1 L2. rewrite nth_error_app2 by exact L2. apply nth_error_repeat. lia. }
  assert (Hold : forall p y, nth_error h p = Some y -> nth_error (h ++ repeat (Some x) n) p = Some y).
  { intros p y Hp. rewrite nth_error_app1; [exact Hp|]. apply nth_error_Some. congruence. }
  assert (G : forall c d, nth_error (lset hb a (Some b')) c = Some (Some d) -> (c = a /\ d = b') \/ (c <> a /\ nth_error hb c = Some (Some d))).
  { intros c d. rewrite nth_lset. destruct (Nat.eqb_spec a c) as [-> |Hne]; [|right; split; [congruence|assumption]].
    rewrite Ha. intros Q. injection Q as <-. left. auto. }
  constructor.
  - intros c d p Hc Hp. destruct (G _ _ Hc) as [[-> ->]|[Hne Hc']].
    + rewrite E in Hp. apply in_app_iff in Hp. destruct Hp as [Hp|Hp].
      * destruct (H1 _ _ _ Ha Hp) as (y & Hy). exists y. apply Hold. exact Hy.
      * apply in_seq in Hp. exists x. apply Hnew; lia.
    + destruct (H1 _ _ _ Hc' Hp) as (y & Hy). exists y. apply Hold. exact Hy.
  - intros c d Hc. destruct (G _ _ Hc) as [[-> ->]|[Hne Hc']]; [|eauto].
    rewrite E.
    assert (N1 := H2 _ _ Ha). assert (Hb := fun p => Hlt a b p Ha). clear -N1 Hb.
    revert Hb. induction N1 as [|q l Hq N1 IH]; intros Hb; [cbn; apply seq_NoDup|]. cbn [app]. constructor.
    + rewrite in_app_iff, in_seq. intros [Hi|Hi]; [contradiction|]. specialize (Hb q (or_introl eq_refl)). lia.
    + apply IH. intros p Hp. apply Hb. right. exact Hp.
  - intros c c' d d' p Hc Hc' Hp Hp'. destruct (G _ _ Hc) as [[-> ->]|[Hne Gc]], (G _ _ Hc') as [[-> ->]|[Hne' Gc']]; auto.
    + rewrite E in Hp. apply in_app_iff in Hp. destruct Hp as [Hp|Hp]; [eapply H3; eauto|]. apply in_seq in Hp. specialize (Hlt _ _ _ Gc' Hp'). lia.
    + rewrite E in Hp'. apply in_app_iff in Hp'. destruct Hp' as [Hp'|Hp']; [eapply H3; eauto|]. apply in_seq in Hp'. specialize (Hlt _ _ _ Gc Hp). lia.
    + eapply H3; eauto.
  - intros p y Hp. destruct (Nat.lt_ge_cases p (length h)) as [L|L].
    + rewrite nth_error_app1 in Hp by exact L. destruct (H4 p y Hp) as (c & d & Hc & Hi).
      destruct (Nat.eq_dec c a) as [-> |Hne].
      * exists a, b'. rewrite nth_lset, Nat.eqb_refl, Hc. split; [reflexivity|]. rewrite E. apply in_app_iff. left.
        rewrite Ha in Hc. injection Hc as ->. exact Hi.
      * exists c, d. rewrite nth_lset. destruct (Nat.eqb_spec a c); [congruence|]. split; [exact Hc|exact Hi].
    + assert (p < length h + n). { apply nth_len in Hp. rewrite app_length, repeat_length in Hp. exact Hp. }
      exists a, b'. rewrite nth_lset, Nat.eqb_refl, Ha. split; [reflexivity|]. rewrite E. apply in_app_iff. right. apply in_seq. lia.
Qed.

Lemma own_delete : forall (X : Type) hb proj (h : heap X) a b, own hb proj h -> nth_error hb a = Some (Some b) ->
  exists h', ofold h_delete (proj b) h = Ok h' /\ length h' = length h /\
    (forall p, nth_error h' p = if in_dec Nat.eq_dec p (proj b) then Some None else nth_error h p) /\ own (lset hb a None) proj h'.
Proof.
  intros X hb proj h a b [H1 H2 H3 H4] Ha.
  destruct (del_all X (proj b) h (H2 _ _ Ha)) as (h' & E & L & Hh).
  { intros p Hp. exact (H1 _ _ _ Ha Hp). }
  exists h'. split; [exact E|]. split; [exact L|]. split; [exact Hh|].
  assert (G : forall c d, nth_error (lset hb a None) c = Some (Some d) -> c <> a /\ nth_error hb c = Some (Some d)).
  { intros c d. rewrite nth_lset. destruct (Nat.eqb_spec a c) as [-> |Hne]; [rewrite Ha; discriminate|]. split; [congruence|assumption]. }
  constructor.
  - intros c d p Hc Hp. destruct (G _ _ Hc) as [Hne Gc]. destruct (H1 _ _ _ Gc Hp) as (x & Hx). exists x. rewrite Hh.
    destruct (in_dec Nat.eq_dec p (proj b)) as [Hi|Hi]; [|exact Hx]. exfalso. apply Hne. eapply H3; eauto.
  - intros c d Hc. destruct (G _ _ Hc) as [Hne Gc]. eauto.
  - intros c c' d d' p Hc Hc' Hp Hp'. destruct (G _ _ Hc) as [_ Gc], (G _ _ Hc') as [_ Gc']. eapply H3; eauto.
  - intros p x Hp. rewrite Hh in Hp. destruct (in_dec Nat.eq_dec p (proj b)) as [Hi|Hi]; [discriminate|].
    destruct (H4 _ _ Hp) as (c & d & Hc & Hin). exists c, d. split; [|exact Hin]. rewrite nth_lset.
    destruct (Nat.eqb_spec a c) as [-> |_]; [|exact Hc]. exfalso. rewrite Ha in Hc. injection Hc as ->. exact (Hi Hin).
Qed.

(** ** The invariant of careful programs *)

Lemma count_snoc : forall (X : Type) (f : X -> nat) l x, count f (l ++ [x]) = count f l + f x.
Proof. intros X f l x. unfold count. rewrite map_app, list_sum_app. cbn. lia. Qed.
Lemma origins_snoc : forall os o, origins (os ++ [o]) = origins os ++ match o with LClone a _ => [a] | _ => [] end.
Proof. intros os o. unfold origins. rewrite flat_map_app. cbn. rewrite app_nil_r. reflexivity. Qed.
Lemma origins_length : forall os, length (origins os) = clones os.
Proof. induction os as [|o os IH]; [reflexivity|]. unfold origins, clones, count in *. cbn. rewrite app_length, IH. destruct o; reflexivity. Qed.

Record inv (os : list life_op) (s : life) : Prop := mkInv {
  iv_bodies : length (lf_body s) = bodies os;
  iv_body : forall a, live_body os a -> exists b, nth_error (lf_body s) a = Some (Some b) /\ length (lb_interp b) = elements a os /\
    lb_field b = repeat a (fields a os);
  iv_live : forall a b, nth_error (lf_body s) a = Some (Some b) -> ~ In (LDelete a) os;
  iv_fresh : forall a, bodies os <= a -> ~ In (LDelete a) os /\ elements a os = 0 /\ fields a os = 0;
  iv_interp : own (lf_body s) lb_interp (lf_interp s);
  iv_bfunc : own (lf_body s) lb_bfunc (lf_bfunc s);
  iv_points : forall a b p bf, nth_error (lf_body s) a = Some (Some b) -> In p (lb_interp b) -> nth_error (lf_interp s) p = Some (Some bf) -> In bf (lb_bfunc b);
  iv_clones : length (lf_clone s) = clones os;
  iv_clone : forall c, live_clone os c -> exists a, nth_error (origins os) c = Some a /\ nth_error (lf_clone s) c = Some (Some a);
  iv_cdead : forall c x, nth_error (lf_clone s) c = Some (Some x) -> ~ In (LDeleteClone c) os;
  iv_cfresh : forall c, clones os <= c -> ~ In (LDeleteClone c) os }.

Lemma inv_start : inv [] life_start.
Proof.
  assert (N : forall (X : Type) n, nth_error (@nil X) n = None) by (intros X []; reflexivity).
  constructor; cbn; auto; try (intros; rewrite N in *; discriminate).
  - intros a [H _]. cbn in H. lia.
  - constructor; intros; rewrite N in *; discriminate.
  - constructor; intros; rewrite N in *; discriminate.
  - intros c [H _]. cbn in H. lia.
Qed.

(** An evaluation on living objects changes nothing. *)
Lemma touch_ok : forall os s a b seen, inv os s -> nth_error (lf_body s) a = Some (Some b) -> Forall (fun i => i < length (lb_interp b)) seen ->
  l_touch a seen s = Ok s.
Proof.
  intros os s a b seen I Hb Hs. unfold l_touch, h_read. rewrite Hb. cbn [obind].
  induction Hs as [|i seen Hi Hs IH]; [reflexivity|]. cbn [ofold].
  destruct (nth_error (lb_interp b) i) as [p|] eqn:Ep; [|apply nth_error_None in Ep; lia].
  assert (Hp : In p (lb_interp b)) by (eapply nth_error_In; exact Ep).
  destruct (ow_live _ _ _ (iv_interp _ _ I) _ _ _ Hb Hp) as (bf & Hbf). rewrite Hbf. cbn [obind].
  destruct (ow_live _ _ _ (iv_bfunc _ _ I) _ _ _ Hb (iv_points _ _ I _ _ _ _ Hb Hp Hbf)) as (u & ->). cbn [obind]. exact IH.
Qed.

Lemma field_ok : forall os s a k, inv os s -> live_body os a -> k < fields a os -> l_field a k s = Ok a.
Proof.
  intros os s a k I Ha Hk. destruct (iv_body _ _ I a Ha) as (b & Hb & _ & Hf). unfold l_field, h_read. rewrite Hb. cbn [obind].
  rewrite Hf, nth_error_repeat by exact Hk. reflexivity.
Qed.

Lemma in_snoc : forall (X : Type) (l : list X) x y, In y (l ++ [x]) <-> In y l \/ x = y.
Proof. intros X l x y. rewrite in_app_iff. cbn. tauto. Qed.

(** What the clones' part of the invariant needs of an operation that leaves them alone, and the bodies' part. *)
Lemma clone_keeps : forall os s s' o, inv os s -> lf_clone s' = lf_clone s -> (forall c, o <> LDeleteClone c) -> (forall a k, o <> LClone a k) ->
  length (lf_clone s') = clones (os ++ [o]) /\
  (forall c, live_clone (os ++ [o]) c -> exists a, nth_error (origins (os ++ [o])) c = Some a /\ nth_error (lf_clone s') c = Some (Some a)) /\
  (forall c x, nth_error (lf_clone s') c = Some (Some x) -> ~ In (LDeleteClone c) (os ++ [o])) /\
  (forall c, clones (os ++ [o]) <= c -> ~ In (LDeleteClone c) (os ++ [o])).
Proof.
  intros os s s' o I Es Hc Hk. rewrite Es.
  assert (C : clones (os ++ [o]) = clones os) by (unfold clones; rewrite count_snoc; destruct o; try lia; exfalso; eapply Hk; reflexivity).
  assert (G : origins (os ++ [o]) = origins os) by (rewrite origins_snoc; destruct o; try (apply app_nil_r); exfalso; eapply Hk; reflexivity).
  split; [rewrite C; exact (iv_clones _ _ I)|]. split; [|split].
  - intros c [H1 H2]. rewrite C in H1. rewrite in_snoc in H2. rewrite G. apply (iv_clone _ _ I). split; [exact H1|tauto].
  - intros c x Hx Hi. apply in_snoc in Hi. destruct Hi as [Hi|Hi]; [exact (iv_cdead _ _ I _ _ Hx Hi)|exact (Hc _ Hi)].
  - intros c L Hi. rewrite C in L. apply in_snoc in Hi. destruct Hi as [Hi|Hi]; [exact (iv_cfresh _ _ I _ L Hi)|exact (Hc _ Hi)].
Qed.

Lemma body_keeps : forall os s o, inv os s -> match o with LEval _ _ _ | LEvalClone _ _ | LClone _ _ | LDeleteClone _ => True | _ => False end ->
  bodies (os ++ [o]) = bodies os /\ (forall a, live_body (os ++ [o]) a <-> live_body os a) /\
  (forall a, In (LDelete a) (os ++ [o]) <-> In (LDelete a) os) /\ (forall a, elements a (os ++ [o]) = elements a os) /\
  (forall a, fields a (os ++ [o]) = fields a os).
Proof.
  intros os s o I Ho.
  assert (B : bodies (os ++ [o]) = bodies os) by (unfold bodies; rewrite count_snoc; destruct o; try destruct Ho; lia).
  assert (D : forall a, In (LDelete a) (os ++ [o]) <-> In (LDelete a) os).
  { intros a. rewrite in_snoc. split; [|tauto]. intros [H| ->]; [exact H|destruct Ho]. }
  split; [exact B|]. split; [|split; [exact D|]].
  - intros a. unfold live_body. rewrite B, D. reflexivity.
  - split; intros a; unfold elements, fields; rewrite count_snoc; destruct o; try destruct Ho; lia.
Qed.

(** Operations that leave the bodies alone. *)
Lemma inv_keeps : forall os s s' o, inv os s -> match o with LEval _ _ _ | LEvalClone _ _ | LClone _ _ | LDeleteClone _ => True | _ => False end ->
  lf_body s' = lf_body s -> lf_interp s' = lf_interp s -> lf_bfunc s' = lf_bfunc s ->
  length (lf_clone s') = clones (os ++ [o]) ->
  (forall c, live_clone (os ++ [o]) c -> exists a, nth_error (origins (os ++ [o])) c = Some a /\ nth_error (lf_clone s') c = Some (Some a)) ->
  (forall c x, nth_error (lf_clone s') c = Some (Some x) -> ~ In (LDeleteClone c) (os ++ [o])) ->
  (forall c, clones (os ++ [o]) <= c -> ~ In (LDeleteClone c) (os ++ [o])) -> inv (os ++ [o]) s'.
Proof.
  intros os s s' o I Ho E1 E2 E3 C1 C2 C3 C4. destruct (body_keeps os s o I Ho) as (B & L & D & E & F).
  constructor; rewrite ?E1, ?E2, ?E3; auto.
  - rewrite B. apply I.
  - intros a Ha. rewrite E, F. apply I, L, Ha.
  - intros a b Hb. rewrite D. eapply iv_live; eauto.
  - intros a Ha. rewrite D, E, F. apply I. lia.
  - apply I.
  - apply I.
  - apply I.
Qed.

Lemma step_eval : forall os s a k seen, inv os s -> careful os (LEval a k seen) -> l_eval a k seen s = Ok s /\ inv (os ++ [LEval a k seen]) s.
Proof.
  intros os s a k seen I (Ha & Hk & Hs). split.
  - unfold l_eval. rewrite (field_ok _ _ _ _ I Ha Hk). cbn [obind]. destruct (iv_body _ _ I a Ha) as (b & Hb & He & _).
    eapply touch_ok; eauto. rewrite He. exact Hs.
  - destruct (clone_keeps os s s (LEval a k seen) I eq_refl ltac:(discriminate) ltac:(discriminate)) as (C1 & C2 & C3 & C4). eapply inv_keeps; eauto.
Qed.

Lemma step_eval_clone : forall os s c seen, inv os s -> careful os (LEvalClone c seen) -> l_eval_clone c seen s = Ok s /\ inv (os ++ [LEvalClone c seen]) s.
Proof.
  intros os s c seen I (Hc & a & Ho & Ha & Hs). split.
  - destruct (iv_clone _ _ I c Hc) as (a' & Ho' & Hc'). rewrite Ho in Ho'. injection Ho' as <-.
    unfold l_eval_clone, h_read. rewrite Hc'. cbn [obind]. destruct (iv_body _ _ I a Ha) as (b & Hb & He & _).
    eapply touch_ok; eauto. rewrite He. exact Hs.
  - destruct (clone_keeps os s s (LEvalClone c seen) I eq_refl ltac:(discriminate) ltac:(discriminate)) as (C1 & C2 & C3 & C4). eapply inv_keeps; eauto.
Qed.

Lemma step_clone : forall os s a k, inv os s -> careful os (LClone a k) -> exists s', l_clone a k s = Ok s' /\ inv (os ++ [LClone a k]) s'.
Proof.
  intros os s a k I (Ha & Hk). unfold l_clone. rewrite (field_ok _ _ _ _ I Ha Hk). cbn [obind]. eexists. split; [reflexivity|].
  assert (C : clones (os ++ [LClone a k]) = clones os + 1) by (unfold clones; apply count_snoc).
  assert (L := iv_clones _ _ I). assert (O := origins_length os).
  eapply inv_keeps; eauto; cbn [lf_clone lf_body lf_interp lf_bfunc]; unfold h_new.
  - rewrite app_length, C, L. reflexivity.
  - intros c [H1 H2]. rewrite in_snoc in H2. rewrite origins_snoc, !nth_snoc, O, L.
    destruct (Nat.eqb_spec c (clones os)) as [-> |Hne]; [exists a; auto|]. apply (iv_clone _ _ I). split; [lia|tauto].
  - intros c x Hx Hi. apply in_snoc in Hi. destruct Hi as [Hi|Hi]; [|discriminate]. rewrite nth_snoc in Hx.
    destruct (Nat.eqb_spec c (length (lf_clone s))) as [-> |Hne]; [|exact (iv_cdead _ _ I _ _ Hx Hi)].
    refine (iv_cfresh _ _ I _ _ Hi). lia.
  - intros c Hc Hi. apply in_snoc in Hi. destruct Hi as [Hi|Hi]; [|discriminate]. refine (iv_cfresh _ _ I c _ Hi). lia.
Qed.

Lemma step_delete_clone : forall os s c, inv os s -> careful os (LDeleteClone c) -> exists s', l_delete_clone c s = Ok s' /\ inv (os ++ [LDeleteClone c]) s'.
Proof.
  intros os s c I Hc. destruct (iv_clone _ _ I c Hc) as (a & _ & Hn). unfold l_delete_clone, h_delete. rewrite Hn. cbn [obind]. eexists. split; [reflexivity|].
  assert (C : clones (os ++ [LDeleteClone c]) = clones os) by (unfold clones; rewrite count_snoc; lia).
  assert (O : origins (os ++ [LDeleteClone c]) = origins os) by (rewrite origins_snoc; apply app_nil_r).
  eapply inv_keeps; eauto; cbn [lf_clone lf_body lf_interp lf_bfunc].
  - rewrite length_lset, C. apply I.
  - intros d [H1 H2]. rewrite C in H1. rewrite in_snoc in H2. rewrite O, nth_lset. destruct (Nat.eqb_spec c d) as [-> |Hne]; [tauto|].
    apply I. split; [exact H1|tauto].
  - intros d x Hx Hi. rewrite nth_lset in Hx. destruct (Nat.eqb_spec c d) as [-> |Hne]; [rewrite Hn in Hx; discriminate|].
    apply in_snoc in Hi. destruct Hi as [Hi|Hi]; [exact (iv_cdead _ _ I _ _ Hx Hi)|congruence].
  - intros d Hd Hi. rewrite C in Hd. apply in_snoc in Hi. destruct Hi as [Hi|Hi]; [exact (iv_cfresh _ _ I _ Hd Hi)|].
    destruct Hc as [Hc _]. injection Hi as ->. lia.
Qed.

Lemma step_new : forall os s, inv os s -> exists s', l_new s = Ok s' /\ inv (os ++ [LNew]) s'.
Proof.
  intros os s I. eexists. split; [reflexivity|].
  match goal with |- inv _ ?s' => destruct (clone_keeps os s s' LNew I eq_refl ltac:(discriminate) ltac:(discriminate)) as (C1 & C2 & C3 & C4) end.
  assert (B : bodies (os ++ [LNew]) = bodies os + 1) by (unfold bodies; apply count_snoc).
  assert (E : forall a, elements a (os ++ [LNew]) = elements a os) by (intros a; unfold elements; rewrite count_snoc; lia).
  assert (F : forall a, fields a (os ++ [LNew]) = fields a os) by (intros a; unfold fields; rewrite count_snoc; lia).
  assert (D : forall a, In (LDelete a) (os ++ [LNew]) <-> In (LDelete a) os) by (intros a; rewrite in_snoc; split; [intros [H|H]; [exact H|discriminate]|tauto]).
  assert (L := iv_bodies _ _ I).
  constructor; auto; cbn [lf_body lf_interp lf_bfunc]; unfold h_new.
  - rewrite app_length, B, L. reflexivity.
  - intros a [H1 H2]. rewrite D in H2. rewrite E, F, nth_snoc, L. destruct (Nat.eqb_spec a (bodies os)) as [-> |Hne].
    + destruct (iv_fresh _ _ I (bodies os) (le_n _)) as (_ & -> & ->). eexists. split; [reflexivity|]. split; reflexivity.
    + apply I. split; [lia|exact H2].
  - intros a b Hb. rewrite D. rewrite nth_snoc, L in Hb. destruct (Nat.eqb_spec a (bodies os)) as [-> |Hne].
    + apply (iv_fresh _ _ I). lia.
    + eapply iv_live; eauto.
  - intros a Ha. rewrite D, E, F. apply I. lia.
  - apply own_new; [exact (iv_interp _ _ I)|reflexivity].
  - apply own_new; [exact (iv_bfunc _ _ I)|reflexivity].
  - intros a b p bf Hb Hp Hbf. rewrite nth_snoc in Hb. destruct (Nat.eqb_spec a (length (lf_body s))) as [-> |_].
    + injection Hb as <-. destruct Hp.
    + eapply (iv_points _ _ I); eauto.
Qed.

Lemma step_read : forall os s a n k, inv os s -> live_body os a -> exists s', l_read a n k s = Ok s' /\ inv (os ++ [LRead a n k]) s'.
Proof.
  intros os s a n k I Ha. destruct (iv_body _ _ I a Ha) as (b & Hb & He & Hf). unfold l_read, h_read. rewrite Hb. cbn [obind]. eexists. split; [reflexivity|].
  match goal with |- inv _ ?s' => destruct (clone_keeps os s s' (LRead a n k) I eq_refl ltac:(discriminate) ltac:(discriminate)) as (C1 & C2 & C3 & C4) end.
  assert (B : bodies (os ++ [LRead a n k]) = bodies os) by (unfold bodies; rewrite count_snoc; lia).
  assert (E : forall c, elements c (os ++ [LRead a n k]) = elements c os + if Nat.eqb c a then n else 0) by (intros c; unfold elements; rewrite count_snoc; reflexivity).
  assert (F : forall c, fields c (os ++ [LRead a n k]) = fields c os + if Nat.eqb c a then k else 0) by (intros c; unfold fields; rewrite count_snoc; reflexivity).
  assert (D : forall c, In (LDelete c) (os ++ [LRead a n k]) <-> In (LDelete c) os) by (intros c; rewrite in_snoc; split; [intros [H|H]; [exact H|discriminate]|tauto]).
  constructor; auto; cbn [lf_body lf_interp lf_bfunc].
  - rewrite length_lset, B. apply I.
  - intros c [H1 H2]. rewrite B in H1. rewrite D in H2. rewrite E, F, nth_lset, (Nat.eqb_sym c a).
    destruct (Nat.eqb_spec a c) as [-> |Hne].
    + rewrite Hb. eexists. split; [reflexivity|]. cbn [lb_interp lb_field]. split; [rewrite app_length, seq_length, He; reflexivity|].
      rewrite Hf, repeat_app. reflexivity.
    + rewrite !Nat.add_0_r. apply I. split; assumption.
  - intros c d Hd. rewrite D. rewrite nth_lset in Hd. destruct (Nat.eqb_spec a c) as [-> |Hne]; [apply Ha|]. eapply iv_live; eauto.
  - intros c Hc. rewrite B in Hc. rewrite D, E, F. destruct (Nat.eqb_spec c a) as [-> |Hne]; [destruct Ha as [Ha _]; lia|].
    rewrite !Nat.add_0_r. apply I. exact Hc.
  - apply own_grow with (b := b); auto. exact (iv_interp _ _ I).
  - apply (own_grow unit (lf_body s) lb_bfunc (lf_bfunc s) a b _ tt 1 (iv_bfunc _ _ I) Hb). reflexivity.
  - intros c d p bf Hd Hp Hbf. rewrite nth_lset in Hd. destruct (Nat.eqb_spec a c) as [-> |Hne].
    + rewrite Hb in Hd. injection Hd as <-. cbn [lb_interp lb_bfunc] in *. apply in_app_iff in Hp. apply in_app_iff. destruct Hp as [Hp|Hp].
      * left. eapply (iv_points _ _ I); eauto. destruct (ow_live _ _ _ (iv_interp _ _ I) _ _ _ Hb Hp) as (x & Hx).
        rewrite nth_error_app1 in Hbf by (apply nth_error_Some; congruence). exact Hbf.
      * right. apply in_seq in Hp. rewrite nth_error_app2 in Hbf by lia. apply nth_error_In, repeat_spec in Hbf. injection Hbf as ->. left. reflexivity.
    + destruct (ow_live _ _ _ (iv_interp _ _ I) _ _ _ Hd Hp) as (x & Hx).
      rewrite nth_error_app1 in Hbf by (apply nth_error_Some; congruence). eapply (iv_points _ _ I); eauto.
Qed.

Lemma delete_virtual : forall l (h : heap nat), ofold (delete_interp true) l h = ofold h_delete l h.
Proof.
  induction l as [|p l IH]; intros h; [reflexivity|]. cbn [ofold]. unfold delete_interp at 1. destruct (h_delete h p); cbn [obind]; try reflexivity. apply IH.
Qed.

Lemma step_delete : forall os s a, inv os s -> live_body os a -> exists s', l_delete true a s = Ok s' /\ inv (os ++ [LDelete a]) s'.
Proof.
  intros os s a I Ha. destruct (iv_body _ _ I a Ha) as (b & Hb & _).
  destruct (own_delete _ _ _ _ _ _ (iv_interp _ _ I) Hb) as (hi & Ei & Li & Hi & Oi).
  destruct (own_delete _ _ _ _ _ _ (iv_bfunc _ _ I) Hb) as (hb & Eb & Lb & Hh & Ob).
  unfold l_delete, h_read. rewrite Hb. cbn [obind]. rewrite delete_virtual, Ei. cbn [obind]. rewrite Eb. cbn [obind].
  unfold h_delete. rewrite Hb. cbn [obind]. eexists. split; [reflexivity|].
  match goal with |- inv _ ?s' => destruct (clone_keeps os s s' (LDelete a) I eq_refl ltac:(discriminate) ltac:(discriminate)) as (C1 & C2 & C3 & C4) end.
  assert (B : bodies (os ++ [LDelete a]) = bodies os) by (unfold bodies; rewrite count_snoc; lia).
  assert (E : forall c, elements c (os ++ [LDelete a]) = elements c os) by (intros c; unfold elements; rewrite count_snoc; lia).
  assert (F : forall c, fields c (os ++ [LDelete a]) = fields c os) by (intros c; unfold fields; rewrite count_snoc; lia).
  assert (G : forall c d, nth_error (lset (lf_body s) a None) c = Some (Some d) -> c <> a /\ nth_error (lf_body s) c = Some (Some d)).
  { intros c d. rewrite nth_lset. destruct (Nat.eqb_spec a c) as [-> |Hne]; [rewrite Hb; discriminate|]. split; [congruence|assumption]. }
  constructor; auto; cbn [lf_body lf_interp lf_bfunc].
  - rewrite length_lset, B. apply I.
  - intros c [H1 H2]. rewrite B in H1. rewrite in_snoc in H2. rewrite E, F, nth_lset. destruct (Nat.eqb_spec a c) as [-> |Hne]; [tauto|].
    apply I. split; [exact H1|tauto].
  - intros c d Hd Hin. destruct (G _ _ Hd) as [Hne Gd]. apply in_snoc in Hin. destruct Hin as [Hin|Hin]; [exact (iv_live _ _ I _ _ Gd Hin)|congruence].
  - intros c Hc. rewrite B in Hc. rewrite E, F, in_snoc. destruct (iv_fresh _ _ I c Hc) as (H1 & H2 & H3). split; [|auto].
    intros [H|H]; [exact (H1 H)|]. injection H as ->. destruct Ha. lia.
  - intros c d p bf Hd Hp Hbf. destruct (G _ _ Hd) as [Hne Gd]. rewrite Hi in Hbf.
    destruct (in_dec Nat.eq_dec p (lb_interp b)) as [Hin|Hin]; [discriminate|]. eapply (iv_points _ _ I); eauto.
Qed.

Lemma step_ok : forall os s o, inv os s -> careful os o -> exists s', life_step true o s = Ok s' /\ inv (os ++ [o]) s'.
Proof.
  intros os s [|a n k|a k seen|a k|c seen|a|c|a|a b] I Hc; cbn [life_step]; try (destruct Hc; fail).
  - apply step_new, I.
  - apply step_read; auto.
  - exists s. apply step_eval; auto.
  - apply step_clone; auto.
  - exists s. apply step_eval_clone; auto.
  - apply step_delete; auto.
  - apply step_delete_clone; auto.
Qed.

Lemma run_app : forall v os os' s, life_run v (os ++ os') s = (let* s1 := life_run v os s in life_run v os' s1).
Proof. intros v os os'. induction os as [|o os IH]; intros s; [reflexivity|]. cbn [app life_run]. destruct (life_step v o s); cbn [obind]; try reflexivity. apply IH. Qed.

Lemma proper_inv : forall os, proper os -> exists s, life_run true os life_start = Ok s /\ inv os s.
Proof.
  intros os H. induction H as [|os o H (s & E & I) Hc]; [exists life_start; split; [reflexivity|exact inv_start]|].
  destruct (step_ok os s o I Hc) as (s' & E' & I'). exists s'. split; [|exact I']. rewrite run_app, E. cbn [obind life_run]. rewrite E'. reflexivity.
Qed.

Lemma careful_safe : forall os, proper os -> exists s, life_run true os life_start = Ok s.
Proof. intros os H. destruct (proper_inv os H) as (s & E & _). exists s. exact E. Qed.

Lemma all_none : forall (X : Type) (h : heap X), (forall p x, nth_error h p <> Some (Some x)) -> Forall (eq None) h.
Proof. intros X h H. apply Forall_forall. intros [x|] Hx; [|reflexivity]. apply In_nth_error in Hx. destruct Hx as (p & Hp). exfalso. exact (H p x Hp). Qed.

Lemma nothing_left : forall os, proper os -> (forall a, a < bodies os -> In (LDelete a) os) -> (forall c, c < clones os -> In (LDeleteClone c) os) ->
  exists s, life_run true os life_start = Ok s /\ all_freed s.
Proof.
  intros os H Hb Hc. destruct (proper_inv os H) as (s & E & I). exists s. split; [exact E|].
  assert (N : forall a b, nth_error (lf_body s) a <> Some (Some b)).
  { intros a b Ha. refine (iv_live _ _ I _ _ Ha (Hb a _)). apply nth_len in Ha. rewrite (iv_bodies _ _ I) in Ha. exact Ha. }
  split; [|split; [|split]]; apply all_none; intros p x Hp.
  - exact (N _ _ Hp).
  - destruct (ow_all _ _ _ (iv_interp _ _ I) _ _ Hp) as (a & b & Ha & _). exact (N _ _ Ha).
  - destruct (ow_all _ _ _ (iv_bfunc _ _ I) _ _ Hp) as (a & b & Ha & _). exact (N _ _ Ha).
  - refine (iv_cdead _ _ I _ _ Hp (Hc p _)). apply nth_len in Hp. rewrite (iv_clones _ _ I) in Hp. exact Hp.
Qed.

(** *** Operations that are not careful are undefined *)

Lemma in_dec_op : forall (o : life_op) os, {In o os} + {~ In o os}.
Proof. intros o os. apply in_dec. decide equality; try apply Nat.eq_dec; apply list_eq_dec, Nat.eq_dec. Qed.
Lemma live_dec : forall os a, {live_body os a} + {~ live_body os a}.
Proof.
  intros os a. destruct (lt_dec a (bodies os)) as [H|H]; [|right; intros [H' _]; contradiction].
  destruct (in_dec_op (LDelete a) os) as [D|D]; [right; intros [_ D']; contradiction|left; split; assumption].
Qed.
Lemma clone_dec : forall os c, {live_clone os c} + {~ live_clone os c}.
Proof.
  intros os a. destruct (lt_dec a (clones os)) as [H|H]; [|right; intros [H' _]; contradiction].
  destruct (in_dec_op (LDeleteClone a) os) as [D|D]; [right; intros [_ D']; contradiction|left; split; assumption].
Qed.

Lemma dead_body : forall os s a, inv os s -> ~ live_body os a -> h_read (lf_body s) a = UB UBDangling.
Proof.
  intros os s a I H. unfold h_read. destruct (nth_error (lf_body s) a) as [[b|]|] eqn:E; try reflexivity.
  exfalso. apply H. split; [apply nth_len in E; rewrite (iv_bodies _ _ I) in E; exact E|exact (iv_live _ _ I _ _ E)].
Qed.
Lemma dead_clone : forall os s c, inv os s -> ~ live_clone os c -> forall x, nth_error (lf_clone s) c <> Some (Some x).
Proof.
  intros os s c I H x E. apply H. split; [apply nth_len in E; rewrite (iv_clones _ _ I) in E; exact E|exact (iv_cdead _ _ I _ _ E)].
Qed.

Lemma touch_short : forall os s a b seen, inv os s -> nth_error (lf_body s) a = Some (Some b) -> ~ Forall (fun i => i < length (lb_interp b)) seen ->
  l_touch a seen s = UB UBOutOfBounds.
Proof.
  intros os s a b seen I Hb Hs. unfold l_touch, h_read. rewrite Hb. cbn [obind].
  induction seen as [|i seen IH]; [exfalso; apply Hs; constructor|]. cbn [ofold].
  destruct (nth_error (lb_interp b) i) as [p|] eqn:Ep; [|reflexivity].
  assert (Hp : In p (lb_interp b)) by (eapply nth_error_In; exact Ep).
  destruct (ow_live _ _ _ (iv_interp _ _ I) _ _ _ Hb Hp) as (bf & Hbf). rewrite Hbf. cbn [obind].
  destruct (ow_live _ _ _ (iv_bfunc _ _ I) _ _ _ Hb (iv_points _ _ I _ _ _ _ Hb Hp Hbf)) as (u & ->). cbn [obind]. apply IH.
  intros Hf. apply Hs. constructor; [apply nth_error_Some; congruence|exact Hf].
Qed.

Lemma touch_dead : forall os s a seen, inv os s -> ~ live_body os a -> l_touch a seen s = UB UBDangling.
Proof. intros os s a seen I H. unfold l_touch. rewrite (dead_body _ _ _ I H). reflexivity. Qed.

Lemma field_bad : forall os s a k, inv os s -> ~ (live_body os a /\ k < fields a os) -> exists u, l_field a k s = UB u.
Proof.
  intros os s a k I H. unfold l_field. destruct (live_dec os a) as [Ha|Ha]; [|rewrite (dead_body _ _ _ I Ha); eexists; reflexivity].
  destruct (iv_body _ _ I a Ha) as (b & Hb & _ & Hf). unfold h_read. rewrite Hb. cbn [obind]. rewrite Hf.
  destruct (nth_error (repeat a (fields a os)) k) eqn:E; [|eexists; reflexivity]. exfalso. apply H. split; [exact Ha|]. apply nth_len in E. rewrite repeat_length in E. exact E.
Qed.

Lemma only_careful : forall os o, proper os -> (forall a, o <> LCopy a) -> (forall a b, o <> LAssign a b) ->
  ~ careful os o -> exists u, life_run true (os ++ [o]) life_start = UB u.
Proof.
  intros os o H N1 N2 Hc. destruct (proper_inv os H) as (s & E & I). rewrite run_app, E. cbn [obind life_run].
  assert (G : exists u, life_step true o s = UB u); [|destruct G as (u & ->); exists u; reflexivity].
  destruct o as [|a n k|a k seen|a k|c seen|a|c|a|a b]; cbn [life_step careful] in *.
  - exfalso. apply Hc. exact Logic.I.
  - unfold l_read. rewrite (dead_body _ _ _ I Hc). eexists; reflexivity.
  - unfold l_eval. destruct (live_dec os a) as [Ha|Ha].
    + destruct (lt_dec k (fields a os)) as [Hk|Hk].
      * rewrite (field_ok _ _ _ _ I Ha Hk). cbn [obind]. destruct (iv_body _ _ I a Ha) as (b & Hb & He & _).
        exists UBOutOfBounds. eapply touch_short; eauto. rewrite He. tauto.
      * destruct (field_bad _ _ a k I) as (u & ->); [tauto|]. eexists; reflexivity.
    + destruct (field_bad _ _ a k I) as (u & ->); [tauto|]. eexists; reflexivity.
  - unfold l_clone. destruct (field_bad _ _ a k I Hc) as (u & ->). eexists; reflexivity.
  - unfold l_eval_clone. destruct (clone_dec os c) as [Hl|Hl].
    + destruct (iv_clone _ _ I c Hl) as (a & Ho & Hcl). unfold h_read. rewrite Hcl. cbn [obind].
      destruct (live_dec os a) as [Ha|Ha]; [|rewrite (touch_dead _ _ _ _ I Ha); eexists; reflexivity].
      destruct (iv_body _ _ I a Ha) as (b & Hb & He & _).
      exists UBOutOfBounds. eapply touch_short; eauto. rewrite He. intros Hf. apply Hc. split; [exact Hl|]. exists a. auto.
    + pose proof (dead_clone _ _ _ I Hl) as D. unfold h_read. destruct (nth_error (lf_clone s) c) as [[x|]|]; [|eexists; reflexivity..]. exfalso. exact (D x eq_refl).
  - unfold l_delete. rewrite (dead_body _ _ _ I Hc). eexists; reflexivity.
  - unfold l_delete_clone, h_delete. pose proof (dead_clone _ _ _ I Hc) as D. destruct (nth_error (lf_clone s) c) as [[x|]|]; [|eexists; reflexivity..]. exfalso. exact (D x eq_refl).
  - exfalso. exact (N1 a eq_refl).
  - exfalso. exact (N2 a b eq_refl).
Qed.

(** *** Without a virtual destructor *)

Lemma step_false : forall o s, (forall a, o <> LDelete a) -> life_step false o s = life_step true o s.
Proof. intros o s H. destruct o; try reflexivity. exfalso. exact (H a eq_refl). Qed.

Lemma proper_snoc : forall os o, proper (os ++ [o]) -> proper os /\ careful os o.
Proof.
  intros os o H. inversion H as [E|os' o' H' Hc E]; [destruct os; discriminate|]. apply app_inj_tail in E. destruct E as [-> ->]. auto.
Qed.

Lemma snoc_split : forall (X : Type) (l : list X) x l1 y l2, l ++ [x] = l1 ++ y :: l2 ->
  (l2 = [] /\ l1 = l /\ y = x) \/ exists l2', l2 = l2' ++ [x] /\ l = l1 ++ y :: l2'.
Proof.
  intros X l x l1 y l2 E. destruct (@exists_last _ (y :: l2)) as (l' & z & El); [discriminate|].
  destruct l' as [|y' l'].
  - injection El as <- ->. apply app_inj_tail in E. destruct E as [-> <-]. left. auto.
  - injection El as <- El. right. exists l'. rewrite El in E. rewrite El. change (y :: l' ++ [z]) with ((y :: l') ++ [z]) in E.
    rewrite app_assoc in E. apply app_inj_tail in E. destruct E as [-> <-]. auto.
Qed.

Lemma no_virtual_safe : forall os, proper os -> no_mesh_deleted os -> life_run false os life_start = life_run true os life_start.
Proof.
  intros os H. induction H as [|os o H IH Hc]; intros N; [reflexivity|].
  rewrite !run_app, IH.
  2: { intros os1 a os2 E. apply (N os1 a (os2 ++ [o])). rewrite E, <- app_assoc. reflexivity. }
  destruct (proper_inv os H) as (s & E & I). rewrite E. cbn [obind life_run].
  assert (Es : life_step false o s = life_step true o s); [|rewrite Es; reflexivity].
  destruct o as [|a n k|a k seen|a k|c seen|a|c|a|a b]; try reflexivity. cbn [life_step careful] in *.
  destruct (iv_body _ _ I a Hc) as (b & Hb & He & _). rewrite (N os a [] eq_refl) in He.
  unfold l_delete, h_read. rewrite Hb. cbn [obind]. destruct (lb_interp b); [reflexivity|discriminate].
Qed.

Lemma no_virtual_delete : forall os a, proper (os ++ [LDelete a]) -> no_mesh_deleted os -> 0 < elements a os ->
  forall os', life_run false (os ++ LDelete a :: os') life_start = UB UBBadDelete.
Proof.
  intros os a H N He os'. apply proper_snoc in H. destruct H as [H Hc]. rewrite run_app, (no_virtual_safe os H N).
  destruct (proper_inv os H) as (s & E & I). rewrite E. cbn [obind life_run life_step].
  destruct (iv_body _ _ I a Hc) as (b & Hb & Hl & _). unfold l_delete, h_read. rewrite Hb. cbn [obind].
  destruct (lb_interp b) as [|p l] eqn:Ep; [cbn in Hl; lia|]. cbn [ofold].
  assert (Hp : In p (lb_interp b)) by (rewrite Ep; left; reflexivity).
  destruct (ow_live _ _ _ (iv_interp _ _ I) _ _ _ Hb Hp) as (bf & Hbf). unfold delete_interp, h_delete. rewrite Hbf. reflexivity.
Qed.

Lemma mesh_deleted_dec : forall os, no_mesh_deleted os \/ ~ no_mesh_deleted os.
Proof.
  intros os. induction os as [|o os IH] using rev_ind; [left; intros os1 a os2 E; destruct os1; discriminate|].
  destruct IH as [IH|IH].
  - assert (G : (exists a, o = LDelete a /\ elements a os <> 0) \/ ~ (exists a, o = LDelete a /\ elements a os <> 0)).
    { destruct o as [|? ? ?|? ? ?|? ?|? ?|a|?|?|? ?]; try (right; intros (a' & Q & _); discriminate).
      destruct (Nat.eq_dec (elements a os) 0) as [Q|Q]; [right; intros (a' & Q' & Q2); injection Q' as <-; contradiction|left; eauto]. }
    destruct G as [G|G].
    + right. intros N. destruct G as (a & -> & Q). apply Q. apply (N os a []). reflexivity.
    + left. intros os1 a os2 E. apply snoc_split in E. destruct E as [(-> & -> & E)|(l2 & -> & E)]; [|eapply IH; eauto].
      destruct (Nat.eq_dec (elements a os) 0) as [Q|Q]; [exact Q|]. exfalso. apply G. exists a. auto.
  - right. intros N. apply IH. intros os1 a os2 E. apply (N os1 a (os2 ++ [o])). rewrite E, <- app_assoc. reflexivity.
Qed.

(** Deleting some body with interpolators, in a careful program, is always undefined. *)
Lemma no_virtual_refuted : forall os, proper os -> ~ no_mesh_deleted os -> life_run false os life_start = UB UBBadDelete.
Proof.
  intros os H. induction H as [|os o H IH Hc]; intros N.
  - exfalso. apply N. intros os1 a os2 E. destruct os1; discriminate.
  - destruct (mesh_deleted_dec os) as [D|D].
    + destruct o as [|a n k|a k seen|a k|c seen|a|c|a|a b];
        try (exfalso; apply N; intros os1 a' os2 E; apply snoc_split in E; destruct E as [(_ & _ & E)|(l2 & _ & E)]; [discriminate|eapply D; eauto]).
      assert (He : 0 < elements a os).
      { destruct (Nat.eq_dec (elements a os) 0) as [Q|Q]; [|lia]. exfalso. apply N. intros os1 a' os2 E. apply snoc_split in E.
        destruct E as [(_ & -> & E)|(l2 & _ & E)]; [injection E as ->; exact Q|eapply D; eauto]. }
      apply no_virtual_delete; auto. constructor; auto.
    + rewrite run_app, (IH D). reflexivity.
Qed.

(** *** Copies of bodies *)

Lemma delete_dead : forall (h : heap nat) p l, nth_error h p = Some None -> ofold (delete_interp true) (p :: l) h = UB UBDoubleFree.
Proof. intros h p l H. cbn [ofold]. unfold delete_interp, h_delete. rewrite H. reflexivity. Qed.

(** Two bodies with the same interpolators: deleting both frees them twice. *)
Lemma twin_delete : forall os s a c b, inv os s -> nth_error (lf_body s) a = Some (Some b) -> lb_interp b <> [] ->
  forall s1, nth_error (lf_body s1) a = Some (Some b) -> nth_error (lf_body s1) c = Some (Some b) -> a <> c ->
  lf_interp s1 = lf_interp s -> lf_bfunc s1 = lf_bfunc s ->
  life_run true [LDelete a; LDelete c] s1 = UB UBDoubleFree /\ life_run true [LDelete c; LDelete a] s1 = UB UBDoubleFree.
Proof.
  intros os s a c b I Hb Hne s1 Ha Hc Hac Ei Eb.
  destruct (own_delete _ _ _ _ _ _ (iv_interp _ _ I) Hb) as (hi & Edi & _ & Hi & _).
  destruct (own_delete _ _ _ _ _ _ (iv_bfunc _ _ I) Hb) as (hb & Edb & _ & Hh & _).
  assert (One : forall x, nth_error (lf_body s1) x = Some (Some b) -> l_delete true x s1 = Ok (mkLife (lset (lf_body s1) x None) hi hb (lf_clone s1))).
  { intros x Hx. unfold l_delete, h_read. rewrite Hx. cbn [obind]. rewrite delete_virtual, Ei, Edi. cbn [obind]. rewrite Eb, Edb. cbn [obind].
    unfold h_delete. rewrite Hx. reflexivity. }
  assert (Two : forall y h hc, nth_error h y = Some (Some b) -> l_delete true y (mkLife h hi hb hc) = UB UBDoubleFree).
  { intros y h hc Hy. unfold l_delete, h_read. cbn [lf_body lf_interp]. rewrite Hy. cbn [obind].
    destruct (lb_interp b) as [|p l] eqn:Ep; [congruence|]. rewrite delete_dead; [reflexivity|]. rewrite Hi.
    destruct (in_dec Nat.eq_dec p (p :: l)) as [_|N]; [reflexivity|]. exfalso. apply N. left. reflexivity. }
  split; cbn [life_run life_step].
  - rewrite (One _ Ha). cbn [obind]. rewrite Two; [reflexivity|]. rewrite nth_lset. destruct (Nat.eqb_spec a c); [contradiction|exact Hc].
  - rewrite (One _ Hc). cbn [obind]. rewrite Two; [reflexivity|]. rewrite nth_lset. destruct (Nat.eqb_spec c a); [congruence|exact Ha].
Qed.

Lemma copy_double_free : forall os a, proper os -> live_body os a -> 0 < elements a os ->
  life_run true (os ++ [LCopy a; LDelete a; LDelete (bodies os)]) life_start = UB UBDoubleFree /\
  life_run true (os ++ [LCopy a; LDelete (bodies os); LDelete a]) life_start = UB UBDoubleFree.
Proof.
  intros os a H Ha He. destruct (proper_inv os H) as (s & E & I). rewrite !run_app, E. cbn [obind].
  destruct (iv_body _ _ I a Ha) as (b & Hb & Hl & _). assert (L := iv_bodies _ _ I).
  assert (Hlt := nth_len _ _ _ _ Hb).
  change (LCopy a :: ?l) with ([LCopy a] ++ l).
  change [LCopy a; LDelete a; LDelete (bodies os)] with ([LCopy a] ++ [LDelete a; LDelete (bodies os)]).
  change [LCopy a; LDelete (bodies os); LDelete a] with ([LCopy a] ++ [LDelete (bodies os); LDelete a]).
  rewrite !run_app. cbn [life_run life_step]. unfold l_copy, h_read. rewrite Hb. cbn [obind].
  apply (twin_delete os s a (bodies os) b I Hb); cbn [lf_body lf_interp lf_bfunc]; unfold h_new; rewrite ?nth_snoc, ?L, ?Nat.eqb_refl; auto.
  - intros Q. rewrite Q in Hl. cbn in Hl. lia.
  - destruct (Nat.eqb_spec a (bodies os)); [lia|exact Hb].
  - lia.
Qed.

Lemma assign_double_free : forall os a c, proper os -> live_body os a -> live_body os c -> a <> c -> 0 < elements c os ->
  life_run true (os ++ [LAssign a c; LDelete a; LDelete c]) life_start = UB UBDoubleFree /\
  life_run true (os ++ [LAssign a c; LDelete c; LDelete a]) life_start = UB UBDoubleFree.
Proof.
  intros os a c H Ha Hc Hac He. destruct (proper_inv os H) as (s & E & I). rewrite !run_app, E. cbn [obind].
  destruct (iv_body _ _ I c Hc) as (b & Hb & Hl & _). destruct (iv_body _ _ I a Ha) as (b0 & Hb0 & _).
  change [LAssign a c; LDelete a; LDelete c] with ([LAssign a c] ++ [LDelete a; LDelete c]).
  change [LAssign a c; LDelete c; LDelete a] with ([LAssign a c] ++ [LDelete c; LDelete a]).
  rewrite !run_app. cbn [life_run life_step]. unfold l_assign, h_read. rewrite Hb, Hb0. cbn [obind].
  assert (Hne : lb_interp b <> []) by (intros Q; rewrite Q in Hl; cbn in Hl; lia).
  assert (G := twin_delete os s c a b I Hb Hne (mkLife (lset (lf_body s) a (Some b)) (lf_interp s) (lf_bfunc s) (lf_clone s))).
  cbn [lf_body lf_interp lf_bfunc] in G. rewrite !nth_lset, Nat.eqb_refl, Hb0 in G.
  destruct (Nat.eqb_spec a c); [contradiction|]. specialize (G Hb eq_refl ltac:(congruence) eq_refl eq_refl). tauto.
Qed.

(** A copy's fields stay with the original's mesh. *)
Lemma copy_field_dangles : forall os a k seen, proper os -> live_body os a -> k < fields a os ->
  life_run true (os ++ [LCopy a; LDelete a; LEval (bodies os) k seen]) life_start = UB UBDangling.
Proof.
  intros os a k seen H Ha Hk. destruct (proper_inv os H) as (s & E & I). rewrite run_app, E. cbn [obind].
  destruct (iv_body _ _ I a Ha) as (b & Hb & _ & Hf). assert (L := iv_bodies _ _ I). assert (Hlt := nth_len _ _ _ _ Hb).
  destruct (own_delete _ _ _ _ _ _ (iv_interp _ _ I) Hb) as (hi & Edi & _ & Hi & _).
  destruct (own_delete _ _ _ _ _ _ (iv_bfunc _ _ I) Hb) as (hb & Edb & _ & Hh & _).
  cbn [life_run life_step]. unfold l_copy, h_read. rewrite Hb. cbn [obind].
  assert (Ha' : nth_error (lf_body s ++ [Some b]) a = Some (Some b)) by (rewrite nth_snoc; destruct (Nat.eqb_spec a (length (lf_body s))); [lia|exact Hb]).
  unfold l_delete, h_read. cbn [lf_body lf_interp lf_bfunc]. unfold h_new. rewrite Ha'. cbn [obind].
  rewrite delete_virtual, Edi. cbn [obind]. rewrite Edb. cbn [obind]. unfold h_delete. rewrite Ha'. cbn [obind].
  unfold l_eval, l_field, h_read. cbn [lf_body]. rewrite nth_lset. destruct (Nat.eqb_spec a (bodies os)); [lia|].
  rewrite nth_snoc, L, Nat.eqb_refl. cbn [obind]. rewrite Hf, nth_error_repeat by exact Hk. cbn [obind].
  unfold l_touch, h_read. cbn [lf_body]. rewrite nth_lset, Nat.eqb_refl, Ha'. reflexivity.
Qed.

(** So does a clone of a copy's field. *)
Lemma copy_clone_dangles : forall os a k seen, proper os -> live_body os a -> k < fields a os ->
  life_run true (os ++ [LCopy a; LClone (bodies os) k; LDelete a; LEvalClone (clones os) seen]) life_start = UB UBDangling.
Proof.
  intros os a k seen H Ha Hk. destruct (proper_inv os H) as (s & E & I). rewrite run_app, E. cbn [obind].
  destruct (iv_body _ _ I a Ha) as (b & Hb & _ & Hf). assert (L := iv_bodies _ _ I). assert (Hlt := nth_len _ _ _ _ Hb). assert (LC := iv_clones _ _ I).
  destruct (own_delete _ _ _ _ _ _ (iv_interp _ _ I) Hb) as (hi & Edi & _ & Hi & _).
  destruct (own_delete _ _ _ _ _ _ (iv_bfunc _ _ I) Hb) as (hb & Edb & _ & Hh & _).
  cbn [life_run life_step]. unfold l_copy, h_read. rewrite Hb. cbn [obind].
  assert (Ha' : nth_error (lf_body s ++ [Some b]) a = Some (Some b)) by (rewrite nth_snoc; destruct (Nat.eqb_spec a (length (lf_body s))); [lia|exact Hb]).
  unfold l_clone, l_field, h_read. cbn [lf_body lf_interp lf_bfunc lf_clone]. unfold h_new. rewrite nth_snoc, L, Nat.eqb_refl. cbn [obind]. rewrite Hf, nth_error_repeat by exact Hk. cbn [obind].
  unfold l_delete, h_read. cbn [lf_body lf_interp lf_bfunc lf_clone]. rewrite Ha'. cbn [obind].
  rewrite delete_virtual, Edi. cbn [obind]. rewrite Edb. cbn [obind]. unfold h_delete. rewrite Ha'. cbn [obind].
  unfold l_eval_clone, h_read. cbn [lf_clone]. rewrite nth_snoc, LC, Nat.eqb_refl. cbn [obind].
  unfold l_touch, h_read. cbn [lf_body]. rewrite nth_lset, Nat.eqb_refl, Ha'. reflexivity.
Qed.

(** A field put elsewhere (cloned) is useless once its body is gone. *)
Lemma clone_dangles : forall os a k seen, proper os -> live_body os a -> k < fields a os ->
  life_run true (os ++ [LClone a k; LDelete a; LEvalClone (clones os) seen]) life_start = UB UBDangling.
Proof.
  intros os a k seen H Ha Hk.
  assert (H1 : proper (os ++ [LClone a k])) by (constructor; [exact H|split; assumption]).
  assert (Ha1 : live_body (os ++ [LClone a k]) a).
  { destruct Ha as [A1 A2]. split; [unfold bodies; rewrite count_snoc; fold (bodies os); lia|]. rewrite in_snoc. intros [D|D]; [contradiction|discriminate]. }
  assert (H2 : proper ((os ++ [LClone a k]) ++ [LDelete a])) by (constructor; assumption).
  destruct (proper_inv _ H2) as (s & E & I). rewrite <- app_assoc in E.
  change [LClone a k; LDelete a; LEvalClone (clones os) seen] with (([LClone a k] ++ [LDelete a]) ++ [LEvalClone (clones os) seen]).
  rewrite app_assoc, run_app, E. cbn [obind life_run life_step].
  assert (C : clones ((os ++ [LClone a k]) ++ [LDelete a]) = clones os + 1) by (unfold clones; rewrite !count_snoc; lia).
  assert (Hc : live_clone ((os ++ [LClone a k]) ++ [LDelete a]) (clones os)).
  { split; [lia|]. rewrite !in_snoc. intros [[D|D]|D]; try discriminate. destruct (proper_inv _ H) as (s0 & _ & I0). exact (iv_cfresh _ _ I0 _ (le_n _) D). }
  destruct (iv_clone _ _ I _ Hc) as (a' & Ho & Hcl). rewrite !origins_snoc, app_nil_r, nth_snoc, origins_length, Nat.eqb_refl in Ho. injection Ho as <-.
  unfold l_eval_clone, h_read. rewrite Hcl. cbn [obind]. rewrite (touch_dead _ _ _ _ I); [reflexivity|].
  intros [_ D]. apply D. rewrite in_snoc. right. reflexivity.
Qed.
