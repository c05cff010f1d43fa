(** Piecewise functions: the first piece whose conditions hold answers. *)
From Coq Require Import ZArith List Bool String Lia.
From Verif Require Import Model.Outcome Model.PSimple Model.FuncObj Model.Piecewise Spec.Funcs Spec.Piecewise Proofs.OutcomeP Proofs.FuncObjP.
Import ListNotations.
Local Open Scope Z_scope.

Section Conditions.
Context {V A T : Type}.

(** A run that computes an outcome and leaves a state with a property. *)
Definition runs {S B : Type} (r : res S B) (x : outcome B) (P : S -> Prop) : Prop :=
  match r with
  | RRet t a => x = Ok a /\ P t
  | RThrow t e => x = Throw e /\ P t
  | RExit => x = Exit
  | RUB u => x = UB u
  | RNoFuel => x = NoFuel
  end.

Lemma runs_outcome : forall (S B : Type) (r : res S B) x P, runs r x P -> res_outcome r = x.
Proof. intros S B [s b|s e| |u|] x P H; cbn in *; try destruct H; congruence. Qed.

Lemma runs_imp : forall (S B : Type) (r : res S B) x (P Q : S -> Prop), (forall s, P s -> Q s) -> runs r x P -> runs r x Q.
Proof. intros S B [s b|s e| |u|] x P Q H H0; cbn in *; try destruct H0; auto. Qed.

Lemma conds_run : forall v (cs : list (simple V bool)),
  runs (conds_call v cs) (conds_at cs v) (fun cs' => map sp_eval cs' = map sp_eval cs).
Proof.
  induction cs as [|c cs IH]; cbn; auto.
  unfold sp_call, mbind, mget, mlift, mput, mret.
  destruct (sp_eval c v) as [[|]|e| |u|] eqn:E; cbn; auto.
  destruct (conds_call v cs) as [s b|s e| |u|]; cbn in *; auto; destruct IH as [-> ->]; auto.
Qed.

Lemma conds_hold : forall v (cs : list (simple V bool)), holds (map sp_eval cs) v -> conds_at cs v = Ok true.
Proof.
  induction cs as [|c cs IH]; cbn; intros H; auto. inversion H; subst. rewrite H2. cbn. auto.
Qed.

Lemma conds_fail : forall v (cs : list (simple V bool)), fails (map sp_eval cs) v -> conds_at cs v = Ok false.
Proof.
  induction cs as [|c cs IH]; cbn; intros (cs1 & x & cs2 & E & H & F).
  - destruct cs1; discriminate.
  - destruct cs1 as [|y cs1]; cbn in E; injection E as -> E.
    + rewrite F. reflexivity.
    + inversion H; subst. rewrite H2. cbn. apply IH. exists cs1, x, cs2. auto.
Qed.

(** The pieces with other stored condition values. *)
Definition same_piece (p' p : piece V T) : Prop := pc_expr p' = pc_expr p /\ map sp_eval (pc_cond p') = map sp_eval (pc_cond p).
Definition same_pieces : list (piece V T) -> list (piece V T) -> Prop := Forall2 same_piece.

Lemma same_refl : forall l, same_pieces l l.
Proof. induction l; constructor; auto. split; reflexivity. Qed.

Lemma in_piece_run : forall v (p : piece V T), runs (pc_in_piece v p) (conds_at (pc_cond p) v) (fun p' => same_piece p' p).
Proof.
  intros v p. unfold pc_in_piece. generalize (conds_run v (pc_cond p)).
  destruct (conds_call v (pc_cond p)) as [s b|s e| |u|]; cbn; auto; intros [-> H]; repeat split; auto.
Qed.

Fixpoint find_at (v : V) (i : Z) (l : list (piece V T)) : outcome (option Z) :=
  match l with
  | [] => Ok None
  | p :: l' => let* b := conds_at (pc_cond p) v in if b then Ok (Some i) else find_at v (i + 1) l'
  end.

Lemma find_run : forall v l i, runs (find_piece v i l) (find_at v i l) (fun l' => same_pieces l' l).
Proof.
  induction l as [|p l IH]; intros i; cbn.
  - split; auto. constructor.
  - generalize (in_piece_run v p). destruct (pc_in_piece v p) as [p' [|]|p' e| |u|]; cbn.
    + intros [-> H]. cbn. split; auto. constructor; auto. apply same_refl.
    + intros [-> H]. cbn. generalize (IH (i + 1)).
      destruct (find_piece v (i + 1) l) as [s k|s e| |u|]; cbn; auto; intros [-> H1]; split; auto; constructor; auto.
    + intros [-> H]. cbn. split; auto. constructor; auto. apply same_refl.
    + intros ->. reflexivity.
    + intros ->. reflexivity.
    + intros ->. reflexivity.
Qed.

Variable inv : T -> family V A -> Prop.
Definition piece_is (p : piece V T) (d : list (V -> outcome bool) * family V A) : Prop :=
  map sp_eval (pc_cond p) = fst d /\ inv (pc_expr p) (snd d).

Lemma find_chosen : forall v (l : cases V A) ps k i, Forall2 piece_is ps l -> chosen l v k ->
  find_at v i ps = Ok (Some (i + Z.of_nat k)).
Proof.
  intros v l ps k i H. revert k i. induction H as [|p d ps l [Hc Hi] H IH]; intros k i [(d' & E & Hd) Hf].
  - destruct k; discriminate.
  - cbn. destruct k as [|k].
    + injection E as <-. rewrite conds_hold by (now rewrite Hc). cbn. do 2 f_equal. lia.
    + rewrite conds_fail by (rewrite Hc; apply (Hf 0%nat d); [lia | reflexivity]). cbn.
      rewrite (IH k).
      * do 2 f_equal. lia.
      * split; [exists d'; auto|]. intros j d2 Hj E2. apply (Hf (Datatypes.S j) d2); [lia | exact E2].
Qed.

Lemma find_unmatched : forall v (l : cases V A) ps i, Forall2 piece_is ps l -> unmatched l v -> find_at v i ps = Ok None.
Proof.
  intros v l ps i H. revert i. induction H as [|p d ps l [Hc Hi] H IH]; intros i Hu; cbn; auto.
  inversion Hu; subst. rewrite conds_fail by (now rewrite Hc). cbn. auto.
Qed.

Lemma same_is : forall ps' ps (l : cases V A), same_pieces ps' ps -> Forall2 piece_is ps l -> Forall2 piece_is ps' l.
Proof.
  intros ps' ps l H. revert l. induction H as [|p' p ps' ps [H1 H2] H IH]; intros l Hl; inversion Hl; subst; constructor; auto.
  unfold piece_is in *. rewrite H1, H2. auto.
Qed.

Lemma same_nth : forall ps' ps k p, same_pieces ps' ps -> nth_error ps k = Some p -> exists p', nth_error ps' k = Some p' /\ same_piece p' p.
Proof.
  intros ps' ps k p H. revert k. induction H; intros [|k] E; cbn in *; try discriminate; eauto.
  injection E as <-. eauto.
Qed.

Lemma is_nth : forall ps (l : cases V A) k d, Forall2 piece_is ps l -> nth_error l k = Some d -> exists p, nth_error ps k = Some p /\ piece_is p d.
Proof.
  intros ps l k d H. revert k. induction H; intros [|k] E; cbn in *; try discriminate; eauto.
  injection E as <-. eauto.
Qed.

Lemma is_lset : forall ps (l : cases V A) k d p, Forall2 piece_is ps l -> nth_error l k = Some d -> piece_is p d ->
  Forall2 piece_is (lset ps k p) l.
Proof.
  intros ps l k d p H. revert k. induction H; intros [|k] E Hp; cbn in *; try discriminate; constructor; auto.
  injection E as <-. auto.
Qed.
End Conditions.

Section Class.
Context {V A T : Type} (K : fclass V A T).

(** The outcome of looking for a piece. *)
Lemma piece_of_find : forall v (o : pw V T), match find_at v 0 (pw_piece o) with
  | Ok (Some i) => exists ps, pw_piece_of v o = RRet (mkPw (Some i) ps) i /\ same_pieces ps (pw_piece o)
  | Ok None => exists ps, pw_piece_of v o = RThrow (mkPw (pw_curr o) ps) DomainError /\ same_pieces ps (pw_piece o)
  | Throw e => exists ps, pw_piece_of v o = RThrow (mkPw (pw_curr o) ps) e /\ same_pieces ps (pw_piece o)
  | Exit => pw_piece_of v o = RExit
  | UB u => pw_piece_of v o = RUB u
  | NoFuel => pw_piece_of v o = RNoFuel
  end.
Proof.
  intros v o. unfold pw_piece_of, mbind, on_pieces. generalize (find_run v (pw_piece o) 0).
  destruct (find_piece v 0 (pw_piece o)) as [ps [i|]|ps e| |u|]; cbn.
  - intros [-> H]. exists ps. split; [reflexivity | exact H].
  - intros [-> H]. exists ps. split; [reflexivity | exact H].
  - intros [-> H]. exists ps. split; [reflexivity | exact H].
  - intros ->. auto.
  - intros ->. auto.
  - intros ->. auto.
Qed.

Lemma in_piece_find : forall v (o : pw V T),
  runs (pw_in_piece v o) (let* k := find_at v 0 (pw_piece o) in Ok (match k with Some _ => true | None => false end))
    (fun o' => pw_curr o' = pw_curr o /\ same_pieces (pw_piece o') (pw_piece o)).
Proof.
  intros v o. unfold pw_in_piece, mbind, on_pieces. generalize (find_run v (pw_piece o) 0).
  destruct (find_piece v 0 (pw_piece o)) as [ps [i|]|ps e| |u|]; cbn.
  - intros [-> H]. auto.
  - intros [-> H]. auto.
  - intros [-> H]. auto.
  - intros ->. auto.
  - intros ->. auto.
  - intros ->. auto.
Qed.

Variable inv : T -> family V A -> Prop.

Lemma described_is : forall (o : pw V T) (l : cases V A), described inv o l <-> Forall2 (piece_is inv) (pw_piece o) l.
Proof. intros; split; intros H; exact H. Qed.

Lemma Forall2_len : forall (B C : Type) (R : B -> C -> Prop) x y, Forall2 R x y -> List.length x = List.length y.
Proof. induction 1; cbn; congruence. Qed.

Lemma vget_nat : forall (B : Type) (l : list B) k, vget l (Z.of_nat k) = match nth_error l k with Some b => Ok b | None => UB UBOutOfBounds end.
Proof.
  intros B l k. unfold vget. replace (0 <=? Z.of_nat k) with true by (symmetry; apply Z.leb_le; lia). rewrite Nat2Z.id. reflexivity.
Qed.

(** A call on the first piece whose conditions hold. *)
Lemma call_chosen : forall (B : Type) (m : M T B) v (o : pw V T) l k d, described inv o l -> chosen l v k -> nth_error l k = Some d ->
  exists ps p, same_pieces ps (pw_piece o) /\ nth_error ps k = Some p /\ piece_is inv p d /\
    pw_on v (on_expr m) o = match m (pc_expr p) with
      | RRet t b => RRet (mkPw (Some (Z.of_nat k)) (lset ps k (mkPiece t (pc_cond p)))) b
      | RThrow t e => RThrow (mkPw (Some (Z.of_nat k)) (lset ps k (mkPiece t (pc_cond p)))) e
      | RExit => RExit | RUB r => RUB r | RNoFuel => RNoFuel
      end.
Proof.
  intros B m v o l k d Hd Hc E.
  pose proof (piece_of_find v o) as H. rewrite (find_chosen inv v l (pw_piece o) k 0 Hd Hc) in H. rewrite Z.add_0_l in H.
  destruct H as (ps & H & Hs).
  destruct (is_nth inv ps l k d (same_is inv _ _ _ Hs Hd) E) as (p & Ep & Hp).
  exists ps, p. repeat split; auto; try apply Hp.
  unfold pw_on, mbind. rewrite H. unfold on_pieces. cbn. unfold on_elem. rewrite vget_nat, Ep.
  unfold on_expr. rewrite Nat2Z.id. destruct (m (pc_expr p)) as [t b|t e| |u|]; reflexivity.
Qed.

Lemma call_unmatched : forall (B : Type) (m : M (piece V T) B) v (o : pw V T) l, described inv o l -> unmatched l v ->
  exists ps, same_pieces ps (pw_piece o) /\ pw_on v m o = RThrow (mkPw (pw_curr o) ps) DomainError.
Proof.
  intros B m v o l Hd Hu. pose proof (piece_of_find v o) as H. rewrite (find_unmatched inv v l (pw_piece o) 0 Hd Hu) in H.
  destruct H as (ps & H & Hs). exists ps. split; auto. unfold pw_on, mbind. rewrite H. reflexivity.
Qed.

Lemma ask_pw : forall q v, ask (pw_class K) q v = pw_on v (on_expr (ask K q v)).
Proof. intros [|i|i j] v; reflexivity. Qed.

Lemma told_pw : forall (o : pw V T) q, told (pw_class K) o q = pw_read (fun p => told K (pc_expr p) q) o.
Proof. intros o [|i|i j]; reflexivity. Qed.

(** *** C38 *)
Lemma first_piece : forall (o : pw V T) l v k d q f, computes K inv -> described inv o l -> chosen l v k -> nth_error l k = Some d ->
  snd d q = Some f -> gives (ask (pw_class K) q v o) (f v) (fun o' => described inv o' l /\ pw_curr o' = Some (Z.of_nat k)).
Proof.
  intros o l v k d q f HK Hd Hc E Hf. rewrite ask_pw.
  destruct (call_chosen A (ask K q v) v o l k d Hd Hc E) as (ps & p & Hs & Ep & Hp & ->).
  pose proof (HK _ _ _ _ v (proj2 Hp) Hf) as H.
  assert (G : forall t, inv t (snd d) -> described inv (mkPw (Some (Z.of_nat k)) (lset ps k (mkPiece t (pc_cond p)))) l).
  { intros t Ht. apply described_is. cbn. eapply is_lset; eauto.
    - eapply same_is; eauto.
    - split; cbn; auto. apply Hp. }
  unfold gives in *. destruct (ask K q v (pc_expr p)) as [t b|t e| |u|]; auto; destruct H as [-> H]; repeat split; auto.
Qed.

Lemma no_piece : forall (o : pw V T) l v q, described inv o l -> unmatched l v ->
  exists o', ask (pw_class K) q v o = RThrow o' DomainError /\ described inv o' l /\ pw_curr o' = pw_curr o /\
    map pc_expr (pw_piece o') = map pc_expr (pw_piece o).
Proof.
  intros o l v q Hd Hu. rewrite ask_pw. destruct (call_unmatched A (on_expr (ask K q v)) v o l Hd Hu) as (ps & Hs & ->).
  exists (mkPw (pw_curr o) ps). repeat split; auto.
  - apply described_is. cbn. eapply same_is; eauto.
  - cbn. clear - Hs. induction Hs as [|p' p ps' ps [H _] H1 IH]; cbn; congruence.
Qed.

Lemma in_piece_iff : forall (o : pw V T) l v, described inv o l ->
  (forall k, chosen l v k -> exists o', pw_in_piece v o = RRet o' true /\ described inv o' l) /\
  (unmatched l v -> exists o', pw_in_piece v o = RRet o' false /\ described inv o' l).
Proof.
  intros o l v Hd. pose proof (in_piece_find v o) as H. split.
  - intros k Hc. rewrite (find_chosen inv v l (pw_piece o) k 0 Hd Hc) in H. cbn in H.
    destruct (pw_in_piece v o) as [o' b|o' e| |u|]; cbn in H; try discriminate; destruct H as [E H]; try discriminate.
    injection E as <-. exists o'. split; auto. eapply same_is; [apply H | exact Hd].
  - intros Hu. rewrite (find_unmatched inv v l (pw_piece o) 0 Hd Hu) in H. cbn in H.
    destruct (pw_in_piece v o) as [o' b|o' e| |u|]; cbn in H; try discriminate; destruct H as [E H]; try discriminate.
    injection E as <-. exists o'. split; auto. eapply same_is; [apply H | exact Hd].
Qed.

Lemma piece_number : forall (o : pw V T) l v k, described inv o l -> chosen l v k ->
  exists o', pw_piece_of v o = RRet o' (Z.of_nat k) /\ described inv o' l.
Proof.
  intros o l v k Hd Hc. pose proof (piece_of_find v o) as H. rewrite (find_chosen inv v l (pw_piece o) k 0 Hd Hc), Z.add_0_l in H.
  destruct H as (ps & H & Hs). exists (mkPw (Some (Z.of_nat k)) ps). split; auto. eapply same_is; [apply Hs | exact Hd].
Qed.

Lemma conds_throw : forall v (cs : list (simple V bool)) cs1 c cs2 e, map sp_eval cs = cs1 ++ c :: cs2 -> holds cs1 v -> c v = Throw e ->
  conds_at cs v = Throw e.
Proof.
  intros v cs. induction cs as [|x cs IH]; intros cs1 c cs2 e E H Hc.
  - destruct cs1; discriminate.
  - destruct cs1 as [|y cs1]; cbn in E; injection E as E1 E2; subst.
    + cbn. now rewrite Hc.
    + inversion H; subst. cbn. rewrite H2. cbn. eapply IH; eauto.
Qed.

Lemma condition_throws : forall (o : pw V T) l1 cs1 c cs2 F l2 v q e, described inv o (l1 ++ (cs1 ++ c :: cs2, F) :: l2) ->
  unmatched l1 v -> holds cs1 v -> c v = Throw e ->
  exists o', ask (pw_class K) q v o = RThrow o' e /\ described inv o' (l1 ++ (cs1 ++ c :: cs2, F) :: l2) /\ pw_curr o' = pw_curr o.
Proof.
  intros o l1 cs1 c cs2 F l2 v q e Hd Hu Hh Hc.
  assert (Hf : forall ps i, Forall2 (piece_is inv) ps (l1 ++ (cs1 ++ c :: cs2, F) :: l2) -> find_at v i ps = Throw e).
  { clear Hd. induction l1 as [|d l1 IH]; intros ps i Hp; inversion Hp as [|p0 d0 ps0 l0 [H1 _] Hr]; subst; cbn.
    - now rewrite (conds_throw v _ cs1 c cs2 e H1 Hh Hc).
    - inversion Hu; subst. rewrite conds_fail by (now rewrite H1). cbn. apply IH; auto. }
  rewrite ask_pw. pose proof (piece_of_find v o) as H. rewrite (Hf (pw_piece o) 0 Hd) in H.
  destruct H as (ps & H & Hs). exists (mkPw (pw_curr o) ps). unfold pw_on, mbind. rewrite H. repeat split; auto.
  apply described_is. cbn. eapply same_is; eauto.
Qed.

(** With conditions that always yield a truth value, exactly one of the two cases arises. *)
Lemma holds_or_fails : forall (cs : list (V -> outcome bool)) v, (forall c, In c cs -> exists b, c v = Ok b) -> holds cs v \/ fails cs v.
Proof.
  induction cs as [|c cs IH]; intros v H.
  - left. constructor.
  - destruct (H c (or_introl eq_refl)) as [[|] E].
    + destruct (IH v) as [G | (c1 & x & c2 & -> & G & Ex)].
      * intros x Hx. apply H. now right.
      * left. now constructor.
      * right. exists (c :: c1), x, c2. repeat split; auto. now constructor.
    + right. exists [], c, cs. repeat split; auto. constructor.
Qed.

Lemma chosen_or_unmatched : forall (l : cases V A) v, decisive l -> (exists k, chosen l v k) \/ unmatched l v.
Proof.
  induction l as [|d l IH]; intros v H.
  - right. constructor.
  - destruct (holds_or_fails (fst d) v) as [G|G].
    + intros c Hc. apply (H d c v); auto. now left.
    + left. exists 0%nat. split; [exists d; auto|]. intros i d' Hi. lia.
    + destruct (IH v) as [(k & (d' & E & Hd) & Hk) | Hu].
      * intros d' c w Hin. apply H. now right.
      * left. exists (Datatypes.S k). split; [exists d'; auto|]. intros [|i] d2 Hi E2; cbn in E2.
        -- injection E2 as <-. exact G.
        -- apply (Hk i d2); [lia | exact E2].
      * right. now constructor.
Qed.

(** A piecewise function is itself a function that can be a piece. *)
Lemma nested : computes K inv -> computes (pw_class K) (fun o F => exists l, decisive l /\ described inv o l /\ by_cases l F).
Proof.
  intros HK o F q f v (l & Hdec & Hd & HF) Hf. destruct (HF q f Hf) as (Hq & Hc & Hu).
  destruct (chosen_or_unmatched l v Hdec) as [[k Hk] | Hn].
  - destruct Hk as [(d & E & Hh) Hk]. destruct (snd d q) as [g|] eqn:Eg.
    + rewrite (Hc v k d g) by (auto; split; eauto).
      assert (Hch : chosen l v k) by (split; eauto).
      pose proof (first_piece o l v k d q g HK Hd Hch E Eg) as H. unfold gives in *.
      destruct (ask (pw_class K) q v o) as [o' b|o' e| |u|]; auto; destruct H as [-> [H _]]; eauto.
    + exfalso. apply (Hq d); auto. eapply nth_error_In; eauto.
  - rewrite (Hu v Hn). destruct (no_piece o l v q Hd Hn) as (o' & -> & Ho & _). cbn. eauto.
Qed.

(** *** C39 *)
Lemma find_ps : forall v (ps : list (piece V T)) (f : piece V T -> outcome (simple_piece V A)) l i,
  (forall p s, f p = Ok s -> sq_cond s = pc_cond p) -> simple_pieces f ps = Ok l ->
  (let* k := find_at v i ps in match k with Some j => Ok j | None => Throw DomainError end) = ps_piece_from i l v /\
  (let* k := find_at v 0 ps in Ok (match k with Some _ => true | None => false end)) = ps_in_piece l v.
Proof.
  intros v ps f l i Hf. revert l i. induction ps as [|p ps IH]; intros l i H; cbn in H.
  - injection H as <-. auto.
  - destruct (f p) as [s| | | |] eqn:E; cbn in H; try discriminate.
    destruct (simple_pieces f ps) as [r| | | |]; cbn in H; try discriminate. injection H as <-.
    cbn. unfold sq_in_piece. rewrite (Hf _ _ E).
    assert (G : forall i j, (let* k := find_at v i ps in Ok (match k with Some _ => true | None => false end)) =
                            (let* k := find_at v j ps in Ok (match k with Some _ => true | None => false end))).
    { clear. induction ps as [|p ps IH]; intros i j; cbn; auto. destruct (conds_at (pc_cond p) v) as [[|]| | | |]; cbn; auto. }
    destruct (conds_at (pc_cond p) v) as [[|]| | | |]; cbn; auto.
    split; [apply (IH r (i + 1) eq_refl)|]. rewrite (G 1 0). apply (IH r 0 eq_refl).
Qed.

Definition simplepiece_of (q : quantity) (p : piece V T) : outcome (simple_piece V A) :=
  let* s := ask_simple K q (pc_expr p) in Ok (mkSP s (pc_cond p)).

Lemma ask_simple_pw : forall q (o : pw V T), ask_simple (pw_class K) q o =
  let* l := simple_pieces (simplepiece_of q) (pw_piece o) in Ok (ps_simple l).
Proof. intros [|i|i j] o; reflexivity. Qed.

Lemma simplepiece_cond : forall q p s, simplepiece_of q p = Ok s -> sq_cond s = pc_cond p.
Proof.
  intros q p s H. unfold simplepiece_of in H. destruct (ask_simple K q (pc_expr p)); cbn in H; try discriminate. now injection H as <-.
Qed.

Lemma simple_pieces_agree : forall q (ps : list (piece V T)) (l : cases V A), simple_forms K inv ->
  Forall2 (piece_is inv) ps l -> (forall d, In d l -> snd d q <> None) ->
  exists sl, simple_pieces (simplepiece_of q) ps = Ok sl /\ forall v i,
    ps_eval sl v = let* k := find_at v i ps in
                   match k with
                   | None => Throw DomainError
                   | Some j => match nth_error l (Z.to_nat (j - i)) with
                               | Some d => match snd d q with Some f => f v | None => UB UBOutOfBounds end
                               | None => UB UBOutOfBounds
                               end
                   end.
Proof.
  intros q ps l HS H. induction H as [|p d ps l [Hc Hi] H IH]; intros Hq.
  - exists []. auto.
  - destruct IH as (sl & E & Hv). { intros d' Hd'. apply Hq. now right. }
    cbn. destruct (snd d q) as [f|] eqn:Ef; [|exfalso; apply (Hq d); auto; now left].
    destruct (HS _ _ _ _ Hi Ef) as (s & Es & Hs). unfold simplepiece_of at 1. rewrite Es. cbn. rewrite E. cbn.
    eexists. split; [reflexivity|]. intros v i. cbn. unfold sq_in_piece. cbn.
    destruct (conds_at (pc_cond p) v) as [[|]| | | |]; cbn; auto.
    + rewrite Z.sub_diag. cbn. rewrite Ef. apply Hs.
    + rewrite (Hv v (i + 1)). assert (G : forall j, find_at v (i + 1) ps = Ok (Some j) -> i + 1 <= j).
      { clear. intros j. generalize (i + 1). clear i. induction ps as [|p ps IH]; intros i H; cbn in H; try discriminate.
        destruct (conds_at (pc_cond p) v) as [[|]| | | |]; cbn in H; try discriminate.
        - injection H as <-. lia.
        - apply IH in H. lia. }
      destruct (find_at v (i + 1) ps) as [[j|]| | | |] eqn:Ej; cbn; auto.
      specialize (G j eq_refl). replace (Z.to_nat (j - i)) with (Datatypes.S (Z.to_nat (j - (i + 1)))) by lia. reflexivity.
Qed.

Lemma ask_by_find : forall q v (o : pw V T) (l : cases V A), computes K inv -> described inv o l -> (forall d, In d l -> snd d q <> None) ->
  res_outcome (ask (pw_class K) q v o) = let* k := find_at v 0 (pw_piece o) in
                   match k with
                   | None => Throw DomainError
                   | Some j => match nth_error l (Z.to_nat (j - 0)) with
                               | Some d => match snd d q with Some f => f v | None => UB UBOutOfBounds end
                               | None => UB UBOutOfBounds
                               end
                   end.
Proof.
  intros q v o l HK Hd Hq. rewrite ask_pw. pose proof (piece_of_find v o) as H. unfold pw_on, mbind.
  destruct (find_at v 0 (pw_piece o)) as [[j|]|e| |u|] eqn:E; cbn; try (rewrite H; reflexivity);
    try (destruct H as (ps & -> & Hs); reflexivity).
  destruct H as (ps & -> & Hs). unfold on_pieces. cbn.
  assert (G : forall (ps0 : list (piece V T)) i, find_at v i ps0 = Ok (Some j) -> exists n p, j = i + Z.of_nat n /\ nth_error ps0 n = Some p).
  { clear. intros ps0. induction ps0 as [|p ps0 IH]; intros i H; cbn in H; try discriminate.
    destruct (conds_at (pc_cond p) v) as [[|]| | | |]; cbn in H; try discriminate.
    - injection H as <-. exists 0%nat, p. split; [lia | reflexivity].
    - destruct (IH _ H) as (n & p0 & -> & E). exists (Datatypes.S n), p0. split; [lia | exact E]. }
  destruct (G _ _ E) as (n & p0 & -> & En). rewrite Z.add_0_l, Z.sub_0_r, Nat2Z.id.
  destruct (same_nth _ _ _ _ Hs En) as (p & Ep & Hp).
  unfold on_elem. rewrite vget_nat, Ep.
  pose proof (same_is inv _ _ _ Hs Hd) as Hi.
  assert (L : exists d, nth_error l n = Some d /\ piece_is inv p d).
  { clear - Hi Ep. revert n Ep. induction Hi; intros [|n] Ep; cbn in *; try discriminate; eauto. injection Ep as <-. eauto. }
  destruct L as (d & Ed & Hpd). rewrite Ed. destruct (snd d q) as [f|] eqn:Ef.
  - pose proof (HK _ _ _ _ v (proj2 Hpd) Ef) as H. unfold on_expr. destruct (ask K q v (pc_expr p)) as [t b|t e| |u|]; cbn in *; auto; destruct H as [H _]; auto.
  - exfalso. apply (Hq d); auto. eapply nth_error_In; eauto.
Qed.

Lemma simple_agrees : forall q (o : pw V T) (l : cases V A), computes K inv -> simple_forms K inv -> described inv o l ->
  (forall d, In d l -> snd d q <> None) ->
  exists s, ask_simple (pw_class K) q o = Ok s /\ forall v, sp_eval s v = res_outcome (ask (pw_class K) q v o).
Proof.
  intros q o l HK HS Hd Hq. destruct (simple_pieces_agree q (pw_piece o) l HS Hd Hq) as (sl & E & Hv).
  rewrite ask_simple_pw, E. exists (ps_simple sl). split; auto. intros v. cbn. rewrite (Hv v 0). symmetry. apply ask_by_find; auto.
Qed.

Lemma simple_in_piece : forall q (o : pw V T) sl v, simple_pieces (simplepiece_of q) (pw_piece o) = Ok sl ->
  ps_in_piece sl v = res_outcome (pw_in_piece v o) /\ ps_piece sl v = res_outcome (pw_piece_of v o).
Proof.
  intros q o sl v E. destruct (find_ps v (pw_piece o) (simplepiece_of q) sl 0 (simplepiece_cond q) E) as [H1 H2].
  split.
  - rewrite (runs_outcome _ _ _ _ _ (in_piece_find v o)). auto.
  - unfold ps_piece. rewrite <- H1. pose proof (piece_of_find v o) as H.
    destruct (find_at v 0 (pw_piece o)) as [[j|]|e| |u|]; cbn; try (destruct H as (ps & -> & _)); try rewrite H; reflexivity.
Qed.

(** *** C40 *)
Lemma same_expr : forall ps' ps, same_pieces ps' ps -> forall k p, nth_error ps' k = Some p -> exists p0, nth_error ps k = Some p0 /\ pc_expr p = @pc_expr V T p0.
Proof.
  intros ps' ps H. induction H as [|p' p ps' ps [H _] H1 IH]; intros [|k] x E; cbn in *; try discriminate; eauto.
  injection E as <-. eauto.
Qed.

(** What is in store in each piece. *)
Definition in_stores (ps : list (piece V T)) (l : cases V A) (m : nat -> memory A) : Prop :=
  forall k p d, nth_error ps k = Some p -> nth_error l k = Some d -> in_store K (pc_expr p) (snd d) (m k).

Lemma record_step : forall (o o' : pw V T) l q v k d f m, computes K inv -> stores K inv -> described inv o l -> chosen l v k -> nth_error l k = Some d ->
  snd d q = Some f -> in_stores (pw_piece o) l m ->
  ((exists a, ask (pw_class K) q v o = RRet o' a) \/ (exists e, ask (pw_class K) q v o = RThrow o' e)) ->
  described inv o' l /\ pw_curr o' = Some (Z.of_nat k) /\
  in_stores (pw_piece o') l (fun i => if Nat.eq_dec i k then recall (snd d) (m k) (q, v) else m i).
Proof.
  intros o o' l q v k d f m HK HS Hd Hc E Hf Hm Ho.
  pose proof (first_piece o l v k d q f HK Hd Hc E Hf) as Hg.
  destruct (call_chosen A (ask K q v) v o l k d Hd Hc E) as (ps & p & Hs & Ep & Hp & Ha). rewrite <- ask_pw in Ha.
  assert (Hx : exists p0, nth_error (pw_piece o) k = Some p0 /\ pc_expr p = pc_expr p0) by (eapply same_expr; eauto).
  destruct Hx as (p0 & Ep0 & Hx).
  pose proof (HS _ _ _ _ v (proj2 Hp) Hf) as Hst. pose proof (HK _ _ _ _ v (proj2 Hp) Hf) as Hco.
  assert (Hk : in_store K (pc_expr p) (snd d) (m k)) by (rewrite Hx; eapply Hm; eauto).
  assert (G : forall t, in_store K t (snd d) (recall (snd d) (m k) (q, v)) ->
    in_stores (lset ps k (mkPiece t (pc_cond p))) l (fun i => if Nat.eq_dec i k then recall (snd d) (m k) (q, v) else m i)).
  { intros t Ht i pi di Epi Edi. destruct (Nat.eq_dec i k) as [->|Hne].
    - rewrite nth_error_lset_same in Epi by (apply nth_error_Some; congruence). injection Epi as <-. cbn.
      replace di with d by congruence. exact Ht.
    - rewrite nth_error_lset_other in Epi by auto. destruct (same_expr _ _ Hs _ _ Epi) as (p1 & Ep1 & ->). eapply Hm; eauto. }
  rewrite Ha in Ho, Hg. unfold gives in *. destruct (ask K q v (pc_expr p)) as [t b|t e| |u|].
  - destruct Ho as [[a Ho]|[e Ho]]; [|discriminate]. injection Ho as <- <-. destruct Hg as [Hfv [Hg1 Hg2]].
    split; [exact Hg1|]. split; [exact Hg2|]. cbn. apply G. intros q' Hq'. unfold recall. cbn [fst snd]. rewrite Hf, Hfv. unfold remember.
    destruct (quantity_eq_dec q' q) as [->|Hn].
    + apply Hst.
    + destruct Hst as [_ Hst]. rewrite Hst by auto. apply Hk. exact Hq'.
  - destruct Ho as [[a Ho]|[e' Ho]]; [discriminate|]. injection Ho as <- <-. destruct Hg as [Hfv [Hg1 Hg2]].
    split; [exact Hg1|]. split; [exact Hg2|]. cbn. apply G. intros q' Hq'. unfold recall. cbn [fst snd]. rewrite Hf, Hfv.
    rewrite Hst by auto. apply Hk. exact Hq'.
  - destruct Ho as [[a Ho]|[e Ho]]; discriminate.
  - destruct Ho as [[a Ho]|[e Ho]]; discriminate.
  - destruct Ho as [[a Ho]|[e Ho]]; discriminate.
Qed.

Lemma miss_step : forall (o o' : pw V T) l q v m, described inv o l -> unmatched l v -> in_stores (pw_piece o) l m ->
  ((exists a, ask (pw_class K) q v o = RRet o' a) \/ (exists e, ask (pw_class K) q v o = RThrow o' e)) ->
  described inv o' l /\ pw_curr o' = pw_curr o /\ in_stores (pw_piece o') l m.
Proof.
  intros o o' l q v m Hd Hu Hm Ho. rewrite ask_pw in Ho.
  destruct (call_unmatched A (on_expr (ask K q v)) v o l Hd Hu) as (ps & Hs & H). rewrite H in Ho.
  destruct Ho as [[a Ho]|[e Ho]]; [discriminate|]. injection Ho as <- _. split; [|split]; auto.
  - apply described_is. cbn. eapply same_is; eauto.
  - intros k p d Ep Ed. destruct (same_expr _ _ Hs _ _ Ep) as (p1 & Ep1 & ->). eapply Hm; eauto.
Qed.

Lemma record_run : forall l c0 m0 h c m, recorded l c0 m0 h c m -> computes K inv -> stores K inv ->
  (forall d q, In d l -> In q (map fst h) -> snd d q <> None) ->
  forall (o o' : pw V T), described inv o l -> in_stores (pw_piece o) l m0 -> pw_curr o = option_map Z.of_nat c0 ->
  asked (pw_class K) o h o' ->
  described inv o' l /\ pw_curr o' = option_map Z.of_nat c /\ in_stores (pw_piece o') l m.
Proof.
  intros l c0 m0 h c m Hr HK HS. induction Hr as [|h c m q v k d Hr IH Hc E|h c m q v Hr IH Hu]; intros Hq o o' Hd Hm Hcur Ha.
  - inversion Ha; subst; auto. destruct h; discriminate.
  - inversion Ha as [t Et|t h' t1 q' v' t2 Ha1 Ho Et Eh]; subst; [exfalso; destruct h; discriminate|].
    apply app_inj_tail in Eh. destruct Eh as [<- [= -> ->]].
    destruct (IH) with (o := o) (o' := t1) as (Hd1 & Hc1 & Hm1); auto.
    { intros d' q' Hin Hin2. apply Hq; auto. rewrite map_app. apply in_or_app. now left. }
    destruct (snd d q) as [f|] eqn:Ef.
    + exact (record_step t1 o' l q v k d f m HK HS Hd1 Hc E Ef Hm1 Ho).
    + exfalso. apply (Hq d q); auto. { eapply nth_error_In; eauto. } rewrite map_app. apply in_or_app. right. now left.
  - inversion Ha as [t Et|t h' t1 q' v' t2 Ha1 Ho Et Eh]; subst; [exfalso; destruct h; discriminate|].
    apply app_inj_tail in Eh. destruct Eh as [<- [= -> ->]].
    destruct (IH) with (o := o) (o' := t1) as (Hd1 & Hc1 & Hm1); auto.
    { intros d' q' Hin Hin2. apply Hq; auto. rewrite map_app. apply in_or_app. now left. }
    destruct (miss_step t1 o' l q v m Hd1 Hu Hm1 Ho) as (? & H2 & ?). rewrite H2. auto.
Qed.

Lemma getter_record : forall l m0 h c m (o o' : pw V T) q, computes K inv -> stores K inv -> described inv o l ->
  (forall d q, In d l -> snd d q <> None \/ ~ In q (map fst h)) ->
  (forall k p d, nth_error (pw_piece o) k = Some p -> nth_error l k = Some d -> in_store K (pc_expr p) (snd d) (m0 k)) ->
  pw_curr o = None -> asked (pw_class K) o h o' -> recorded l None m0 h c m -> (forall d, In d l -> snd d q <> None) ->
  told (pw_class K) o' q = match c with None => UB UBUninit | Some k => read_member (m k q) end.
Proof.
  intros l m0 h c m o o' q HK HS Hd Hq Hm Hcur Ha Hr Hql.
  destruct (record_run l None m0 h c m Hr HK HS) with (o := o) (o' := o') as (Hd' & Hc' & Hm'); auto.
  { intros d q' Hd1 Hq1. destruct (Hq d q' Hd1); tauto. }
  rewrite told_pw. unfold pw_read. rewrite Hc'. destruct c as [k|]; cbn; auto.
  rewrite vget_nat. assert (Hlen : exists d, nth_error l k = Some d).
  { clear - Hr. remember (Some k) as c eqn:Ec. revert k Ec. induction Hr; intros k0 Ec; try discriminate; auto.
    injection Ec as <-. eauto. }
  destruct Hlen as (d & Ed). destruct (is_nth inv _ _ _ _ Hd' Ed) as (p & Ep & Hp). rewrite Ep. cbn.
  apply (Hm' k p d Ep Ed). apply Hql. eapply nth_error_In; eauto.
Qed.

(** Inside one piece the getters are right. *)
Lemma one_piece_record : forall (l : cases V A) k d m0 h, nth_error l k = Some d -> (forall qv, In qv h -> chosen l (snd qv) k) ->
  exists m, recorded l (Some k) m0 h (Some k) m /\ m k = fold_left (recall (snd d)) h (m0 k).
Proof.
  intros l k d m0 h E. induction h as [|[q v] h IH] using rev_ind; intros H.
  - exists m0. split; [constructor | reflexivity].
  - destruct IH as (m & Hr & Hm). { intros qv Hin. apply H. apply in_or_app. now left. }
    eexists. split.
    + eapply RcHit; eauto. apply (H (q, v)). apply in_or_app. right. now left.
    + cbn. rewrite fold_left_app. cbn. destruct (Nat.eq_dec k k); [|congruence]. now rewrite Hm.
Qed.

Lemma getter_one_piece : forall (l : cases V A) k d m0 h (o o' : pw V T) q, computes K inv -> stores K inv -> described inv o l ->
  nth_error l k = Some d -> (forall qv, In qv h -> chosen l (snd qv) k) ->
  (forall d q, In d l -> In q (map fst h) -> snd d q <> None) ->
  (forall k p d, nth_error (pw_piece o) k = Some p -> nth_error l k = Some d -> in_store K (pc_expr p) (snd d) (m0 k)) ->
  pw_curr o = Some (Z.of_nat k) -> asked (pw_class K) o h o' -> snd d q <> None ->
  told (pw_class K) o' q = read_member (fold_left (recall (snd d)) h (m0 k) q).
Proof.
  intros l k d m0 h o o' q HK HS Hd E Hh Hq Hm Hcur Ha Hql.
  destruct (one_piece_record l k d m0 h E Hh) as (m & Hr & Hmk).
  destruct (record_run l (Some k) m0 h (Some k) m Hr HK HS Hq o o' Hd Hm Hcur Ha) as (Hd' & Hc' & Hm').
  rewrite told_pw. unfold pw_read. rewrite Hc'. cbn. rewrite vget_nat.
  destruct (is_nth inv _ _ _ _ Hd' E) as (p & Ep & Hp). rewrite Ep. cbn. rewrite <- Hmk. exact (Hm' k p d Ep E q Hql).
Qed.

Lemma getter_miss : forall l (o o' : pw V T) q v e q', described inv o l -> unmatched l v ->
  ask (pw_class K) q v o = RThrow o' e -> told (pw_class K) o' q' = told (pw_class K) o q'.
Proof.
  intros l o o' q v e q' Hd Hu Ho. rewrite ask_pw in Ho.
  destruct (call_unmatched A (on_expr (ask K q v)) v o l Hd Hu) as (ps & Hs & H). rewrite H in Ho. injection Ho as <- _.
  rewrite !told_pw. unfold pw_read. cbn. destruct (pw_curr o) as [i|]; cbn; auto.
  unfold vget. destruct (0 <=? i); cbn; auto.
  destruct (nth_error (pw_piece o) (Z.to_nat i)) as [p|] eqn:Ep.
  - destruct (same_nth _ _ _ _ Hs Ep) as (p' & -> & [Hp _]). cbn. now rewrite Hp.
  - apply nth_error_None in Ep. replace (nth_error ps (Z.to_nat i)) with (@None (piece V T)); auto.
    symmetry. apply nth_error_None. rewrite (Forall2_len _ _ _ _ _ Hs). exact Ep.
Qed.

Lemma getter_fresh : forall l (o o' : pw V T) q v a, computes K inv -> stores K inv -> described inv o l -> decisive l ->
  (forall d, In d l -> snd d q <> None) -> ask (pw_class K) q v o = RRet o' a -> told (pw_class K) o' q = Ok a.
Proof.
  intros l o o' q v a HK HS Hd Hdec Hq Ho. destruct (chosen_or_unmatched l v Hdec) as [[k Hk] | Hu].
  - pose proof Hk as [(d & E & _) _]. destruct (snd d q) as [f|] eqn:Ef; [|exfalso; apply (Hq d); auto; eapply nth_error_In; eauto].
    destruct (call_chosen A (ask K q v) v o l k d Hd Hk E) as (ps & p & Hs & Ep & Hp & Ha). rewrite <- ask_pw in Ha. rewrite Ho in Ha.
    pose proof (HS _ _ _ _ v (proj2 Hp) Ef) as H. destruct (ask K q v (pc_expr p)) as [t b|t e| |u|]; try discriminate.
    injection Ha as -> ->. rewrite told_pw. unfold pw_read. cbn. rewrite vget_nat, nth_error_lset_same by (apply nth_error_Some; congruence).
    cbn. apply H.
  - destruct (no_piece o l v q Hd Hu) as (o2 & H & _). congruence.
Qed.

(** eval_grad and eval_hess act on the first piece whose conditions hold, and on no other. *)
Lemma eval_first : forall (B : Type) (m : M T B) v (o : pw V T) l k d, described inv o l -> chosen l v k -> nth_error l k = Some d ->
  exists t, nth_error (map pc_expr (pw_piece o)) k = Some t /\
    match m t with
    | RRet t' b => exists o', pw_on v (on_expr m) o = RRet o' b /\ map pc_expr (pw_piece o') = lset (map pc_expr (pw_piece o)) k t' /\ pw_curr o' = Some (Z.of_nat k)
    | RThrow t' e => exists o', pw_on v (on_expr m) o = RThrow o' e /\ map pc_expr (pw_piece o') = lset (map pc_expr (pw_piece o)) k t' /\ pw_curr o' = Some (Z.of_nat k)
    | RExit => pw_on v (on_expr m) o = RExit
    | RUB r => pw_on v (on_expr m) o = RUB r
    | RNoFuel => pw_on v (on_expr m) o = RNoFuel
    end.
Proof.
  intros B m v o l k d Hd Hc E. destruct (call_chosen B m v o l k d Hd Hc E) as (ps & p & Hs & Ep & Hp & ->).
  assert (Hmap : map pc_expr ps = map pc_expr (pw_piece o)).
  { clear - Hs. induction Hs as [|p' p ps' ps [H _] H1 IH]; cbn; congruence. }
  exists (pc_expr p). split.
  - rewrite <- Hmap. now apply map_nth_error.
  - rewrite <- Hmap. destruct (m (pc_expr p)) as [t b|t e| |u|]; auto; eexists; (split; [reflexivity|]); cbn; split; auto;
      clear; revert k; induction ps as [|x ps IH]; intros [|k]; cbn; f_equal; auto.
Qed.
End Class.

(** *** The functions of the sample library *)
Section Fobj.
Context {V A : Type}.

Lemma fobj_ask : forall q (v : V), ask (@fobj_class V A) q v = evaluate q v.
Proof. intros [|i|i j] v; reflexivity. Qed.

Lemma fobj_told : forall (o : fobj V A) q, told fobj_class o q = stored o q.
Proof. intros o [|i|i j]; reflexivity. Qed.

Lemma fobj_computes : computes (@fobj_class V A) built_from.
Proof.
  intros o F q f v Hb Hf. rewrite fobj_ask. unfold gives.
  pose proof (evaluate_outcome o F q f v Hb Hf) as H.
  destruct (evaluate q v o) as [o' a|o' e| |u|] eqn:E; cbn in H; auto.
  - destruct (evaluate_spec o F q f v a Hb Hf (eq_sym H)) as (o2 & E2 & Hb2 & _). split; auto. congruence.
  - pose proof (evaluate_throw_spec o F q f v e Hb Hf (eq_sym H)) as H2. split; auto. congruence.
Qed.

Lemma fobj_simple : simple_forms (@fobj_class V A) built_from.
Proof.
  intros o F q f Hb Hf. rewrite (component_family o F Hb q) in Hf.
  assert (E : ask_simple fobj_class q o = component o q) by (destruct q; reflexivity).
  rewrite E. destruct (component o q) as [s| | | |]; try discriminate. exists s. split; auto. intros v. congruence.
Qed.

Lemma fobj_stores : stores (@fobj_class V A) built_from.
Proof.
  intros o F q f v Hb Hf. rewrite fobj_ask. pose proof (evaluate_outcome o F q f v Hb Hf) as H.
  destruct (evaluate q v o) as [o' a|o' e| |u|] eqn:E; cbn in H; auto.
  - destruct (evaluate_spec o F q f v a Hb Hf (eq_sym H)) as (o2 & E2 & Hb2 & Hs1 & Hs2). assert (o2 = o') by congruence. subst o2.
    rewrite !fobj_told. split; auto. intros q' _ Hn. rewrite !fobj_told. auto.
  - pose proof (evaluate_throw_spec o F q f v e Hb Hf (eq_sym H)) as H2. intros q' _. congruence.
Qed.
End Fobj.
