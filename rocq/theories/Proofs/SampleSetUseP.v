(** What programs with generated basis sets see, and the generated classes. *)
From Coq Require Import ZArith QArith String List Bool Lia Reals.
From Coquelicot Require Import Coquelicot.
From Coq Require Import List.
From Verif Require Import Model.Outcome Model.Num Model.NumInst Model.PSimple Model.Wrapper Model.BasisSet Model.PFlex Model.CExpr Model.Samples Model.SampleSet.
From Verif Require Import Spec.Basis Spec.SampleSet Spec.Poly.
From Verif Require Import Proofs.OutcomeP Proofs.PolyP Proofs.BasisP Proofs.SampleSetsP Proofs.SampleSetP.
Import ListNotations.
Local Open Scope Z_scope.

Section Use.
Context {X A : Type} (c : setclass X A) (d : A) (F : terms X A) (CF : class_of_functions c F).

Lemma set_run_app {T : Type} (I : methods X A T) os os' h : set_run I (os ++ os') h =
  (let* r := set_run I os h in let* r' := set_run I os' (fst r) in Ok (fst r', snd r ++ snd r')).
Proof.
  revert h. induction os as [|o os IH]; intros h; cbn [app set_run].
  - cbn [obind fst snd app]. destruct (set_run I os' h) as [[h1 l]| | | |]; reflexivity.
  - destruct (set_step I o h) as [[h1 a]| | | |]; cbn [obind fst snd]; try reflexivity. rewrite IH.
    destruct (set_run I os h1) as [[h2 l]| | | |]; cbn [obind fst snd]; try reflexivity. destruct (set_run I os' h2) as [[h3 l']| | | |]; reflexivity.
Qed.

Lemma seen_app {T : Type} (I : methods X A T) os os' l : seen I (os ++ os') = Ok l ->
  exists h l1 h' l2, set_run I os [] = Ok (h, l1) /\ set_run I os' h = Ok (h', l2) /\ l = l1 ++ l2.
Proof.
  unfold seen. rewrite set_run_app. destruct (set_run I os []) as [[h l1]| | | |]; cbn [obind fst snd]; try discriminate.
  destruct (set_run I os' h) as [[h' l2]| | | |] eqn:E; cbn [obind fst snd]; try discriminate. intros H. injection H as <-. exists h, l1, h', l2. auto.
Qed.

(** The objects of a program. *)
Lemma live_same os h l x s : Forall unsigned_sizes os -> set_run (object_methods c d) os [] = Ok (h, l) -> h_read h x = Ok s -> exists b, same c F s b.
Proof.
  intros U E R. pose proof (run_rel_ok c d F CF os U [] [] (Forall2_nil _)) as G. rewrite E in G.
  destruct (set_run (family_methods (sk_name c) (sk_limit c) d F) os []) as [[h' l']| | | |]; simpl in G; try contradiction. destruct G as [_ H].
  destruct (rel_read c F h h' x H) as [(s' & b & E1 & E2 & S)|(E1 & _)]; [|congruence]. exists b. congruence.
Qed.

Lemma calls os x k t v l : Forall unsigned_sizes os -> seen (object_methods c d) (os ++ [SCall x k t v]) = Ok l ->
  exists l' a, l = l' ++ [One a] /\ 0 <= t < sk_limit c /\ F k t v = Ok a.
Proof.
  intros U E. destruct (seen_app _ _ _ _ E) as (h & l1 & h' & l2 & E1 & E2 & ->). exists l1. cbn [set_run set_step] in E2. unfold with_set in E2.
  destruct (h_read h x) as [s| | | |] eqn:R; cbn [obind] in E2; try discriminate. destruct (live_same os h l1 x s U E1 R) as (b & S).
  pose proof (call_same c F CF k t v s b S) as C. rewrite bevaluate_eq in C.
  assert (FF : fun_of b k t v = F k t v) by (pose proof (sa_fun c F _ _ S k) as Q; destruct k; unfold fun_of; rewrite Q; reflexivity). rewrite FF in C.
  change (me_call (object_methods c d) k t v s) with (obj_call k t v s) in E2. destruct CF as (_ & _ & CT & CO).
  destruct (Z_le_dec 0 t) as [P|P]; [destruct (Z_lt_dec t (sk_limit c)) as [Q|Q]|].
  - destruct (CT k t v) as (a & Ea); [lia|]. rewrite Ea in C |- *. exists a. split; [|auto].
    unfold vset in C. destruct ((0 <=? t) && (t <? Z.of_nat (length (cache b k)))); destruct (obj_call k t v s); simpl in C; try contradiction;
      cbn [obind] in E2; try discriminate. destruct C as [-> _]. simpl in E2. congruence.
  - rewrite CO in C by lia. destruct (obj_call k t v s); simpl in C; try contradiction; discriminate.
  - rewrite CO in C by lia. destruct (obj_call k t v s); simpl in C; try contradiction; discriminate.
Qed.

Lemma all_calls os x k v l : Forall unsigned_sizes os -> seen (object_methods c d) (os ++ [SSize x; SEval x k v]) = Ok l ->
  exists l' g, l = l' ++ [Size (Z.of_nat (length g)); All g] /\ Z.of_nat (length g) <= sk_limit c /\
    forall i a, nth_error g i = Some a -> F k (Z.of_nat i) v = Ok a.
Proof.
  intros U E. destruct (seen_app _ _ _ _ E) as (h & l1 & h' & l2 & E1 & E2 & ->). exists l1. cbn [set_run set_step] in E2. unfold with_set in E2.
  destruct (h_read h x) as [s| | | |] eqn:R; cbn [obind fst snd] in E2; try discriminate. rewrite R in E2. cbn [obind fst snd] in E2.
  destruct (live_same os h l1 x s U E1 R) as (b & S).
  pose proof (eval_same c F CF k v s b S) as C. destruct CF as (_ & _ & CT & CO). destruct (sa_val c F _ _ S) as (V1 & V2 & V3), (sa_size c F _ _ S) as (R1 & R2 & R3).
  pose proof (sa_lim c F _ _ S) as LL.
  set (g := fun t => match F k t v with Ok a => a | _ => d end).
  assert (EB : bevaluate_all k v b = RRet (set_cache b k (map g (zseq (ms_size s)))) (map g (zseq (ms_size s)))).
  { apply all_return_gen.
    - unfold ms_size. lia.
    - intros k'. unfold ms_size. rewrite Nat2Z.id. destruct k'; simpl; congruence.
    - intros t Ht. assert (FF : fun_of b k t v = F k t v) by (pose proof (sa_fun c F _ _ S k) as Q; destruct k; unfold fun_of; rewrite Q; reflexivity). rewrite FF.
      destruct (CT k t v) as (a & Ea); [lia|]. unfold g. rewrite Ea. reflexivity. }
  rewrite EB in C. change (me_eval (object_methods c d) k v s) with (obj_eval k v s) in E2.
  destruct (obj_eval k v s) as [s' r| | | |]; simpl in C; try contradiction. destruct C as [-> _]. cbn [obind fst snd] in E2.
  exists (map g (zseq (ms_size s))). unfold zseq. rewrite !map_length, seq_length. rewrite Z2Nat.id by (unfold ms_size; lia). split; [|split; [exact LL|]].
  - simpl in E2. unfold zseq in E2. congruence.
  - intros i a Hi. rewrite map_map in Hi. assert (Li : (i < Z.to_nat (ms_size s))%nat).
    { assert (i < length (map (fun y => g (Z.of_nat y)) (seq 0 (Z.to_nat (ms_size s)))))%nat by (apply nth_error_Some; congruence). rewrite map_length, seq_length in H. exact H. }
    rewrite (map_nth_error _ i _ (d := i)) in Hi by (rewrite nth_error_nth' with (d := 0%nat) by (rewrite seq_length; exact Li); rewrite seq_nth by exact Li; reflexivity).
    destruct (CT k (Z.of_nat i) v) as (a' & Ea); [lia|]. injection Hi as <-. unfold g. rewrite Ea. reflexivity.
Qed.
End Use.

(** ** The generated classes *)

(** Only x is read. *)
Fixpoint total1 (e : cexpr) : bool :=
  match e with
  | CNum _ _ => true
  | CVar k => Z.eqb k 0
  | CNeg a | CHat a _ => total1 a
  | CAdd a b | CSub a b | CMul a b | CDiv a b | CPow a b => total1 a && total1 b
  end.
Lemma total1_ok O pw x e : total1 e = true -> exists a, ceval O pw [x] e = Ok a.
Proof.
  assert (U : forall e1 e2 f, (total1 e1 = true -> exists a, ceval O pw [x] e1 = Ok a) -> (total1 e2 = true -> exists a, ceval O pw [x] e2 = Ok a) ->
    total1 e1 && total1 e2 = true -> exists a : num O, (let* u := ceval O pw [x] e1 in let* w := ceval O pw [x] e2 in Ok (f u w)) = Ok a).
  { intros e1 e2 f H1 H2 H. apply andb_true_iff in H. destruct H as [P1 P2]. destruct (H1 P1) as (u & ->), (H2 P2) as (w & ->). simpl. eauto. }
  induction e as [m y|k|e IH|e1 IH1 e2 IH2|e1 IH1 e2 IH2|e1 IH1 e2 IH2|e1 IH1 e2 IH2|e1 IH1 e2 IH2|e IH n]; cbn [total1 ceval]; intros H;
    try first [exact (U _ _ (nadd O) IH1 IH2 H)|exact (U _ _ (nsub O) IH1 IH2 H)|exact (U _ _ (nmul O) IH1 IH2 H)|exact (U _ _ (ndiv O) IH1 IH2 H)|exact (U _ _ pw IH1 IH2 H)].
  - eauto.
  - apply Z.eqb_eq in H. subst. exists x. reflexivity.
  - match goal with G : total1 e = true -> _ |- _ => destruct (G H) as (u & ->) end. simpl. eauto.
  - match goal with G : total1 e = true -> _ |- _ => destruct (G H) as (u & ->) end. simpl. eauto.
Qed.

Definition text_total (l : list sclass) (n : string) : bool := match named_code l n with Some e => total1 e | None => false end.
Definition cases_total (l : list sclass) (cases : list (string * string * string)) : bool :=
  Nat.eqb (length cases) 30 && forallb (fun c => forallb (fun k => text_total l (sel k c)) [KVal; KGrad; KHess]) cases.
Lemma sample_terms_sel O pw l cases k t x : sample_terms O pw l cases k t x = term_fun O pw l cases (sel k) t x.
Proof. destruct k; reflexivity. Qed.

Lemma sample_class_ok O pw name l cases : cases_total l cases = true -> class_of_functions (mkSetclass name 30 (sample_function O pw l cases)) (sample_terms O pw l cases).
Proof.
  unfold cases_total. intros H. apply andb_true_iff in H. destruct H as [HL HT]. apply Nat.eqb_eq in HL. rewrite forallb_forall in HT.
  assert (G : forall i, 0 <= i < 30 -> exists tr, vget cases i = Ok tr /\ In tr cases).
  { intros i Hi. destruct (nth_error cases (Z.to_nat i)) as [tr|] eqn:E; [|apply nth_error_None in E; lia]. exists tr. split; [|exact (nth_error_In _ _ E)].
    apply vget_some. split; [lia|exact E]. }
  split; [|split; [|split]]; cbn [sk_limit sk_function].
  - unfold size_too_big. lia.
  - intros i Hi. destruct (G i Hi) as (tr & E & _). unfold sample_function. destruct (Z.leb_spec 30 i); [lia|]. rewrite E. cbn [obind].
    eexists. split; [reflexivity|]. eexists _, _, _. split; [reflexivity|]. split; [reflexivity|]. split; [reflexivity|].
    split; [|split]; intros x; rewrite sample_terms_sel; unfold term_fun; rewrite E; reflexivity.
  - intros k i x Hi. destruct (G i Hi) as (tr & E & T). rewrite sample_terms_sel. unfold term_fun. rewrite E. cbn [obind]. rewrite named_eval_code.
    specialize (HT tr T). rewrite forallb_forall in HT. specialize (HT k ltac:(destruct k; simpl; auto)). unfold text_total in HT.
    destruct (named_code l (sel k tr)) as [e|]; [|discriminate]. apply total1_ok. exact HT.
  - intros k i x Hi. rewrite sample_terms_sel. unfold term_fun. rewrite vget_out; [reflexivity|]. lia.
Qed.

Lemma monomials_total : cases_total monomial_classes monomial_cases = true.
Proof. vm_compute. reflexivity. Qed.
Lemma chebyshevs_total : cases_total chebyshev_classes chebyshev_cases = true.
Proof. vm_compute. reflexivity. Qed.

Lemma sample_classes O pw :
  class_of_functions (monomial_class O pw) (sample_terms O pw monomial_classes monomial_cases) /\
  class_of_functions (chebyshev_class O pw) (sample_terms O pw chebyshev_classes chebyshev_cases).
Proof. split; apply sample_class_ok; [exact monomials_total|exact chebyshevs_total]. Qed.

(** Over the real numbers. *)
Lemma derived_poly p f k x : (forall y, peval p y = f y) -> derived k f x (peval (polyk k p) x).
Proof.
  intros H. unfold derived. destruct k; cbn [polyk].
  - symmetry. apply H.
  - apply (is_derive_n_ext (peval p)); [exact H|]. apply pderiv_ok.
  - apply (is_derive_n_ext (peval p)); [exact H|]. apply second_derivative.
Qed.
Lemma monomial_calls pw (d : R) os x k t v l : Forall unsigned_sizes os -> seen (object_methods (monomial_class ROps pw) d) (os ++ [SCall x k t (v : num ROps)]) = Ok l ->
  exists l' a, l = l' ++ [One a] /\ 0 <= t < 30 /\ derived k (fun y => y ^ Z.to_nat t)%R v a.
Proof.
  intros U E. destruct (calls _ _ _ (proj1 (sample_classes ROps pw)) os x k t v l U E) as (l' & a & -> & Ht & Ea). exists l', a. split; [reflexivity|]. split; [exact Ht|].
  rewrite sample_terms_sel in Ea. rewrite (term_fun_ok _ _ _ monomial_ok pw k t v Ht) in Ea. injection Ea as <-. apply derived_poly. intros y. apply xcoefs_ok.
Qed.
Lemma chebyshev_calls pw (d : R) os x k t v l : Forall unsigned_sizes os -> seen (object_methods (chebyshev_class ROps pw) d) (os ++ [SCall x k t (v : num ROps)]) = Ok l ->
  exists l' a, l = l' ++ [One a] /\ 0 <= t < 30 /\ derived k (chebyshev (Z.to_nat t)) v a.
Proof.
  intros U E. destruct (calls _ _ _ (proj2 (sample_classes ROps pw)) os x k t v l U E) as (l' & a & -> & Ht & Ea). exists l', a. split; [reflexivity|]. split; [exact Ht|].
  rewrite sample_terms_sel in Ea. rewrite (term_fun_ok _ _ _ chebyshev_ok pw k t v Ht) in Ea. injection Ea as <-. apply derived_poly. intros y. apply tcoefs_ok.
Qed.

(** ** An example *)
Lemma chebyshev_program :
  let os := [SNew 4; SCall 0 KVal 3 (2#1); SCopy 0; SCall 0 KVal 3 (3#1); SGet 1 KVal 3; SResize 1 6; SGet 1 KVal 3; SCall 1 KGrad 5 (1#1); SSize 1;
             SEval 0 KVal (2#1); SAssign 0 1; SSize 0; SGet 0 KGrad 5; SNew (2 ^ 64 - 1); SDestroy 1; SCall 0 KHess 2 (7#1)]%Q in
  seen (object_methods (chebyshev_class QOps (fun a _ => a)) 0%Q) os =
    Ok [Quiet; One (26#1); Quiet; One (99#1); One (26#1); Quiet; One (26#1); One (25#1); Size 6; All [1#1; 2#1; 7#1; 26#1]; Quiet; Size 6; One (25#1);
        Raised LengthError; Quiet; One (4#1)]%Q /\
  Forall unsigned_sizes os.
Proof. split; [vm_compute; reflexivity|repeat constructor; discriminate]. Qed.

Lemma chebyshev_ends :
  let I := object_methods (chebyshev_class QOps (fun a _ => a)) 0%Q in
  seen I [SNew 31] = Exit /\ seen I [SNew 30; SResize 0 31] = Exit /\ seen I [SNew 2; SCall 0 KVal 2 (1#1)%Q] = UB UBOutOfBounds /\
  seen I [SNew 2; SDestroy 0; SSize 0] = UB UBDangling.
Proof. vm_compute. auto. Qed.
